(** Model of /repo/src/decode/qr/blocks.rs. *)
From Verif.Model Require Export QR BlockInfo Format.
Open Scope Z_scope.

(** blocks.rs:190-200 *)
Record alignment_location_t := AL { al_start : Z; al_step : Z }.

(** blocks.rs:137-188 `alignment_location` *)
Definition alignment_location (version : Z) : res alignment_location_t :=
  match version with
  | 1 => Ok (AL 1000 1000)
  | 2 => Ok (AL 18 1000)
  | 3 => Ok (AL 22 1000)
  | 4 => Ok (AL 26 1000)
  | 5 => Ok (AL 30 1000)
  | 6 => Ok (AL 34 1000)
  | 7 => Ok (AL 22 16)
  | 8 => Ok (AL 24 18)
  | 9 => Ok (AL 26 20)
  | 10 => Ok (AL 28 22)
  | 11 => Ok (AL 30 24)
  | 12 => Ok (AL 32 26)
  | 13 => Ok (AL 34 28)
  | 14 => Ok (AL 26 20)
  | 15 => Ok (AL 26 22)
  | 16 => Ok (AL 26 24)
  | 17 => Ok (AL 30 24)
  | 18 => Ok (AL 30 26)
  | 19 => Ok (AL 30 28)
  | 20 => Ok (AL 34 28)
  | 21 => Ok (AL 28 22)
  | 22 => Ok (AL 26 24)
  | 23 => Ok (AL 30 24)
  | 24 => Ok (AL 28 26)
  | 25 => Ok (AL 32 26)
  | 26 => Ok (AL 30 28)
  | 27 => Ok (AL 34 28)
  | 28 => Ok (AL 26 24)
  | 29 => Ok (AL 30 24)
  | 30 => Ok (AL 26 26)
  | 31 => Ok (AL 30 26)
  | 32 => Ok (AL 34 26)
  | 33 => Ok (AL 30 28)
  | 34 => Ok (AL 34 28)
  | 35 => Ok (AL 30 24)
  | 36 => Ok (AL 24 26)
  | 37 => Ok (AL 28 26)
  | 38 => Ok (AL 32 26)
  | 39 => Ok (AL 26 28)
  | 40 => Ok (AL 30 28)
  | _ => Err (ENoAlignmentInfo version)
  end.

(** blocks.rs:121-135 `is_alignment_coord`.  `loc.start - 2` cannot underflow: every
    start of the table is at least 18; `% loc.step` cannot divide by zero. *)
Definition is_alignment_coord (loc : alignment_location_t) (coord : Z) : bool :=
  if (4 <=? coord) && (coord - 4 <=? 4) then true
  else if coord <? al_start loc - 2 then false
  else (coord - (al_start loc - 2)) mod (al_step loc) <=? 4.

(** blocks.rs:75-119 `is_data`.  The subtractions `data.side - 9` and `data.side - 12`
    are checked when they are evaluated (`&&` is lazy). *)
Definition is_data (q : qrdata) (loc : alignment_location_t) (x y : Z) : res bool :=
  if (x =? 6) || (y =? 6) then Ok false
  else if (x <? 9) && (y <? 9) then Ok false
  else
    s9 <- sub_Z (qside q) 9 ;;
    if (s9 <? x) && (y <? 9) then Ok false
    else if (x <? 9) && (s9 <? y) then Ok false
    else
      s12 <- (if 7 <=? qversion q then sub_Z (qside q) 12 else Ok 0) ;;
      if (7 <=? qversion q) && (s12 <? x) && (y <? 6) then Ok false
      else if (7 <=? qversion q) && (s12 <? y) && (x <? 6) then Ok false
      else if (x =? s9) && (y <? 9) then Ok true
      else if (y =? s9) && (x <? 9) then Ok true
      else if is_alignment_coord loc x && is_alignment_coord loc y then Ok false
      else Ok true.

(** blocks.rs:202-210 *)
Record blocks_t := mkBlocks {
  b_info : list block_info_t;
  b_blocks : list (list N);
  b_round : nat;
  b_max_data_round : nat;
  b_block : nat;
  b_data_blocks : bool
}.

(** blocks.rs:213-233 `Blocks::new` *)
Definition blocks_new (info : list block_info_t) : blocks_t :=
  let max_data_round :=
    fold_left (fun m bi => if Nat.ltb m (data_per bi) then data_per bi else m) info 0%nat in
  mkBlocks info (map (fun _ => []) info) 0 max_data_round 0 true.

(** blocks.rs:246-257 `Blocks::inc_count` *)
Definition inc_count (b : blocks_t) : res blocks_t :=
  last <- sub_nat (length (b_info b)) 1 ;;
  if Nat.eqb (b_block b) last then
    let round := S (b_round b) in
    Ok (mkBlocks (b_info b) (b_blocks b) round (b_max_data_round b) 0
                 (if Nat.eqb round (b_max_data_round b) then false else b_data_blocks b))
  else
    Ok (mkBlocks (b_info b) (b_blocks b) (b_round b) (b_max_data_round b)
                 (S (b_block b)) (b_data_blocks b)).

(** blocks.rs:236-238: the `while` of `push` *)
Fixpoint push_skip (fuel : nat) (b : blocks_t) : res blocks_t :=
  match fuel with
  | O => Panic PFuel
  | S fuel =>
      if b_data_blocks b then
        bi <- get (b_info b) (b_block b) ;;
        last <- sub_nat (data_per bi) 1 ;;
        if Nat.ltb last (b_round b)
        then b' <- inc_count b ;; push_skip fuel b'
        else Ok b
      else Ok b
  end.

(** blocks.rs:235-244 `Blocks::push`.  The loop passes each block at most once per
    round, hence the fuel. *)
Definition blocks_push (b : blocks_t) (byte : N) : res blocks_t :=
  b1 <- push_skip (2 * length (b_info b) + 2) b ;;
  blk <- get (b_blocks b1) (b_block b1) ;;
  bs <- set (b_blocks b1) (b_block b1) (blk ++ [byte]) ;;
  inc_count (mkBlocks (b_info b1) bs (b_round b1) (b_max_data_round b1)
                      (b_block b1) (b_data_blocks b1)).

(** blocks.rs:260-264 *)
Record codewords_t := mkCodewords {
  cw_current : N;
  cw_count : N;
  cw_blocks : blocks_t
}.

(** blocks.rs:267-273 `Codewords::new` *)
Definition codewords_new (info : list block_info_t) : codewords_t :=
  mkCodewords 0 0 (blocks_new info).

(** blocks.rs:275-285 `Codewords::add_bit` *)
Definition add_bit (c : codewords_t) (bit : N) : res codewords_t :=
  cur <- mul_u8 (cw_current c) 2 ;;
  cur <- add_u8 cur bit ;;
  count <- add_u8 (cw_count c) 1 ;;
  if N.eqb count 8 then
    b <- blocks_push (cw_blocks c) cur ;;
    Ok (mkCodewords 0 0 b)
  else Ok (mkCodewords cur count (cw_blocks c)).

(** blocks.rs:66-73 `y_range`.  [Z.rem] is Rust's `%` on i64. *)
Definition y_range (x side : Z) : list Z :=
  let x := if x <? 6 then x + 1 else x in
  let ys := map Z.of_nat (range 0 (Z.to_nat side)) in
  if Z.rem (x - side + 1) 4 =? 0 then rev ys else ys.

(** blocks.rs:17-23: body of the inner loop *)
Definition read_pair (q : qrdata) (loc : alignment_location_t) (m : N) (x : Z)
  (c : codewords_t) (y : Z) : res codewords_t :=
  d <- is_data q loc x y ;;
  c <- (if d then v <- qrmask m q x y ;; add_bit c v else Ok c) ;;
  x1 <- sub_Z x 1 ;;
  d <- is_data q loc x1 y ;;
  if d then v <- qrmask m q x1 y ;; add_bit c v else Ok c.

(** blocks.rs:13-35: the `loop`; the fuel is the side, more than the number of
    column pairs *)
Fixpoint read_columns (fuel : nat) (q : qrdata) (loc : alignment_location_t) (m : N)
  (x : Z) (c : codewords_t) : res codewords_t :=
  match fuel with
  | O => Panic PFuel
  | S fuel =>
      c <- foldM (read_pair q loc m x) (y_range x (qside q)) c ;;
      if x =? 1 then Ok c
      else
        x <- sub_Z x 2 ;;
        read_columns fuel q loc m (if x =? 6 then 5 else x) c
  end.

(** blocks.rs:50-61: check of the block lengths *)
Definition check_lengths (bi : list block_info_t) (blocks : list (list N)) : res unit :=
  foldM (fun _ i =>
           b <- get bi i ;; blk <- get blocks i ;;
           if Nat.eqb (total_per b) (length blk) then Ok tt
           else Err (ECodewordCount (total_per b) i (length blk)))
        (range 0 (length blocks)) tt.

(** blocks.rs:7-64 `blocks` *)
Definition blocks (q : qrdata) (level : eclevel) (m : N) : res (list (list N)) :=
  bi <- block_info (qversion q) level ;;
  x <- sub_Z (qside q) 1 ;;
  loc <- alignment_location (qversion q) ;;
  c <- read_columns (Z.to_nat (qside q)) q loc m x (codewords_new bi) ;;
  bi <- block_info (qversion q) level ;;
  let blocks := b_blocks (cw_blocks c) in
  if Nat.eqb (length blocks) (length bi) then
    _ <- check_lengths bi blocks ;;
    Ok blocks
  else Err (EBlockCount (length bi) (length blocks)).
