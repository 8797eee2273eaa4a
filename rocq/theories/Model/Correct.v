(** Model of /repo/src/decode/qr/correct.rs. *)
From Verif.Model Require Export Galois BlockInfo.

(** correct.rs:68-79 `syndrome` *)
Definition syndrome (block : list N) (base : N) : N :=
  fst (fold_left (fun '(synd, alpha) codeword =>
                    (gf8_add synd (gf8_mul alpha codeword), gf8_mul alpha base))
                 (rev block) (0%N, 1%N)).

(** correct.rs:54-66 `calculate_syndromes` *)
Definition calculate_syndromes (block : list N) (bi : block_info_t)
  : res (bool * list N) :=
  foldM (fun '(all_fine, syndromes) i =>
           e <- get EXP8 i ;;
           syndromes <- set syndromes i (syndrome block e) ;;
           s <- get syndromes i ;;
           Ok (if N.eqb s 0 then all_fine else false, syndromes))
        (range 0 (ec_cap bi * 2))
        (true, repeat 0%N (ec_cap bi * 2)).

(** `eq[i][j]` and `eq[i][j] = v` *)
Definition get2 (eq : list (list N)) (i j : nat) : res N :=
  row <- get eq i ;; get row j.
Definition set2 (eq : list (list N)) (i j : nat) (v : N) : res (list (list N)) :=
  row <- get eq i ;; row <- set row j v ;; set eq i row.

(** correct.rs:145-149: normalise row i, from right to left *)
Definition normalise (num_coeff : nat) (eq : list (list N)) (i : nat)
  : res (list (list N)) :=
  foldM (fun eq j =>
           a <- get2 eq i j ;; p <- get2 eq i i ;;
           set2 eq i j (gf8_div a p))
        (rev (range i num_coeff)) eq.

(** correct.rs:154-156: subtract row i from row j, from right to left *)
Definition eliminate (num_coeff : nat) (i : nat) (eq : list (list N)) (j : nat)
  : res (list (list N)) :=
  foldM (fun eq k =>
           a <- get2 eq j k ;; f <- get2 eq j i ;; b <- get2 eq i k ;;
           set2 eq j k (gf8_sub a (gf8_mul f b)))
        (rev (range i num_coeff)) eq.

(** correct.rs:143-163: the elimination loop.  Both callers pass
    `fail_on_rank == false`, so lines 159-162 are dead and left out. *)
Definition elimination (num_eq num_coeff : nat) (eq : list (list N))
  : res (list (list N)) :=
  foldM (fun eq i =>
           eq <- normalise num_coeff eq i ;;
           foldM (eliminate num_coeff i) (range (i + 1) num_eq) eq)
        (range 0 num_eq) eq.

(** correct.rs:165-172: back substitution *)
Definition back_substitution (num_eq num_coeff : nat) (eq : list (list N))
  : res (list N) :=
  foldM (fun solution i =>
           last <- sub_nat num_coeff 1 ;;
           r <- get2 eq i last ;;
           solution <- set solution i r ;;
           foldM (fun solution j =>
                    s <- get solution i ;; a <- get2 eq i j ;; t <- get solution j ;;
                    set solution i (gf8_sub s (gf8_mul a t)))
                 (range (i + 1) last) solution)
        (rev (range 0 num_eq)) (repeat 0%N num_eq).

(** correct.rs:129-175 `solve`, at type GF8 *)
Definition solve (eq : list (list N)) : res (option (list N)) :=
  let num_eq := length eq in
  if Nat.eqb num_eq 0 then Ok None
  else
    row0 <- get eq 0 ;;
    let num_coeff := length row0 in
    if Nat.eqb num_coeff 0 then Ok None
    else
      eq <- elimination num_eq num_coeff eq ;;
      solution <- back_substitution num_eq num_coeff eq ;;
      Ok (Some solution).

(** correct.rs:83-86: the syndrome matrix *)
Definition syndrome_matrix (z : nat) (syndromes : list N) : res (list (list N)) :=
  mapM (fun i => slice syndromes i (z + 1 + i)) (range 0 z).

(** correct.rs:97-103: value of the locator polynomial at [e] *)
Definition check_value (sigma : list N) (e : N) : res N :=
  s0 <- get sigma 0 ;;
  let '(v, x) := fold_left (fun '(v, x) s => (gf8_add v (gf8_mul x s), gf8_mul x e))
                           (skipn 1 sigma) (s0, e) in
  Ok (gf8_add v x).

(** correct.rs:81-114 `find_locs` *)
Definition find_locs (bi : block_info_t) (syndromes : list N) : res (list nat) :=
  let z := ec_cap bi in
  eq <- syndrome_matrix z syndromes ;;
  osigma <- solve eq ;;
  sigma <- ok_or osigma ESigma ;;
  foldM (fun locs i =>
           e <- get EXP8 i ;;
           v <- check_value sigma e ;;
           Ok (if N.eqb v 0 then locs ++ [i] else locs))
        (range 0 (Nat.min (total_per bi) (length EXP8))) [].

(** correct.rs:117-124: the matrix of `calculate_distances` *)
Definition distance_matrix (syndromes : list N) (locs : list nat)
  : res (list (list N)) :=
  mapM (fun i =>
          row <- mapM (fun j =>
                         l <- get locs j ;; get EXP8 ((i * l) mod 255))
                      (range 0 (length locs)) ;;
          s <- get syndromes i ;;
          Ok (row ++ [s]))
       (range 0 (length locs)).

(** correct.rs:116-127 `calculate_distances` *)
Definition calculate_distances (syndromes : list N) (locs : list nat)
  : res (option (list N)) :=
  eq <- distance_matrix syndromes locs ;;
  solve eq.

(** u8::count_ones *)
Fixpoint pos_ones (p : positive) : N :=
  match p with
  | xH => 1
  | xO p => pos_ones p
  | xI p => N.succ (pos_ones p)
  end.
Definition count_ones (n : N) : N :=
  match n with N0 => 0 | Npos p => pos_ones p end.

(** correct.rs:33-43: apply the corrections *)
Definition apply_corrections (bi : block_info_t) (locs : list nat) (distance : list N)
  (block : list N) : res (list N * N) :=
  foldM (fun '(block, error_count) i =>
           l <- get locs i ;;
           t <- sub_nat (total_per bi) 1 ;;
           pos <- sub_nat t l ;;
           d <- get distance i ;;
           b <- get block pos ;;
           block <- set block pos (N.lxor b d) ;;
           Ok (block, N.add error_count (count_ones d)))
        (range 0 (length locs)) (block, 0%N).

(** correct.rs:12-52 `correct_with_error_count` *)
Definition correct_with_error_count (block : list N) (bi : block_info_t)
  : res (list N * N) :=
  '(all_fine, syndromes) <- calculate_syndromes block bi ;;
  if (all_fine : bool) then Ok (block, 0%N)
  else
    locs <- find_locs bi syndromes ;;
    odistance <- calculate_distances syndromes locs ;;
    distance <- ok_or odistance EDistances ;;
    '(block, error_count) <- apply_corrections bi locs distance block ;;
    e <- get EXP8 0 ;;
    if N.eqb (syndrome block e) 0 then Ok (block, error_count)
    else Err ENotFixed.

(** correct.rs:8-10 `correct` *)
Definition correct (block : list N) (bi : block_info_t) : res (list N) :=
  '(b, _) <- correct_with_error_count block bi ;; Ok b.
