(** Model of /repo/src/util/chomp.rs. *)
From Verif.Model Require Export Base.
Open Scope N_scope.

(** chomp.rs:20-25.  [cbytes] is what is left of the iterator `bytes`. *)
Record chomp_t := mkChomp {
  cbytes : list N;
  cbits_left : N;
  ccur : option N;
  cin_byte : N
}.

(** chomp.rs:35-51 `Chomp::new` *)
Definition chomp_new (bytes : list N) : chomp_t :=
  let bits_left := N.of_nat (length bytes) * 8 in
  match bytes with
  | [] => mkChomp [] bits_left None 0
  | b :: bs => mkChomp bs bits_left (Some b) 8
  end.

(** chomp.rs:117-128 `Chomp::nibble` *)
Definition nibble (c : chomp_t) (nr_bits : N) : res (option N * chomp_t) :=
  match ccur c with
  | Some byte =>
      k <- sub_N 8 nr_bits ;;
      result <- shr_u8 byte k ;;
      byte' <- shl_u8 byte nr_bits ;;
      in_byte <- sub_N (cin_byte c) nr_bits ;;
      Ok (Some result, mkChomp (cbytes c) (cbits_left c) (Some byte') in_byte)
  | None => Ok (None, c)
  end.

(** chomp.rs:92-97 (and 37-42): take the next byte *)
Definition next_byte (c : chomp_t) (bits_left : N) : chomp_t :=
  match cbytes c with
  | [] => mkChomp [] bits_left None 0
  | b :: bs => mkChomp bs bits_left (Some b) 8
  end.

(** chomp.rs:77-115 `Chomp::chomp` *)
Definition chomp (c : chomp_t) (nr_bits : N) : res (option N * chomp_t) :=
  let bit_count := nr_bits in
  (* line 79 *)
  if negb (N.leb 1 nr_bits && N.leb nr_bits 8) || N.ltb (cbits_left c) bit_count
  then Ok (None, c)
  else if N.ltb bit_count (cin_byte c) then (* line 83 *)
    nibble c bit_count
  else if N.eqb bit_count (cin_byte c) then (* line 85 *)
    result <- match ccur c with
              | Some byte => k <- sub_N 8 (cin_byte c) ;; shr_u8 byte k
              | None => Ok 0
              end ;;
    bits_left <- sub_N (cbits_left c) (cin_byte c) ;;
    Ok (Some result, next_byte c bits_left)
  else (* line 99 *)
    bits_to_go <- sub_N bit_count (cin_byte c) ;;
    result <- match ccur c with
              | Some byte =>
                  k <- sub_N 8 (cin_byte c) ;;
                  top <- shr_u8 byte k ;;
                  shl_u8 top bits_to_go
              | None => Ok 0
              end ;;
    bits_left <- sub_N (cbits_left c) (cin_byte c) ;;
    let c1 := mkChomp (cbytes c) bits_left (ccur c) (cin_byte c) in
    match cbytes c1 with
    | [] => Ok (None, c1)              (* line 109: `self.bytes.peek()?` *)
    | b :: bs =>
        '(o, c2) <- nibble (mkChomp bs bits_left (Some b) 8) bits_to_go ;;
        nib <- unwrap o ;;
        sum <- add_u8 result nib ;;
        Ok (Some sum, c2)
    end.

(** chomp.rs:55-57 `Chomp::chomp_or`.  The error comes back with the mutated reader,
    since the caller may go on using it. *)
Definition chomp_or (c : chomp_t) (nr_bits : N) : res (option N * chomp_t) :=
  chomp c nr_bits.

(** chomp.rs:61-73 `Chomp::chomp_or_u16`; [None] stands for the caller's error.
    [bits] is a u8, so 32 iterations are more than enough. *)
Fixpoint chomp_u16_loop (fuel : nat) (c : chomp_t) (bits result : N)
  : res (option N * chomp_t) :=
  match fuel with
  | O => Panic PFuel
  | S fuel =>
      if N.ltb 8 bits then
        '(o, c') <- chomp c 8 ;;
        match o with
        | None => Ok (None, c')
        | Some v =>
            result' <- shl_u16 v (bits - 8) ;;
            chomp_u16_loop fuel c' (bits - 8) result'
        end
      else
        '(o, c') <- chomp c bits ;;
        match o with
        | None => Ok (None, c')
        | Some v => r <- add_u16 result v ;; Ok (Some r, c')
        end
  end.

Definition chomp_or_u16 (c : chomp_t) (nr_bits : N) : res (option N * chomp_t) :=
  chomp_u16_loop 32 c nr_bits 0.
