(** When a symbol carries a text (ISO/IEC 18004).  Independent of the model. *)
From Coq Require Import NArith ZArith List Bool.
From Verif.Spec Require Import Bits Segments GF256 RS Symbol Layout.
Import ListNotations.
Open Scope N_scope.

Definition whole (b : list N * list N) : list N := fst b ++ snd b.

(** the blocks are code words, and their data codewords hold the segments *)
Definition encodes (version : Z) (l : level) (blocks : list (list N * list N)) (segs : list raw) : Prop :=
  Forall (fun b => codeword (ec_codewords version l) (whole b)) blocks /\
  exists tail, tail_ok tail /\
    bits (concat (map fst blocks)) = concat (map (raw_bits version) segs) ++ tail.

(** *** Damage *)

(** at least one copy of the format information is hardly damaged *)
Definition format_readable (version : Z) (l : level) (mask : N) (d : matrix) : Prop :=
  exists e, e < 2 ^ 15 /\ fair e = true /\ carries d copy1 (N.lxor (format_word l mask) e) /\
    (N.testbit e 0 = false \/
     exists e2, e2 < 2 ^ 15 /\ fair e2 = true /\ N.testbit e2 0 = false /\
       carries d (copy2 version) (N.lxor (format_word l mask) e2)).

(** the block [b] was received instead of [c]: what it takes for the elimination to
    give [c] back when up to [cap] errors are looked for in [total] codewords *)
Definition repairable (total cap : nat) (c b : list N) : Prop :=
  let es := errors c b in
  es = [] \/
  (length es <= cap)%nat /\ regular cap es /\
  exists Q, Forall is_byte Q /\ (length Q <= length es)%nat /\
    (forall p e, In (p, e) es -> locator (length es) cap Q (fpow 2 p) = 0) /\
    let locs := filter (fun i => locator (length es) cap Q (fpow 2 i) =? 0) (seq 0 total) in
    forall k, (k < length locs)%nat -> moment es (product (firstn k locs)) <> 0.

(** the blocks [received] for the blocks [sent] can all be repaired *)
Definition all_repairable (version : Z) (l : level) (sent received : list (list N * list N)) : Prop :=
  Forall2 (fun s r => repairable (length (whole s)) (correctable version l) (whole s) (whole r)) sent received.

(** number of wrong bits in all blocks *)
Definition wrong_bits_in (sent received : list (list N * list N)) : N :=
  fold_right N.add 0 (map (fun p => bit_distance (whole (snd p)) (whole (fst p))) (combine sent received)).

Definition data_codewords (version : Z) (l : level) : nat := list_sum (block_data version l).
