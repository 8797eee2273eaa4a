(** A QR Code encoder (ISO/IEC 18004, 7.4 to 7.9), from segments to modules.
    Independent of the model. *)
From Coq Require Import NArith ZArith List Bool.
From Verif.Spec Require Import Bits Segments GF256 RS Symbol Layout.
Import ListNotations.
Open Scope N_scope.

(** *** Data codewords (7.4.9, 7.4.10) *)

(** eight bits at a time *)
Fixpoint pack (l : list bool) : list N :=
  match l with
  | a :: b :: c :: d :: e :: f :: g :: h :: l => bval [a; b; c; d; e; f; g; h] :: pack l
  | _ => []
  end.

(** the pad codewords 11101100 and 00010001, in turn *)
Fixpoint pads (n : nat) (first : bool) : list N :=
  match n with
  | O => []
  | S n => (if first then 0xEC else 0x11) :: pads n (negb first)
  end.

Definition segment_bits (version : Z) (segs : list raw) : list bool :=
  concat (map (raw_bits version) segs).

(** segments, terminator, fill bits and pad codewords, [n] codewords in all *)
Definition data_part (version : Z) (n : nat) (segs : list raw) : list N :=
  let s := segment_bits version segs in
  let t := s ++ repeat false (Nat.min 4 (8 * n - length s)) in
  let u := t ++ repeat false ((8 - length t mod 8) mod 8) in
  pack u ++ pads (n - length u / 8) true.

(** *** Error correction codewords (7.5.2) *)

Fixpoint add_lists (a b : list N) : list N :=
  match a, b with
  | x :: a, y :: b => N.lxor x y :: add_lists a b
  | _, _ => []
  end.

(** coefficients of the product of the (x - 2^i), i < k, the highest first *)
Fixpoint generator (k : nat) : list N :=
  match k with
  | O => [1]
  | S k => let g := generator k in add_lists (g ++ [0]) (0 :: map (fmul (fpow 2 k)) g)
  end.

(** annex A: the generator for 7 error correction codewords *)
Example generator_7 : generator 7 = map (fpow 2) [0; 87; 229; 146; 149; 238; 102; 21]%nat.
Proof. reflexivity. Qed.

(** one step of the division by the generator (figure 7) *)
Definition divide (g : list N) (register : list N) (c : N) : list N :=
  let f := N.lxor c (hd 0 register) in
  add_lists (tl register ++ [0]) (map (fmul f) (tl g)).

Definition remainder (k : nat) (data : list N) : list N :=
  fold_left (divide (generator k)) data (repeat 0 k).

(** *** Blocks *)

Fixpoint split_by (sizes : list nat) (l : list N) : list (list N) :=
  match sizes with
  | [] => []
  | n :: sizes => firstn n l :: split_by sizes (skipn n l)
  end.

Definition encode_blocks (version : Z) (l : level) (segs : list raw) : list (list N * list N) :=
  map (fun d => (d, remainder (ec_codewords version l) d))
      (split_by (block_data version l) (data_part version (list_sum (block_data version l)) segs)).

(** *** The symbol *)

Fixpoint place (ps : list (Z * Z)) (bs : list bool) (base : matrix) : matrix :=
  match ps, bs with
  | p :: ps, b :: bs => fun x y => if Z.eqb (fst p) x && Z.eqb (snd p) y then b else place ps bs base x y
  | _, _ => base
  end.

(** the bits [bs] on the data modules, masked; the rest as in [base] *)
Definition engrave (v : Z) (mask : N) (bs : list bool) (base : matrix) : matrix :=
  place (data_order v)
    (map (fun p => xorb (snd p) (mask_bit mask (fst (fst p)) (snd (fst p)))) (combine (data_order v) bs)) base.

(** two format words on a matrix *)
Definition draw_on (v : Z) (w1 w2 : N) (base : matrix) : matrix := fun x y =>
  match find (fun i => let '(a, b) := copy1 i in Z.eqb a x && Z.eqb b y) (map Z.of_nat (seq 0 15)) with
  | Some i => N.testbit w1 (Z.to_N i)
  | None =>
      match find (fun i => let '(a, b) := copy2 v i in Z.eqb a x && Z.eqb b y) (map Z.of_nat (seq 0 15)) with
      | Some i => N.testbit w2 (Z.to_N i)
      | None => base x y
      end
  end.

(** all that the decoder needs of a symbol: codewords, remainder bits and format
    information.  The function patterns are taken from [base]. *)
Definition symbol_of (version : Z) (mask : N) (blocks : list (list N * list N)) (w1 w2 : N) (base : matrix) : matrix :=
  let bs := bits (interleave blocks) in
  let remainder_bits := repeat false (Z.to_nat (data_module_count version mod 8)) in
  engrave version mask (bs ++ remainder_bits) (draw_on version w1 w2 base).

Definition encode_symbol (version : Z) (l : level) (mask : N) (segs : list raw) (base : matrix) : matrix :=
  symbol_of version mask (encode_blocks version l segs) (format_word l mask) (format_word l mask) base.
