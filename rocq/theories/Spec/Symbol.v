(** What a QR Code symbol looks like (ISO/IEC 18004).  Independent of the model.

    A symbol is a function that tells for column x and row y, both counted from 0 at
    the top left, whether the module is dark. *)
From Coq Require Import NArith ZArith List Bool.
From Verif.Spec Require Import RS.
Import ListNotations.
Open Scope Z_scope.

Definition matrix := Z -> Z -> bool.

Definition side_of (version : Z) : Z := 4 * version + 17.

(** *** Format information (7.9 and annex C) *)

Inductive level := L | M | Q | H.

Definition level_bits (l : level) : N :=
  match l with L => 1 | M => 0 | Q => 3 | H => 2 end.

(** x^10 + x^8 + x^5 + x^4 + x^2 + x + 1 *)
Definition bch_generator : N := 0x537.

(** remainder of a polynomial of degree below 15 divided by the generator *)
Definition bch_remainder (p : N) : N :=
  fold_left (fun r i => if N.testbit r i then N.lxor r (N.shiftl bch_generator (i - 10)) else r)
            [14; 13; 12; 11; 10]%N p.

(** the code word of five data bits *)
Definition bch_word (data : N) : N :=
  N.lxor (N.shiftl data 10) (bch_remainder (N.shiftl data 10)).

(** 101010000010010 *)
Definition format_mask : N := 0x5412.

(** the fifteen bits drawn for a level and a mask pattern, most significant bit first *)
Definition format_word (l : level) (mask : N) : N :=
  N.lxor (bch_word (8 * level_bits l + mask)) format_mask.

(** position of bit i of the copy next to the top left finder pattern *)
Definition copy1 (i : Z) : Z * Z :=
  if i <=? 5 then (8, i)
  else if i =? 6 then (8, 7)
  else if i =? 7 then (8, 8)
  else if i =? 8 then (7, 8)
  else (14 - i, 8).

(** position of bit i of the copy shared by the other two finder patterns *)
Definition copy2 (version : Z) (i : Z) : Z * Z :=
  if i <=? 7 then (side_of version - 1 - i, 8)
  else (8, side_of version - 15 + i).

Definition carries (d : matrix) (place : Z -> Z * Z) (word : N) : Prop :=
  forall i, 0 <= i < 15 ->
    d (fst (place i)) (snd (place i)) = N.testbit word (Z.to_N i).

(** the worked example of annex C: level M, mask pattern 101 gives 100000011001110 *)
Example annex_C : format_word M 5 = 0x40CE%N.
Proof. reflexivity. Qed.

Definition bit (b : bool) : N := if b then 1 else 0.

(** the fifteen bits of a word, most significant first *)
Definition word_bits (w : N) : list N :=
  map (fun i => bit (N.testbit w i)) [14; 13; 12; 11; 10; 9; 8; 7; 6; 5; 4; 3; 2; 1; 0]%N.

(** *** Errors in the format information *)

(** GF(16) = GF(2)[x] / (x^4 + x + 1): the power x^k *)
Definition gf16_power (k : nat) : N :=
  Nat.iter k (fun a => if N.testbit (2 * a) 4 then N.lxor (2 * a) 0x13 else (2 * a)%N) 1%N.

(** the wrong bits *)
Definition wrong_bits (e : N) : list nat :=
  filter (fun i => N.testbit e (N.of_nat i)) (seq 0 15).

(** sum of the x^i, and of the x^(i+j) with i < j, over the wrong bits *)
Definition sum1 (e : N) : N :=
  fold_right N.lxor 0%N (map gf16_power (wrong_bits e)).
Definition sum2 (e : N) : N :=
  fold_right N.lxor 0%N
    (flat_map (fun i => map (fun j => gf16_power (i + j))
                            (filter (fun j => Nat.ltb i j) (wrong_bits e)))
              (wrong_bits e)).

(** at most two wrong bits, or three for which neither sum vanishes *)
Definition fair (e : N) : bool :=
  ((ones e <? 3) || (ones e =? 3) && negb (sum1 e =? 0) && negb (sum2 e =? 0))%N.
