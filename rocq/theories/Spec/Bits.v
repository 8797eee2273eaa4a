(** Bit strings, most significant bit first.  Independent of the model. *)
From Coq Require Import List NArith Bool.
Import ListNotations.
Open Scope N_scope.

(** the eight bits of a byte *)
Definition byte_bits (b : N) : list bool := map (N.testbit b) [7; 6; 5; 4; 3; 2; 1; 0].

Definition bits (bytes : list N) : list bool := flat_map byte_bits bytes.

(** the number written by a bit string *)
Definition bval (l : list bool) : N :=
  fold_left (fun (a : N) (b : bool) => 2 * a + (if b then 1 else 0)) l 0.

Definition is_byte (b : N) : Prop := b < 256.

(** [n] written with [k] bits *)
Definition nbits (k : nat) (n : N) : list bool :=
  map (fun i => N.testbit n (N.of_nat i)) (rev (seq 0 k)).
