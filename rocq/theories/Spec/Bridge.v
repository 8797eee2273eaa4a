(** How the values handed to the decoder stand for a symbol: the only link between
    [Spec.Symbol] and the types of the model. *)
From Coq Require Import NArith ZArith List Bool.
From Verif.Spec Require Import Symbol.
From Verif.Model Require Import QR.
Open Scope Z_scope.

(** [q] is what the earlier stages deliver for the symbol [d] of a version: one byte
    per module, row by row, zero for dark (any other value is light) *)
Definition shows (version : Z) (d : matrix) (q : qrdata) : Prop :=
  qversion q = version /\
  qside q = side_of version /\
  length (qdata q) = Z.to_nat (side_of version * side_of version) /\
  forall x y, 0 <= x < side_of version -> 0 <= y < side_of version ->
    (d x y = true <-> nth (Z.to_nat (y * side_of version + x)) (qdata q) 0%N = 0%N).

Definition eclevel_of (l : level) : eclevel :=
  match l with L => LOW | M => MEDIUM | Q => QUARTILE | H => HIGH end.
