(** What a reader of consecutive bits should return.  Independent of the model. *)
From Coq Require Import List NArith Bool.
From Verif.Spec Require Import Bits.
Import ListNotations.
Open Scope N_scope.

(** the values of consecutive fields of the given sizes *)
Fixpoint cut (l : list bool) (sizes : list N) : list N :=
  match sizes with
  | [] => []
  | n :: sizes =>
      bval (firstn (N.to_nat n) l) :: cut (skipn (N.to_nat n) l) sizes
  end.

Definition total (sizes : list N) : N := fold_right N.add 0 sizes.

(** [consecutive l requests answers rest]: every answered request got the bits that
    directly follow the bits answered before; refused requests take nothing *)
Inductive consecutive : list bool -> list N -> list (option N) -> list bool -> Prop :=
| cons_nil l : consecutive l [] [] l
| cons_refused l n ns os r :
    consecutive l ns os r -> consecutive l (n :: ns) (None :: os) r
| cons_granted l1 l2 n ns os r :
    n = N.of_nat (length l1) -> consecutive l2 ns os r ->
    consecutive (l1 ++ l2) (n :: ns) (Some (bval l1) :: os) r.
