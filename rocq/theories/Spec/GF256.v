(** GF(256) = GF(2)[x] / (x^8 + x^4 + x^3 + x^2 + 1), as polynomial arithmetic on bit
    strings: bit i of a number is the coefficient of x^i.  Independent of the model. *)
From Coq Require Import NArith List.
Open Scope N_scope.

(** product in GF(2)[x] *)
Fixpoint pmul_pos (a : positive) (b : N) : N :=
  match a with
  | xH => b
  | xO a => N.double (pmul_pos a b)
  | xI a => N.lxor b (N.double (pmul_pos a b))
  end.
Definition pmul (a b : N) : N :=
  match a with N0 => 0 | Npos a => pmul_pos a b end.

(** x^8 + x^4 + x^3 + x^2 + 1 *)
Definition modulus : N := 285.

(** equal modulo a polynomial *)
Definition congruent (m a b : N) : Prop := exists q, N.lxor a b = pmul q m.

(** the product in the field *)
Definition is_product (a b c : N) : Prop := c < 256 /\ congruent modulus (pmul a b) c.

(** *** Executable field operations *)
Definition times_x (a : N) : N := if 256 <=? 2 * a then N.lxor (2 * a) modulus else 2 * a.

(** multiplication by the bits of the first factor *)
Fixpoint fmul_pos (a : positive) (b : N) : N :=
  match a with
  | xH => b
  | xO a => times_x (fmul_pos a b)
  | xI a => N.lxor b (times_x (fmul_pos a b))
  end.
Definition fmul (a b : N) : N :=
  match a with N0 => 0 | Npos a => fmul_pos a b end.

Fixpoint fpow (a : N) (n : nat) : N :=
  match n with O => 1 | S n => fmul a (fpow a n) end.
