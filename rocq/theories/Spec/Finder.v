(** Finder patterns: runs in the ratio 1:1:3:1:1. *)
From Coq Require Import ZArith NArith.
From Verif.Spec Require Import Window.
Open Scope Z_scope.

(** A run of [r] pixels stands for [k] of the 7 modules that [total] pixels are wide, up to
    two thirds of a module: | k * total/7 - r | <= 2/3 * total/7, without fractions. *)
Definition stands_for (total k r : Z) : Prop := 3 * Z.abs (k * total - 7 * r) <= 2 * total.

(** five runs, of at least 7 pixels together, that look like a finder pattern *)
Definition finder_runs (a b c d e : Z) : Prop :=
  let total := a + b + c + d + e in
  7 <= total /\ stands_for total 1 a /\ stands_for total 1 b /\ stands_for total 3 c /\
  stands_for total 1 d /\ stands_for total 1 e.

(** the number of places where the values f 0, f 1, ..., f (n-1) change *)
Definition changes (f : Z -> N) (n : Z) : Z :=
  sum_between 1 n (fun x => if N.eqb (f x) (f (x - 1)) then 0 else 1).
