(** Points and vectors of the real plane; y grows downwards, as in images. *)
From Coq Require Import ZArith Reals.
Open Scope R_scope.

Record vec := Vec { vx : R; vy : R }.
Definition minus (a b : vec) : vec := Vec (vx a - vx b) (vy a - vy b).
Definition norm (a : vec) : R := sqrt (vx a * vx a + vy a * vy a).
(** positive when [b] is clockwise of [a] on the screen (right, then down) *)
Definition cross (a b : vec) : R := vx a * vy b - vy a * vx b.

(** what three candidates must be like: a right angle at the first, with the second a quarter
    turn counter-clockwise from the third, sides of about the same length, a number of modules
    between the centres (4 * version + 10) that fits the version *)
Definition right_angle (tl tr bl : vec) : Prop :=
  0.9499 * (norm (minus tr tl) * norm (minus bl tl)) <= cross (minus tr tl) (minus bl tl).
Definition same_length (a b : R) : Prop := 0.8499 * a <= b /\ 0.8499 * b <= a.
Definition fits_version (len m : R) (version : Z) : Prop := Rabs (len / m - IZR (4 * version + 10)) <= 2.0001.
