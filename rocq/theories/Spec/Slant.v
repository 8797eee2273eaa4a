(** Finder patterns at any angle. *)
From Coq Require Import ZArith NArith Reals Bool.
From Verif.Spec Require Import Drawing Angle.
Open Scope Z_scope.

(** a finder pattern with the light ring around it: nine rows and columns *)
Definition ringed_finder (row column : Z) : bool :=
  (1 <=? row) && (row <=? 7) && (1 <=? column) && (column <=? 7) && finder_dark (row - 1) (column - 1).

(** drawn with modules of size [m] in the direction (c, s), its centre at (ax, ay) *)
Definition finder_at_angle (pixel : Z -> Z -> option N) (m c s ax ay : R) : Prop :=
  drawn_at_angle pixel m c s (middle_x m c s ax (-4) (-4)) (middle_y m c s ay (-4) (-4)) 9 ringed_finder.

(** the larger of the two: a row or column through the pattern takes m / larger c s pixels per module *)
Definition larger (c s : R) : R := Rmax (Rabs c) (Rabs s).

(** No run of a row up to [e] is shorter than a tenth of the run before it; the first run of the row does not count. *)
Definition steady (f : Z -> N) (e : Z) : Prop := forall a b d, 0 < a < b -> b < d <= e ->
  (forall t, a <= t < b -> f t = f a) -> f (a - 1) <> f a -> f b <> f a ->
  (forall t, b <= t < d -> f t = f b) -> f d <> f b -> b - a <= 10 * (d - b).
