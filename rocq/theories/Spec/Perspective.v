(** Symbols seen at an angle: where the modules of a symbol are in the image when the centres of the
    three finder patterns and of the alignment pattern are known. *)
From Coq Require Import ZArith NArith Reals.
Open Scope R_scope.

(** the maps that are linear along every row and every column of the symbol *)
Definition bilinear (f : R -> R -> R) : Prop := exists a b c d, forall row column,
  f row column = a + b * row + c * column + d * row * column.

(** one coordinate of the image: [f] has the given values at the centres of the upper left, upper
    right and lower left finder patterns and of the alignment pattern of a symbol with [n] modules
    per side *)
Definition through (n : Z) (f : R -> R -> R) (tl tr bl al : R) : Prop :=
  f 3 3 = tl /\ f 3 (IZR n - 4) = tr /\ f (IZR n - 4) 3 = bl /\ f (IZR n - 7) (IZR n - 7) = al.

(** The pixel (i, j) covers the coordinates up to half a pixel away; it holds the point (x, y), up to a
    64th of a pixel.  Points beyond the left and the upper edge belong to the pixels at the edge. *)
Definition holds_point (x y : R) (i j : Z) : Prop :=
  Rabs (IZR i - Rmax 0 x) <= / 2 + / 64 /\ Rabs (IZR j - Rmax 0 y) <= / 2 + / 64.

(** all pixels that may hold the point have the value [v]; one of them has *)
Definition clearly (pixel : Z -> Z -> option N) (x y : R) (v : N) : Prop :=
  forall i j, (0 <= i)%Z -> (0 <= j)%Z -> holds_point x y i j -> pixel i j = Some v.
Definition seen (pixel : Z -> Z -> option N) (x y : R) (v : N) : Prop :=
  exists i j, (0 <= i)%Z /\ (0 <= j)%Z /\ holds_point x y i j /\ pixel i j = Some v.

(** the five by five modules of an alignment pattern: dark border, light ring, dark middle *)
Definition ring_dark (row column : Z) : bool := negb (Z.eqb (Z.max (Z.abs row) (Z.abs column)) 1).

(** the run of pixels without white around [x], from the white pixel [l] to the white pixel [r], or to
    the edge of the image *)
Definition run_between (white : Z -> Prop) (width x l r : Z) : Prop :=
  (((0 <= l < x)%Z /\ white l \/ l = 0%Z /\ (x = 0%Z \/ ~ white 0%Z)) /\ (forall z, (l < z < x)%Z -> ~ white z)) /\
  (((x <= r < width)%Z /\ white r \/ r = width) /\ (forall z, (x <= z < r)%Z -> ~ white z)).

(** one coordinate of the distance between neighbouring modules, from the centres of two finder patterns *)
Definition module_step (n : Z) (a b : R) : R := (b - a) / IZR (n - 7).
(** One coordinate of the point that is [right] modules to the right and [down] modules down from where the
    middle of the alignment pattern, the module (n-7, n-7), is in a symbol that is not distorted. *)
Definition around_alignment (n : Z) (tl tr bl right down : R) : R :=
  tl + (IZR (n - 10) + right) * module_step n tl tr + (IZR (n - 10) + down) * module_step n tl bl.
