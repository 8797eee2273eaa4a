(** Symbols drawn at any angle. *)
From Coq Require Import ZArith NArith Reals.
Open Scope R_scope.

(** The modules are squares with sides of length [m], the rows of the symbol run in the direction (c, s) and
    the columns in the direction (-s, c); the middle of the module (0, 0) is at (ax, ay). *)
Definition middle_x (m c s ax row column : R) : R := ax + m * (c * column - s * row).
Definition middle_y (m c s ay row column : R) : R := ay + m * (s * column + c * row).
(** the point (x, y) belongs to the module (row, column) *)
Definition in_module (m c s ax ay : R) (row column : Z) (x y : R) : Prop :=
  m * (IZR column - / 2) <= c * (x - ax) + s * (y - ay) < m * (IZR column + / 2) /\
  m * (IZR row - / 2) <= c * (y - ay) - s * (x - ax) < m * (IZR row + / 2).
(** every pixel has the colour of the module its middle belongs to *)
Definition drawn_at_angle (pixel : Z -> Z -> option N) (m c s ax ay : R) (n : Z) (dark : Z -> Z -> bool) : Prop :=
  0 < m /\ c * c + s * s = 1 /\ forall row column i j, (0 <= row < n)%Z -> (0 <= column < n)%Z ->
    in_module m c s ax ay row column (IZR i) (IZR j) ->
    (0 <= i)%Z /\ (0 <= j)%Z /\ pixel i j = Some (if dark row column then 0%N else 255%N).

(** *** Symbols without perspective
    the maps that take parallelograms to parallelograms *)
Definition affine (f : R -> R -> R) : Prop := exists a b c, forall row column, f row column = a + b * row + c * column.
(** one coordinate of the image: the values at the centres of the finder patterns *)
Definition through_corners (n : Z) (f : R -> R -> R) (tl tr bl : R) : Prop :=
  f 3 3 = tl /\ f 3 (IZR n - 4) = tr /\ f (IZR n - 4) 3 = bl.
