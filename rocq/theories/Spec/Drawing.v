(** Symbols drawn into images: every module a square of m by m pixels. *)
From Coq Require Import ZArith NArith Bool Reals.
Open Scope Z_scope.

(** [pixel x y = Some v]: there is a pixel (x, y) and its value is v.  The n by n modules
    [dark r c] are drawn with the top left corner at (ox, oy), dark ones black. *)
Definition drawn (pixel : Z -> Z -> option N) (m ox oy n : Z) (dark : Z -> Z -> bool) : Prop :=
  0 <= ox /\ 0 <= oy /\ 1 <= m /\
  forall r c i j, 0 <= r < n -> 0 <= c < n -> 0 <= i < m -> 0 <= j < m ->
    pixel (ox + c * m + i) (oy + r * m + j) = Some (if dark r c then 0%N else 255%N).

(** the alignment pattern in the bottom right: five by five modules around (n-7, n-7), the
    middle and the border dark *)
Definition bottom_right_alignment (n : Z) (dark : Z -> Z -> bool) : Prop :=
  forall i j, -2 <= i <= 2 -> -2 <= j <= 2 ->
    dark (n - 7 + i) (n - 7 + j) = negb (Z.max (Z.abs i) (Z.abs j) =? 1).

(** where a point in the middle of column (or row) k of the drawing is: the pixel i covers
    the coordinates from i - 1/2 to i + 1/2 *)
Definition middle_of (m o k : Z) : R := (IZR o + (IZR k + / 2) * IZR m - / 2)%R.

(** a finder pattern: 7 by 7 modules, dark but for the ring between the border and the middle *)
Definition finder_dark (r c : Z) : bool := negb (Z.max (Z.abs (r - 3)) (Z.abs (c - 3)) =? 2).

(** a block of the image, as far as it goes, in one colour *)
Definition one_colour (pixel : Z -> Z -> option N) (c : N) (x0 x1 y0 y1 : Z) : Prop := forall x y v,
  x0 <= x < x1 -> y0 <= y < y1 -> 0 <= x -> 0 <= y -> pixel x y = Some v -> v = c.
Definition plain (pixel : Z -> Z -> option N) (x0 x1 y0 y1 : Z) : Prop :=
  one_colour pixel 0 x0 x1 y0 y1 \/ one_colour pixel 255 x0 x1 y0 y1.

(** A finder pattern with its top left corner at (fx, fy) in its usual surroundings, as far as the
    image goes: a separator one module wide all around, and beyond it modules of one colour each: at
    the upper left corner, right of that, to the left in the row of the centre, and two above in its
    column. *)
Definition finder_drawn (pixel : Z -> Z -> option N) (m fx fy : Z) : Prop :=
  drawn pixel m fx fy 7 finder_dark /\
  (forall x y v, fx - m <= x < fx + 8 * m -> fy - m <= y < fy + 8 * m -> ~ (fx <= x < fx + 7 * m /\ fy <= y < fy + 7 * m) ->
     0 <= x -> 0 <= y -> pixel x y = Some v -> v = 255%N) /\
  plain pixel (fx - 2 * m) (fx - m) (fy - 2 * m) (fy - m) /\
  plain pixel (fx - m) fx (fy - 2 * m) (fy - m) /\
  plain pixel (fx - 2 * m) (fx - m) (fy + 3 * m) (fy + 4 * m) /\
  plain pixel (fx + 3 * m) (fx + 4 * m) (fy - 2 * m) (fy - m) /\
  plain pixel (fx + 3 * m) (fx + 4 * m) (fy - 3 * m) (fy - 2 * m) /\
  (* the separator on the right is at least one pixel wide *)
  (forall y, fy <= y < fy + 7 * m -> pixel (fx + 7 * m) y = Some 255%N).

(** the row [f] up to [e]: all runs but the first are of at least [m] and at most 10 [m] pixels *)
Definition runs_fit (f : Z -> N) (m e : Z) : Prop := forall a b, 0 < a < b -> b <= e ->
  (forall x, a <= x < b -> f x = f a) -> f (a - 1) <> f a -> f b <> f a -> m <= b - a <= 10 * m.

(** *** whole symbols: [dark row column] *)

(** the finder patterns with their separators in three corners *)
Definition finder_corners (n : Z) (dark : Z -> Z -> bool) : Prop := forall r c, 0 <= r < 8 -> 0 <= c < 8 ->
  let k := (r <? 7) && (c <? 7) && finder_dark r c in dark r c = k /\ dark r (n - 1 - c) = k /\ dark (n - 1 - r) c = k.

(** in the third row, left of the upper right finder pattern, no eleven modules alike *)
Definition third_row_varied (n : Z) (dark : Z -> Z -> bool) : Prop := forall c, 0 <= c -> c + 11 <= n - 7 ->
  exists k, 0 < k <= 10 /\ dark 2 (c + k) <> dark 2 c.

(** white paper around the symbol *)
Definition white_around (pixel : Z -> Z -> option N) (m ox oy n : Z) : Prop := forall x y v,
  0 <= x -> 0 <= y -> ~ (ox <= x < ox + n * m /\ oy <= y < oy + n * m) -> pixel x y = Some v -> v = 255%N.

(** white paper around the symbol as far as three modules away: standard symbols come with four *)
Definition quiet_zone (pixel : Z -> Z -> option N) (m ox oy n : Z) : Prop := forall x y v,
  0 <= x -> 0 <= y -> ox - 3 * m <= x < ox + (n + 3) * m -> oy - 3 * m <= y < oy + (n + 3) * m ->
  ~ (ox <= x < ox + n * m /\ oy <= y < oy + n * m) -> pixel x y = Some v -> v = 255%N.

(** a finder pattern with its top left module in row [cr] and column [cc], and its separator as far
    as it is inside of the symbol *)
Definition finder_block (n : Z) (dark : Z -> Z -> bool) (cr cc : Z) : Prop := forall r c,
  -1 <= r < 8 -> -1 <= c < 8 -> 0 <= cr + r < n -> 0 <= cc + c < n ->
  dark (cr + r) (cc + c) = (0 <=? r) && (r <? 7) && (0 <=? c) && (c <? 7) && finder_dark r c.

(** the symbol turned clockwise by a quarter turn, and by [k] of them *)
Definition quarter (n : Z) (dark : Z -> Z -> bool) : Z -> Z -> bool := fun r c => dark (n - 1 - c) r.
Definition turned (k : nat) (n : Z) (dark : Z -> Z -> bool) : Z -> Z -> bool := Nat.iter k (quarter n) dark.

(** where the module in row [r] and column [c] goes, as (row, column) *)
Definition turn_module (n : Z) (p : Z * Z) : Z * Z := (snd p, n - 1 - fst p).
Definition place_of (k : nat) (n r c : Z) : Z * Z := Nat.iter k (turn_module n) (r, c).
