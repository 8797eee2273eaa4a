(** Sums over rectangles of an image, and local thresholds, in integers. *)
From Coq Require Import ZArith NArith List Bool.
Import ListNotations.
Open Scope Z_scope.

(** f a + f (a+1) + ... + f (b-1) *)
Fixpoint sum_from (n : nat) (a : Z) (f : Z -> Z) : Z :=
  match n with
  | O => 0
  | S n => f a + sum_from n (a + 1) f
  end.
Definition sum_between (a b : Z) (f : Z -> Z) : Z := sum_from (Z.to_nat (b - a)) a f.

(** a rectangle of pixels: left and top included, right and bottom excluded *)
Record rect := Rect { rx0 : Z; rx1 : Z; ry0 : Z; ry1 : Z }.
Definition inside (r : rect) (x y : Z) : Prop := rx0 r <= x < rx1 r /\ ry0 r <= y < ry1 r.
Definition rect_sum (r : rect) (f : Z -> Z -> Z) : Z :=
  sum_between (rx0 r) (rx1 r) (fun x => sum_between (ry0 r) (ry1 r) (fun y => f x y)).
Definition rect_count (r : rect) : Z := (rx1 r - rx0 r) * (ry1 r - ry0 r).

(** the decision for a pixel of value [p] in a window of [count] pixels that add up to [total] *)
Definition black_or_white (total count p : Z) : Z :=
  if 250 * count <? total then 255
  else if total <? 5 * count then 0
  else if total <? p * count then 255
  else 0.

(** the documented window around the pixel (x, y): [mean_size] blocks in each direction
    with the pixel's block in the middle, cut at the border of the image *)
Definition centred_window (size mean_size width height x y : Z) : rect :=
  let s := (mean_size - 1) / 2 in
  Rect (Z.max 0 (size * (x / size - s))) (Z.min width (size * (x / size + s + 1)))
       (Z.max 0 (size * (y / size - s))) (Z.min height (size * (y / size + s + 1))).

(** the window that is really used: on the right and at the bottom one block less, and
    without the blocks that do not fit into the image *)
Definition used_window (size mean_size width height x y : Z) : rect :=
  let s := (mean_size - 1) / 2 in
  Rect (Z.max 0 (size * (x / size - s))) (Z.min (width - width mod size) (size * (x / size + s)))
       (Z.max 0 (size * (y / size - s))) (Z.min (height - height mod size) (size * (y / size + s))).
