(** Crosses: where a row and a column both look as if they ran through the middle of a finder pattern. *)
From Coq Require Import ZArith NArith.
From Verif.Spec Require Import Finder.
Open Scope Z_scope.

(** the pixels a, a+1, ..., b-1 of a line are of one colour *)
Definition plain (f : Z -> N) (a b : Z) : Prop := a < b /\ forall t, a <= t < b -> f t = f a.

(** From [a] to [z] a line consists of five stretches, each of one colour and each of another colour than the one before; their lengths
    are those of a finder pattern.  The first and the last of them may go on farther. *)
Definition five_stretches (f : Z -> N) (a z : Z) : Prop := exists b c d e,
  plain f a b /\ plain f b c /\ plain f c d /\ plain f d e /\ plain f e z /\
  f b <> f a /\ f c <> f b /\ f d <> f c /\ f e <> f d /\ finder_runs (b - a) (c - b) (d - c) (e - d) (z - e).

(** In a picture [width] pixels wide and [height] pixels high, the row [r] looks like a finder pattern from [a] to [z] and the column [u]
    from [b] to [w]; the column crosses the row between [a] and [z], the row crosses the column in the middle of [b] and [w], up to
    3/2 pixels, and neither is much longer than the other. *)
Definition crossing (pix : Z -> Z -> N) (width height u r a z b w : Z) : Prop :=
  0 <= a /\ a < u < z /\ z <= width /\ 0 <= b /\ b <= r < w /\ w <= height /\
  five_stretches (fun x => pix x r) a z /\ five_stretches (fun y => pix u y) b w /\
  Z.abs (2 * r - (b + w)) <= 3 /\ 7 * (w - b) <= 10 * (z - a) <= 15 * (w - b).

(** a diagonal from the upper left to the lower right, [k] pixels to the right of the one from the corner *)
Definition diagonal_of (pix : Z -> Z -> N) (k t : Z) : N := pix (t + Z.max k 0) (t + Z.max (- k) 0).
Definition diagonal_end (width height k : Z) : Z := Z.min (width - Z.max k 0) (height - Z.max (- k) 0).
