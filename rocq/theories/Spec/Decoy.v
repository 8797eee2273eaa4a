(** Modules that look like a finder pattern to a scan of rows and columns. *)
From Coq Require Import ZArith NArith Bool List.
From Verif.Spec Require Import Finder Drawing.
Import ListNotations.
Open Scope Z_scope.

(** the modules [dark row column] of a symbol on white paper *)
Definition on_white (n : Z) (dark : Z -> Z -> bool) (r c : Z) : bool := (0 <=? r) && (r <? n) && (0 <=? c) && (c <? n) && dark r c.

(** modules a, a+1, ..., b-1 of a line are alike *)
Definition alike (f : Z -> bool) (a b : Z) : Prop := a < b /\ forall t, a <= t < b -> f t = f a.

(** three runs of modules: from [a] to [b], to [c] and to [d] *)
Definition three_runs (f : Z -> bool) (a b c d : Z) : Prop :=
  alike f a b /\ alike f b c /\ alike f c d /\ f (a - 1) <> f a /\ f b <> f a /\ f c <> f b /\ f d <> f c.

(** five lengths in any unit like those of a finder pattern *)
Definition in_proportion (a b c d e : Z) : Prop :=
  let total := a + b + c + d + e in
  stands_for total 1 a /\ stands_for total 1 b /\ stands_for total 3 c /\ stands_for total 1 d /\ stands_for total 1 e.

(** With [m] pixels per module, the run before the module [a] is [p] pixels long; if it is the paper, at least four modules of it. *)
Definition run_before (m : Z) (f : Z -> bool) (a p : Z) : Prop :=
  (exists c, alike f c a /\ f (c - 1) <> f c /\ p = m * (a - c)) \/ (forall t, t < a -> f t = false) /\ m * (a + 4) <= p.
(** and so is the run from the module [d] on, in a line of [n] modules *)
Definition run_after (m n : Z) (f : Z -> bool) (d q : Z) : Prop :=
  (exists c, alike f d c /\ f c <> f d /\ q = m * (c - d)) \/ (forall t, d <= t -> f t = false) /\ m * (n + 4 - d) <= q.

(** The row [r] has five runs like those of a finder pattern, the middle three of them from [a] to [b], [c] and [d]; the column [u] in
    the middle of them, up to a pixel, has three runs [a'] to [b'], [c'] and [d'] that, with [s] and [t] pixels of those before and
    after, look like a finder pattern, too; it is not farther away than five sevenths of the length of the other, and the lengths of
    both differ by about a fifth at most. *)
Definition decoy (m n : Z) (dark : Z -> Z -> bool) (r a b c d : Z) : Prop := exists p q u a' b' c' d' s t,
  let row := dark r in let column r := dark r u in
  let total := p + m * (d - a) + q in let total' := s + m * (d' - a') + t in
  three_runs row a b c d /\ run_before m row a p /\ run_after m n row d q /\ in_proportion p (m * (b - a)) (m * (c - b)) (m * (d - c)) q /\
  2 * (m * u) <= m * (a + d) + (q - p) + 1 /\ m * (a + d) + (q - p) - 1 <= 2 * (m * (u + 1)) /\
  three_runs column a' b' c' d' /\ 0 < s /\ 0 < t /\ in_proportion s (m * (b' - a')) (m * (c' - b')) (m * (d' - c')) t /\
  7 * (m * r) - 5 * total <= 7 * (m * a') /\ 7 * (m * d') <= 7 * (m * (r + 1)) + 5 * total /\
  79 * total <= 100 * total' /\ 79 * total' <= 100 * total.

(** all of these are rows through the middle of a finder pattern; the [corners] are the upper left modules of those, as (row, column) *)
Definition only_finders (m n : Z) (dark : Z -> Z -> bool) (corners : list (Z * Z)) : Prop := forall r a b c d, decoy m n dark r a b c d ->
  exists row column, In (row, column) corners /\ row + 2 <= r < row + 5 /\ a = column + 1 /\ d = column + 6.

(** no run of a line is more than ten times as long as the next one; the paper does not count *)
Definition steady_modules (f : Z -> bool) : Prop := forall a b c, alike f a b -> alike f b c -> f (a - 1) <> f a -> f b <> f a -> f c <> f b ->
  b - a <= 10 * (c - b).

(** a picture made of square modules of [m] pixels, that of row 0 and column 0 with its corner at (ox, oy) *)
Definition mosaic (pixel : Z -> Z -> option N) (w h m ox oy : Z) (dark : Z -> Z -> bool) : Prop := forall x y, 0 <= x < w -> 0 <= y < h ->
  pixel x y = Some (if dark ((y - oy) / m) ((x - ox) / m) then 0%N else 255%N).

(** the modules of a finder pattern with its upper left module at the given place, and a ring of light ones around them *)
Definition ringed_at (dark : Z -> Z -> bool) (row column : Z) : Prop := forall r c, -1 <= r < 8 -> -1 <= c < 8 ->
  dark (row + r) (column + c) = (0 <=? r) && (r <? 7) && (0 <=? c) && (c <? 7) && finder_dark r c.
