(** Symbols with little room around them, and symbols on gray paper. *)
From Coq Require Import ZArith NArith Bool.
From Verif.Spec Require Import Drawing.
Open Scope Z_scope.

(** A finder pattern with its top left corner at (fx, fy) and, as far as the image goes, white one module wide around it, but at least
    one pixel of that on every side.  Whatever there is farther away does not matter. *)
Definition finder_apart (pixel : Z -> Z -> option N) (m fx fy : Z) : Prop :=
  drawn pixel m fx fy 7 finder_dark /\ 1 <= fx /\ 1 <= fy /\ pixel (fx + 7 * m) (fy + 7 * m) = Some 255%N /\
  forall x y v, fx - m <= x < fx + 8 * m -> fy - m <= y < fy + 8 * m -> ~ (fx <= x < fx + 7 * m /\ fy <= y < fy + 7 * m) ->
    0 <= x -> 0 <= y -> pixel x y = Some v -> v = 255%N.

(** the n by n modules [dark row column] printed with ink of the tone [a] on paper of the tone [b], and nothing around them as far as one
    module away *)
Definition inked (pixel : Z -> Z -> option N) (a b : N) (m ox oy n : Z) (dark : Z -> Z -> bool) : Prop := 1 <= m /\
  forall r c i j, -1 <= r <= n -> -1 <= c <= n -> 0 <= i < m -> 0 <= j < m ->
    pixel (ox + c * m + i) (oy + r * m + j) = Some (if (0 <=? r) && (r <? n) && (0 <=? c) && (c <? n) && dark r c then a else b).

(** no light module of the symbol is far away from the ink: in both directions there are at most 15 pixels to the left (or up) and at
    most 10 to the right (or down) to the same place of a dark module *)
Definition ink_near (m n : Z) (dark : Z -> Z -> bool) : Prop := forall r c, 0 <= r < n -> 0 <= c < n -> dark r c = false ->
  exists r' c', 0 <= r' < n /\ 0 <= c' < n /\ dark r' c' = true /\ -15 <= (r' - r) * m <= 10 /\ -15 <= (c' - c) * m <= 10.
