(** Preparing images that are already black and white, or of two tones: C57. *)
From Coq Require Import NArith ZArith List Lia Bool.
From Verif.Model Require Import Prepare.
From Verif.Spec Require Import Window Symbol Drawing.
From Verif.Proofs Require Import BaseP PrepareP.
From Verif.Props Require Import PrepareProps ExtractProps.
Import ListNotations.
Local Open Scope Z_scope.

(** the number of pixels of the value [v] in a rectangle *)
Definition count_of (g : gray) (r : rect) (v : N) : Z := rect_sum r (fun x y => if N.eqb (pix g x y) v then 1 else 0).

Lemma rect_sum_zsum r f : rect_sum r f = zsum (fun x => zsum (fun y => f x y) (zrange (ry0 r) (ry1 r))) (zrange (rx0 r) (rx1 r)).
Proof. unfold rect_sum. rewrite sum_between_zsum. apply zsum_ext. intros x _. apply sum_between_zsum. Qed.
Lemma zsum_scale {A} (f : A -> Z) k l : zsum (fun a => k * f a) l = k * zsum f l.
Proof. induction l as [|a l IH]; cbn [zsum]; [lia|rewrite IH; lia]. Qed.
Lemma zsum_le {A} (f h : A -> Z) l : (forall a, In a l -> f a <= h a) -> zsum f l <= zsum h l.
Proof. induction l as [|a l IH]; intros H; cbn [zsum]; [lia|]. pose proof (H a (or_introl eq_refl)). specialize (IH (fun b Hb => H b (or_intror Hb))). lia. Qed.
Lemma rect_sum_plus r f h : rect_sum r (fun x y => f x y + h x y) = rect_sum r f + rect_sum r h.
Proof. rewrite !rect_sum_zsum, <- zsum_plus. apply zsum_ext. intros x _. apply zsum_plus. Qed.
Lemma rect_sum_scale r f k : rect_sum r (fun x y => k * f x y) = k * rect_sum r f.
Proof. rewrite !rect_sum_zsum, <- zsum_scale. apply zsum_ext. intros x _. apply zsum_scale. Qed.
Lemma rect_sum_le r f h : (forall x y, inside r x y -> f x y <= h x y) -> rect_sum r f <= rect_sum r h.
Proof.
  intros H. rewrite !rect_sum_zsum. apply zsum_le. intros x Hx. apply zsum_le. intros y Hy. apply in_zrange in Hx, Hy. apply H. now split.
Qed.

(** a rectangle inside another *)
Lemma rect_sum_sub r s f : rx0 r <= rx0 s -> rx0 s <= rx1 s -> rx1 s <= rx1 r -> ry0 r <= ry0 s -> ry0 s <= ry1 s -> ry1 s <= ry1 r ->
  (forall x y, inside r x y -> 0 <= f x y) -> rect_sum s f <= rect_sum r f.
Proof.
  intros A B C D E F H.
  assert (P : forall (x : Z) (l : list Z) h, (forall y, In y l -> 0 <= h y) -> 0 <= @zsum Z h l).
  { intros _ l h. induction l as [|a l IH]; intros Hl; cbn [zsum]; [lia|]. pose proof (Hl a (or_introl eq_refl)). specialize (IH (fun b Hb => Hl b (or_intror Hb))). lia. }
  rewrite !rect_sum_zsum. rewrite (zrange_app (rx0 r) (rx0 s) (rx1 r)), (zrange_app (rx0 s) (rx1 s) (rx1 r)), !zsum_app by lia.
  assert (Q : forall a b, rx0 r <= a -> b <= rx1 r -> 0 <= zsum (fun x => zsum (fun y => f x y) (zrange (ry0 r) (ry1 r))) (zrange a b)).
  { intros a b Ha Hb. apply (P 0). intros x Hx. apply (P 0). intros y Hy. apply in_zrange in Hx, Hy. apply H. unfold inside. lia. }
  pose proof (Q (rx0 r) (rx0 s) ltac:(lia) ltac:(lia)). pose proof (Q (rx1 s) (rx1 r) ltac:(lia) ltac:(lia)).
  enough (zsum (fun x => zsum (fun y => f x y) (zrange (ry0 s) (ry1 s))) (zrange (rx0 s) (rx1 s)) <=
          zsum (fun x => zsum (fun y => f x y) (zrange (ry0 r) (ry1 r))) (zrange (rx0 s) (rx1 s))) by lia.
  apply zsum_le. intros x Hx. rewrite (zrange_app (ry0 r) (ry0 s) (ry1 r)), (zrange_app (ry0 s) (ry1 s) (ry1 r)), !zsum_app by lia.
  apply in_zrange in Hx.
  assert (R : forall a b, ry0 r <= a -> b <= ry1 r -> 0 <= zsum (fun y => f x y) (zrange a b)).
  { intros a b Ha Hb. apply (P 0). intros y Hy. apply in_zrange in Hy. apply H. unfold inside. lia. }
  pose proof (R (ry0 r) (ry0 s) ltac:(lia) ltac:(lia)). pose proof (R (ry1 s) (ry1 r) ltac:(lia) ltac:(lia)). lia.
Qed.

Definition window_at (g : gray) (x y : Z) : rect := used_window 5 7 (gw g) (gh g) x y.

(** the window lies inside the image *)
Lemma window_inside g g' x y : wf_gray g -> prepare default_prepare g = Ok g' -> 0 <= x < gw g -> 0 <= y < gh g ->
  let r := window_at g x y in 0 <= rx0 r < rx1 r /\ rx1 r <= gw g /\ 0 <= ry0 r < ry1 r /\ ry1 r <= gh g.
Proof.
  intros HW E Hx Hy r.
  pose proof (prepare_good default_prepare g g' HW ltac:(cbn; lia) ltac:(cbn; lia) E) as HG.
  pose proof (used_window_of default_prepare (gw g) (gh g) x y HG Hx Hy) as U. cbn [default_prepare block_size block_mean_size] in U.
  unfold r, window_at. rewrite <- U. pose proof (window_shape default_prepare (gw g) (gh g) (x / 5) (y / 5) HG) as S.
  cbn [default_prepare block_size] in S. exact (S (div_range x (gw g) 5 ltac:(lia) Hx) (div_range y (gh g) 5 ltac:(lia) Hy)).
Qed.

(** images of two tones: [a] dark, [b] light; with the number of pixels of each in the window,
    exactly when a dark pixel becomes black and a light one white *)
Theorem C57_two_tones g g' a b x y : wf_gray g -> prepare default_prepare g = Ok g' -> (a < b)%N ->
  (forall x y, 0 <= x < gw g -> 0 <= y < gh g -> get_pixel g x y = Ok a \/ get_pixel g x y = Ok b) ->
  0 <= x < gw g -> 0 <= y < gh g ->
  let na := count_of g (window_at g x y) a in let nb := count_of g (window_at g x y) b in
  0 <= na /\ 0 <= nb /\ 1 <= na + nb <= 900 /\
  (get_pixel g x y = Ok a -> get_pixel g' x y = Ok (if Z.of_N a * na + Z.of_N b * nb <=? 250 * (na + nb) then 0%N else 255%N)) /\
  (get_pixel g x y = Ok b -> get_pixel g' x y = Ok (if (250 * (na + nb) <? Z.of_N a * na + Z.of_N b * nb)
     || (1 <=? na) && (5 * (na + nb) <=? Z.of_N a * na + Z.of_N b * nb) then 255%N else 0%N)).
Proof.
  intros HW E AB HT Hx Hy na nb. pose proof (window_inside g g' x y HW E Hx Hy) as S. destruct (C43_default_partial g g' x y HW E Hx Hy) as [HC P].
  fold (window_at g x y) in HC, P. set (r := window_at g x y) in *. cbv zeta in S.
  assert (HT' : forall x y, 0 <= x < gw g -> 0 <= y < gh g -> pix g x y = a \/ pix g x y = b).
  { intros u v Hu Hv. specialize (HT u v Hu Hv). rewrite get_pixel_pix in HT by auto. destruct HT as [[= ->]|[= ->]]; auto. }
  assert (EC : na + nb = rect_count r).
  { unfold na, nb, count_of. rewrite <- rect_sum_plus. rewrite <- rect_sum_one by lia. apply rect_sum_ext. intros u v [Hu Hv].
    destruct (HT' u v ltac:(lia) ltac:(lia)) as [-> | ->]; rewrite N.eqb_refl; [|].
    - destruct (N.eqb_spec a b); lia.
    - destruct (N.eqb_spec b a); lia. }
  assert (ES : Z.of_N a * na + Z.of_N b * nb = rect_sum r (pixel_value g)).
  { unfold na, nb, count_of. rewrite <- !rect_sum_scale, <- rect_sum_plus. apply rect_sum_ext. intros u v [Hu Hv]. unfold pixel_value.
    destruct (HT' u v ltac:(lia) ltac:(lia)) as [-> | ->]; rewrite N.eqb_refl.
    - destruct (N.eqb_spec a b); lia.
    - destruct (N.eqb_spec b a); lia. }
  assert (NN : forall v, 0 <= count_of g r v).
  { intros v. unfold count_of. transitivity (rect_sum r (fun _ _ => 0)).
    - rewrite rect_sum_zsum. rewrite (zsum_ext _ (fun _ => 0)); [now rewrite zsum_0|]. intros u _. apply zsum_0.
    - apply rect_sum_le. intros u w _. destruct (N.eqb _ _); lia. }
  pose proof (NN a) as NA. pose proof (NN b) as NB. fold na in NA. fold nb in NB.
  split; [exact NA|]. split; [exact NB|]. split; [lia|].
  rewrite P, <- EC, <- ES. rewrite get_pixel_pix by auto. unfold pixel_value.
  split; intros [= ->]; f_equal; unfold black_or_white.
  - destruct (Z.leb_spec (Z.of_N a * na + Z.of_N b * nb) (250 * (na + nb))) as [L|L].
    + destruct (Z.ltb_spec (250 * (na + nb)) (Z.of_N a * na + Z.of_N b * nb)); [lia|]. destruct (Z.ltb_spec (Z.of_N a * na + Z.of_N b * nb) (5 * (na + nb))); [reflexivity|].
      destruct (Z.ltb_spec (Z.of_N a * na + Z.of_N b * nb) (Z.of_N a * (na + nb))); [nia|reflexivity].
    + destruct (Z.ltb_spec (250 * (na + nb)) (Z.of_N a * na + Z.of_N b * nb)); [reflexivity|lia].
  - destruct (Z.ltb_spec (250 * (na + nb)) (Z.of_N a * na + Z.of_N b * nb)); [reflexivity|]. cbn [orb].
    destruct (Z.ltb_spec (Z.of_N a * na + Z.of_N b * nb) (5 * (na + nb))); destruct (Z.leb_spec (5 * (na + nb)) (Z.of_N a * na + Z.of_N b * nb)); try lia;
      destruct (Z.leb_spec 1 na); cbn [andb]; try reflexivity;
      destruct (Z.ltb_spec (Z.of_N a * na + Z.of_N b * nb) (Z.of_N b * (na + nb))); try reflexivity; nia.
Qed.

(** black and white images: a pixel keeps its colour exactly if at least one in 51 pixels of its
    window has that colour *)
Theorem C57_black_and_white g g' x y c : wf_gray g -> prepare default_prepare g = Ok g' ->
  (forall x y, 0 <= x < gw g -> 0 <= y < gh g -> get_pixel g x y = Ok 0%N \/ get_pixel g x y = Ok 255%N) ->
  0 <= x < gw g -> 0 <= y < gh g -> get_pixel g x y = Ok c ->
  (get_pixel g' x y = Ok c <-> rect_count (window_at g x y) <= 51 * count_of g (window_at g x y) c).
Proof.
  intros HW E HT Hx Hy HC. destruct (C57_two_tones g g' 0 255 x y HW E ltac:(lia) HT Hx Hy) as (NA & NB & N1 & D & L).
  set (na := count_of g (window_at g x y) 0) in *. set (nb := count_of g (window_at g x y) 255) in *.
  assert (EC : na + nb = rect_count (window_at g x y)).
  { pose proof (window_inside g g' x y HW E Hx Hy) as S. cbv zeta in S. unfold na, nb, count_of. rewrite <- rect_sum_plus. rewrite <- rect_sum_one by lia.
    apply rect_sum_ext. intros u v [Hu Hv]. specialize (HT u v ltac:(lia) ltac:(lia)). rewrite get_pixel_pix in HT by (auto; lia).
    destruct HT as [[= ->]|[= ->]]; reflexivity. }
  rewrite <- EC. destruct (HT x y Hx Hy) as [H|H]; rewrite H in HC; injection HC as <-.
  - fold na. rewrite (D H). destruct (Z.leb_spec (Z.of_N 0 * na + Z.of_N 255 * nb) (250 * (na + nb))); split; intros X; (discriminate || reflexivity || lia).
  - fold nb. rewrite (L H). destruct (Z.ltb_spec (250 * (na + nb)) (Z.of_N 0 * na + Z.of_N 255 * nb)); destruct (Z.leb_spec 1 na); destruct (Z.leb_spec (5 * (na + nb)) (Z.of_N 0 * na + Z.of_N 255 * nb)); cbn [orb andb]; split; intros X; try reflexivity; try discriminate; lia.
Qed.

Lemma square_count g x y c u v : wf_gray g -> 0 <= x < gw g -> 0 <= y < gh g ->
  0 <= u -> u + 5 <= gw g - gw g mod 5 -> x - 9 <= u <= x -> 0 <= v -> v + 5 <= gh g - gh g mod 5 -> y - 9 <= v <= y ->
  (forall i j, 0 <= i < 5 -> 0 <= j < 5 -> get_pixel g (u + i) (v + j) = Ok c) -> 25 <= count_of g (window_at g x y) c.
Proof.
  intros HW Hx Hy U1 U2 U3 V1 V2 V3 HS. set (r := window_at g x y).
  pose proof HW as (W1 & W2 & _). pose proof (Z.mod_pos_bound (gw g) 5 ltac:(lia)). pose proof (Z.mod_pos_bound (gh g) 5 ltac:(lia)).
  transitivity (rect_sum (Rect u (u + 5) v (v + 5)) (fun x y => if N.eqb (pix g x y) c then 1 else 0)).
  - rewrite (rect_sum_ext _ _ (fun _ _ => 1)).
    + rewrite rect_sum_one by (cbn [rx0 rx1 ry0 ry1]; lia). unfold rect_count. cbn [rx0 rx1 ry0 ry1]. lia.
    + intros a b [A B]. cbn [rx0 rx1 ry0 ry1] in *. specialize (HS (a - u) (b - v) ltac:(lia) ltac:(lia)).
      replace (u + (a - u)) with a in HS by lia. replace (v + (b - v)) with b in HS by lia. rewrite get_pixel_pix in HS by (auto; lia).
      injection HS as ->. now rewrite N.eqb_refl.
  - unfold count_of. apply rect_sum_sub; unfold r, window_at, used_window; cbn [rx0 rx1 ry0 ry1]; change ((7 - 1) / 2) with 3;
      try (pose proof (Z.div_mod x 5 ltac:(lia)); pose proof (Z.mod_pos_bound x 5 ltac:(lia));
           pose proof (Z.div_mod y 5 ltac:(lia)); pose proof (Z.mod_pos_bound y 5 ltac:(lia)); lia).
    intros a b _. destruct (N.eqb _ _); lia.
Qed.

(** in particular if the pixel is part of a square of 5 by 5 pixels of its colour, all of it in
    blocks that fit into the image, or has such a square in the next block to the left or above *)
Theorem C57_squares g g' x y c u v : wf_gray g -> prepare default_prepare g = Ok g' ->
  (forall x y, 0 <= x < gw g -> 0 <= y < gh g -> get_pixel g x y = Ok 0%N \/ get_pixel g x y = Ok 255%N) ->
  0 <= x < gw g -> 0 <= y < gh g -> get_pixel g x y = Ok c ->
  0 <= u -> u + 5 <= gw g - gw g mod 5 -> x - 9 <= u <= x -> 0 <= v -> v + 5 <= gh g - gh g mod 5 -> y - 9 <= v <= y ->
  (forall i j, 0 <= i < 5 -> 0 <= j < 5 -> get_pixel g (u + i) (v + j) = Ok c) ->
  get_pixel g' x y = Ok c.
Proof.
  intros HW E HT Hx Hy HC U1 U2 U3 V1 V2 V3 HS.
  pose proof (C43_default_partial g g' x y HW E Hx Hy) as [HC9 _]. fold (window_at g x y) in HC9.
  apply (C57_black_and_white g g' x y c HW E HT Hx Hy HC).
  pose proof (square_count g x y c u v HW Hx Hy U1 U2 U3 V1 V2 V3 HS). lia.
Qed.

Lemma gray_ext g g' : wf_gray g -> wf_gray g' -> gw g = gw g' -> gh g = gh g' ->
  (forall x y, 0 <= x < gw g -> 0 <= y < gh g -> get_pixel g x y = get_pixel g' x y) -> g = g'.
Proof.
  intros HW HW' EW EH H. destruct g as [w h b], g' as [w' h' b']. cbn [gw gh] in *. subst w' h'. f_equal.
  pose proof HW as (W1 & W2 & L & _). pose proof HW' as (_ & _ & L' & _). cbn [gw gh gbuf] in *.
  apply (nth_ext _ _ 0%N 0%N); [lia|]. intros i Hi.
  assert (P : 0 < w /\ 0 < h) by nia.
  pose proof (Z.mod_pos_bound (Z.of_nat i) w ltac:(lia)). pose proof (Z.div_mod (Z.of_nat i) w ltac:(lia)).
  assert (0 <= Z.of_nat i / w < h) by (split; [apply Z.div_pos; lia|apply Z.div_lt_upper_bound; lia]).
  specialize (H (Z.of_nat i mod w) (Z.of_nat i / w) ltac:(lia) ltac:(lia)). rewrite !get_pixel_pix in H by (auto; cbn [gw gh]; lia).
  injection H as H. unfold pix in H. cbn [gw gbuf] in H. now replace (Z.to_nat (Z.of_nat i / w * w + Z.of_nat i mod w)) with i in H by lia.
Qed.

Lemma painted_inside w h m ox oy v d c r i j : 1 <= m -> 0 <= c < side_of v -> 0 <= r < side_of v -> 0 <= i < m -> 0 <= j < m ->
  0 <= ox -> 0 <= oy -> ox + side_of v * m <= w -> oy + side_of v * m <= h ->
  get_pixel (painted w h m ox oy v d) (ox + c * m + i) (oy + r * m + j) = Ok (if d c r then 0%N else 255%N).
Proof.
  intros Hm Hc Hr Hi Hj Hx Hy Ww Wh. assert (c * m + m <= side_of v * m) by nia. assert (r * m + m <= side_of v * m) by nia.
  unfold painted. rewrite image_of_pixel by nia. cbv zeta.
  replace ((ox + c * m + i - ox) / m) with c by (apply Z.div_unique with i; lia).
  replace ((oy + r * m + j - oy) / m) with r by (apply Z.div_unique with j; lia).
  destruct (Z.leb_spec 0 c); [|lia]. destruct (Z.ltb_spec c (side_of v)); [|lia]. destruct (Z.leb_spec 0 r); [|lia]. destruct (Z.ltb_spec r (side_of v)); [|lia].
  reflexivity.
Qed.
Lemma painted_outside w h m ox oy v d x y : 1 <= m -> 0 <= x < w -> 0 <= y < h ->
  x < ox \/ ox + side_of v * m <= x \/ y < oy \/ oy + side_of v * m <= y ->
  get_pixel (painted w h m ox oy v d) x y = Ok 255%N.
Proof.
  intros Hm Hx Hy HO. unfold painted. rewrite image_of_pixel by lia. cbv zeta.
  assert (A : forall a o, a < o -> (a - o) / m < 0) by (intros; apply Z.div_lt_upper_bound; lia).
  assert (B : forall a o, o + side_of v * m <= a -> side_of v <= (a - o) / m) by (intros; apply Z.div_le_lower_bound; lia).
  destruct HO as [H|[H|[H|H]]]; [apply A in H|apply B in H|apply A in H|apply B in H];
    destruct (Z.leb_spec 0 ((x - ox) / m)), (Z.ltb_spec ((x - ox) / m) (side_of v)), (Z.leb_spec 0 ((y - oy) / m)), (Z.ltb_spec ((y - oy) / m) (side_of v));
    cbn [andb]; (reflexivity || lia).
Qed.
(** every pixel is one or the other *)
Lemma painted_cases w h m ox oy v x y : 1 <= m -> 0 <= ox -> 0 <= oy -> ox + side_of v * m <= w -> oy + side_of v * m <= h ->
  (x < ox \/ ox + side_of v * m <= x \/ y < oy \/ oy + side_of v * m <= y) \/
  (exists c r i j, 0 <= c < side_of v /\ 0 <= r < side_of v /\ 0 <= i < m /\ 0 <= j < m /\ x = ox + c * m + i /\ y = oy + r * m + j).
Proof.
  intros Hm Hx Hy Ww Wh. destruct (Z_lt_le_dec x ox); [auto|]. destruct (Z_le_gt_dec (ox + side_of v * m) x); [auto|].
  destruct (Z_lt_le_dec y oy); [auto|]. destruct (Z_le_gt_dec (oy + side_of v * m) y); [auto|]. right.
  exists ((x - ox) / m), ((y - oy) / m), ((x - ox) mod m), ((y - oy) mod m).
  pose proof (Z.div_mod (x - ox) m ltac:(lia)). pose proof (Z.mod_pos_bound (x - ox) m ltac:(lia)).
  pose proof (Z.div_mod (y - oy) m ltac:(lia)). pose proof (Z.mod_pos_bound (y - oy) m ltac:(lia)).
  split; [split; [apply Z.div_pos; lia|apply Z.div_lt_upper_bound; lia]|].
  split; [split; [apply Z.div_pos; lia|apply Z.div_lt_upper_bound; lia]|]. lia.
Qed.

Lemma painted_two w h m ox oy v d x y : 1 <= m -> 1 <= v -> 0 <= ox -> 0 <= oy -> ox + side_of v * m <= w -> oy + side_of v * m <= h -> 0 <= x < w -> 0 <= y < h ->
  get_pixel (painted w h m ox oy v d) x y = Ok 0%N \/ get_pixel (painted w h m ox oy v d) x y = Ok 255%N.
Proof.
  intros Hm Hv Hx Hy Ww Wh Px Py. destruct (painted_cases w h m ox oy v x y ltac:(lia) ltac:(lia) ltac:(lia) ltac:(lia) ltac:(lia)) as [H|(c & r & i & j & Hc & Hr & Hi & Hj & -> & ->)].
  - right. apply painted_outside; auto.
  - rewrite painted_inside by lia. destruct (d c r); auto.
Qed.
(** every pixel of a drawn symbol of at least five pixels per module, with ten white pixels on every side, has a square of its colour near *)
Lemma painted_square w h m ox oy v d x y : 5 <= m -> 1 <= v -> 10 <= ox -> 10 <= oy -> ox + side_of v * m + 10 <= w -> oy + side_of v * m + 10 <= h -> 0 <= x < w -> 0 <= y < h ->
  exists c s t, get_pixel (painted w h m ox oy v d) x y = Ok c /\ 0 <= s /\ s + 5 <= w - w mod 5 /\ x - 9 <= s <= x /\ 0 <= t /\ t + 5 <= h - h mod 5 /\ y - 9 <= t <= y /\
    forall i j, 0 <= i < 5 -> 0 <= j < 5 -> get_pixel (painted w h m ox oy v d) (s + i) (t + j) = Ok c.
Proof.
  intros Hm Hv Hx Hy Ww Wh Px Py. set (g := painted w h m ox oy v d). assert (SM : 0 <= side_of v * m) by (unfold side_of; nia).
  pose proof (Z.mod_pos_bound w 5 ltac:(lia)) as M5. pose proof (Z.mod_pos_bound h 5 ltac:(lia)) as N5.
  destruct (painted_cases w h m ox oy v x y ltac:(lia) ltac:(lia) ltac:(lia) ltac:(lia) ltac:(lia)) as [H|(c & r & i & j & Hc & Hr & Hi & Hj & -> & ->)].
  - set (W5 := w - w mod 5) in *. set (H5 := h - h mod 5) in *.
    set (u := if x <? ox then Z.min x (ox - 5) else Z.min x (W5 - 5)).
    set (z := if y <? oy then Z.min y (oy - 5) else Z.min y (H5 - 5)).
    assert (U : 0 <= u /\ u + 5 <= W5 /\ x - 9 <= u <= x) by (unfold u, W5; destruct (Z.ltb_spec x ox); lia).
    assert (V : 0 <= z /\ z + 5 <= H5 /\ y - 9 <= z <= y) by (unfold z, H5; destruct (Z.ltb_spec y oy); lia).
    exists 255%N, u, z. split; [apply painted_outside; auto; lia|]. do 6 (split; [tauto|]).
    intros i j Hi Hj. apply painted_outside; [lia|unfold W5 in U; lia|unfold H5 in V; lia|].
    unfold u, W5 in U |- *. unfold z, H5 in V |- *. destruct (Z.ltb_spec x ox), (Z.ltb_spec y oy); lia.
  - assert (c * m + m <= side_of v * m) by nia. assert (r * m + m <= side_of v * m) by nia. assert (0 <= c * m /\ 0 <= r * m) by nia.
    exists (if d c r then 0%N else 255%N), (ox + c * m + Z.min i (m - 5)), (oy + r * m + Z.min j (m - 5)).
    split; [unfold g; now rewrite painted_inside by lia|]. do 6 (split; [lia|]).
    intros k l Hk Hl. replace (ox + c * m + Z.min i (m - 5) + k) with (ox + c * m + (Z.min i (m - 5) + k)) by lia.
    replace (oy + r * m + Z.min j (m - 5) + l) with (oy + r * m + (Z.min j (m - 5) + l)) by lia.
    unfold g. apply painted_inside; lia.
Qed.

(** a drawn symbol of at least five pixels per module, with ten white pixels on every side, is
    not changed at all *)
Theorem C57_symbol w h m ox oy v d : 0 <= w <= u32_max -> 0 <= h <= u32_max -> w * h <= 2 ^ 36 -> 5 <= m -> 1 <= v ->
  10 <= ox -> 10 <= oy -> ox + side_of v * m + 10 <= w -> oy + side_of v * m + 10 <= h ->
  prepare default_prepare (painted w h m ox oy v d) = Ok (painted w h m ox oy v d).
Proof.
  intros Hw Hh WH Hm Hv Hx Hy Ww Wh. set (g := painted w h m ox oy v d).
  assert (HW : wf_gray g) by (apply painted_wf; lia).
  assert (SM : 0 <= side_of v * m) by (unfold side_of; nia).
  destruct (C42_default_partial g HW) as (g' & E); [cbn [g painted image_of gw gh]; lia|cbn [g painted image_of gw gh]; lia|exact WH|].
  rewrite E. f_equal. destruct (C41_black_white _ g g' HW E) as (HW' & EW & EH & _).
  assert (HT : forall x y, 0 <= x < gw g -> 0 <= y < gh g -> get_pixel g x y = Ok 0%N \/ get_pixel g x y = Ok 255%N).
  { intros x y Px Py. change (gw g) with w in Px. change (gh g) with h in Py. apply painted_two; lia. }
  apply gray_ext; auto. rewrite EW, EH. intros x y Px Py.
  destruct (painted_square w h m ox oy v d x y Hm Hv Hx Hy Ww Wh Px Py) as (c & s & t & PC & S1 & S2 & S3 & T1 & T2 & T3 & SQ).
  fold g in PC, SQ. rewrite PC. exact (C57_squares g g' x y c s t HW E HT Px Py PC S1 S2 S3 T1 T2 T3 SQ).
Qed.

(** a symbol of version 1, five pixels per module, with a border of two modules *)
Example C57_example d : prepare default_prepare (painted 125 125 5 10 10 1 d) = Ok (painted 125 125 5 10 10 1 d).
Proof. apply C57_symbol; unfold u32_max, side_of; lia. Qed.

(** smaller things can vanish: a black dot of 2 by 2 pixels on white, but 3 by 3 pixels stay *)
Definition dot (n : Z) : gray := image_of 20 20 (fun x y => if (7 <=? x) && (x <? 7 + n) && (7 <=? y) && (y <? 7 + n) then 0%N else 255%N).
Example C57_dot : prepare default_prepare (dot 2) = Ok (image_of 20 20 (fun _ _ => 255%N)) /\ prepare default_prepare (dot 3) = Ok (dot 3).
Proof. split; vm_compute; reflexivity. Qed.

(** two tones: on gray paper of value 240 with black ink, the paper comes out black where there is
    no ink in the window, and white where there is *)
Definition gray_paper : gray := image_of 40 20 (fun x y => if (1 <=? x) && (x <? 4) && (1 <=? y) && (y <? 19) then 0%N else 240%N).
Example C57_gray_paper : wf_gray gray_paper /\
  (forall x y, 0 <= x < gw gray_paper -> 0 <= y < gh gray_paper -> get_pixel gray_paper x y = Ok 0%N \/ get_pixel gray_paper x y = Ok 240%N) /\
  exists g', prepare default_prepare gray_paper = Ok g' /\ get_pixel g' 2 10 = Ok 0%N /\ get_pixel g' 10 10 = Ok 255%N /\ get_pixel g' 30 10 = Ok 0%N.
Proof.
  assert (HW : wf_gray gray_paper) by (apply image_of_wf; [unfold u32_max; lia|unfold u32_max; lia|intros x y; now destruct (_ && _)]).
  split; [exact HW|]. split.
  - intros x y Hx Hy. unfold gray_paper. rewrite image_of_pixel by assumption. destruct (_ && _); auto.
  - eexists. split; [vm_compute; reflexivity|]. repeat split; vm_compute; reflexivity.
Qed.
