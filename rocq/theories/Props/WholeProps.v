(** From the drawing to the text: C60. *)
From Coq Require Import NArith ZArith Reals List Lia Lra Bool Arith Psatz.
From Verif.Model Require Import Prepare Detect Extract Pipeline.
From Flocq Require Import Core.
From Verif.Spec Require Import Bits Segments Symbol Layout Bridge Message Encoder Plane Drawing.
From Verif.Proofs Require Import BaseP CountP DrawP EncodeP EncoderP PrepareP FloatP ApproxP DetectP GeometryP ExtractP AlignP RefineP RefineF ScanP LocateP CornersP WholeP.
From Verif.Props Require Import PrepareProps DetectProps DecoderProps PipelineProps ExtractProps CleanProps FinderProps.
Import ListNotations.
Local Open Scope Z_scope.

(** a symbol drawn on white paper, with at least one column of paper to the right; [d column row] *)
Definition symbol_alone (g : gray) (m ox oy v : Z) (d : matrix) : Prop :=
  symbol_drawn g m ox oy v d /\ finder_corners (side_of v) (fun r c => d c r) /\ third_row_varied (side_of v) (fun r c => d c r) /\
  white_around (pixel g) m ox oy (side_of v) /\ ox + side_of v * m < gw g /\ gw g <= 2 ^ 26 /\ gh g <= 2 ^ 26.

(** the upper left pixels of the three finder patterns *)
Definition corners_of (m ox oy v : Z) : list (Z * Z) :=
  [(ox, oy); (ox + (side_of v - 7) * m, oy); (ox, oy + (side_of v - 7) * m)].

(** nothing else looks like a finder pattern close to one of the three *)
Definition no_decoys (m ox oy v : Z) (cs : list finder_pos) : Prop := forall c fx fy,
  In c cs -> In (fx, fy) (corners_of m ox oy v) -> in_the_way m fx fy c -> centre_found m fx fy c.

Lemma pixel_some g x y : wf_gray g -> 0 <= x < gw g -> 0 <= y < gh g -> pixel g x y = Some (pix g x y).
Proof. intros W Hx Hy. unfold pixel. now rewrite get_pixel_pix. Qed.
Lemma pixel_inside g x y v : pixel g x y = Some v -> x < gw g /\ y < gh g.
Proof. unfold pixel, get_pixel. destruct (Z.ltb_spec x (gw g)), (Z.ltb_spec y (gh g)); cbn [andb]; try discriminate. auto. Qed.

Section Alone.
Context (g : gray) (m ox oy v : Z) (d : matrix) (HW : wf_gray g) (Hv : 1 <= v <= 40) (Hm : 2 <= m) (HA : symbol_alone g m ox oy v d).
Let n := side_of v.

Lemma side_big : 21 <= n /\ n - 7 = 4 * v + 10.
Proof. unfold n, side_of. lia. Qed.
Lemma inside_image : 0 <= ox /\ 0 <= oy /\ ox + n * m < gw g /\ oy + n * m <= gh g /\ gw g <= 2 ^ 26 /\ gh g <= 2 ^ 26.
Proof.
  destruct HA as (((X & Y & M & D) & _) & _ & _ & _ & R & B). destruct side_big as [N _]. fold n in D, R. repeat split; try lia.
  pose proof (D (n - 1) 0 0 (m - 1) ltac:(lia) ltac:(lia) ltac:(lia) ltac:(lia)) as P. apply pixel_inside in P.
  replace (oy + (n - 1) * m + (m - 1)) with (oy + n * m - 1) in P by ring. lia.
Qed.

Lemma corners_drawn cr cc : corner_at n cr cc -> finder_drawn (pixel g) m (ox + cc * m) (oy + cr * m).
Proof.
  intros HC. destruct HA as ((D & _) & F & _ & W & R & _). fold n in D, F, W, R. destruct inside_image as (X & Y & XR & YB & _). destruct side_big as [N _].
  apply (corner_drawn (pixel g) m ox oy n (fun r c => d c r)); auto. intros y Hy. assert (7 * m <= n * m) by nia.
  assert (P := pixel_some g (ox + n * m) y HW ltac:(nia) ltac:(lia)). rewrite P. f_equal. apply (W (ox + n * m) y); auto; nia.
Qed.

Lemma white_left x y : 0 <= x < ox -> 0 <= y < gh g -> pix g x y = 255%N.
Proof.
  intros Hx Hy. destruct HA as (_ & _ & _ & W & _). destruct inside_image as (X & Y & XR & YB & _). destruct side_big as [N _].
  apply (W x y); [lia|lia|lia|]. apply pixel_some; auto. nia.
Qed.
Lemma module_pix r c i j : 0 <= r < n -> 0 <= c < n -> 0 <= i < m -> 0 <= j < m -> pix g (ox + c * m + i) (oy + r * m + j) = if d c r then 0%N else 255%N.
Proof.
  intros Hr Hc Hi Hj. destruct HA as (((_ & _ & _ & D) & _) & _). specialize (D r c i j Hr Hc Hi Hj). destruct inside_image as (X & Y & XR & YB & _).
  assert (c * m + m <= n * m) by nia. assert (r * m + m <= n * m) by nia. assert (0 <= c * m) by nia. assert (0 <= r * m) by nia.
  rewrite pixel_some in D by (auto; lia). now injection D.
Qed.

Lemma corners_fit cr cc : corner_at n cr cc -> runs_fit (fun x => pix g x (oy + cr * m + 2 * m)) m (ox + cc * m).
Proof.
  intros HC. destruct inside_image as (X & Y & XR & YB & _). destruct side_big as [N _].
  assert (B : 0 <= cr /\ 0 <= cc /\ cr + 7 <= n /\ cc + 7 <= n) by (destruct HC as [[-> ->]|[[-> ->]|[-> ->]]]; lia).
  assert (Q1 : 0 <= cr * m) by nia. assert (Q3 : cr * m + 7 * m <= n * m) by nia.
  apply (row_fits _ m ox n (fun c => d c (cr + 2))); try lia.
  - intros x Hx. apply white_left; lia.
  - intros c i Hc Hi. replace (oy + cr * m + 2 * m) with (oy + (cr + 2) * m + 0) by ring. apply module_pix; lia.
  - intros c H0 H1 _. destruct HC as [[-> ->]|[[-> ->]|[-> ->]]]; [lia| |lia]. destruct HA as (_ & _ & V & _). fold n in V. exact (V c H0 H1).
Qed.

Lemma centre_back cs fx fy c : find_candidates g = Ok cs -> In c cs -> centre_found m fx fy c -> at_centre m fx fy c.
Proof.
  intros E Hc (S & X & Y). destruct (find_candidates_ok g HW) as (cs' & E' & HC). rewrite E in E'. injection E' as <-.
  unfold cands_ok in HC. rewrite Forall_forall in HC. destruct (HC c Hc) as ((a & Fa & _) & x & y & Fx & Fy & _).
  cbn [vx vy] in X, Y. split; [exact (value_fin _ _ _ S Fa)|]. split.
  - unfold hf. replace (IZR (2 * fx + 7 * m) / 2)%R with (middle_of m fx 3 + / 2)%R; [exact (value_fin _ _ _ X Fx)|].
    unfold middle_of. rewrite plus_IZR, !mult_IZR. lra.
  - apply fin_hf. exact (value_fin _ _ _ Y Fy).
Qed.

Lemma three_candidates cs : find_candidates g = Ok cs -> no_decoys m ox oy v cs -> exists c1 c2 c3, In c1 cs /\ In c2 cs /\ In c3 cs /\
  at_centre m ox oy c1 /\ at_centre m (ox + (4 * v + 10) * m) oy c2 /\ at_centre m ox (oy + (4 * v + 10) * m) c3.
Proof.
  intros E ND. destruct inside_image as (X & Y & XR & YB & BX & BY). destruct side_big as [N N7]. rewrite <- N7.
  assert (K : forall cr cc, corner_at n cr cc -> In (ox + cc * m, oy + cr * m) (corners_of m ox oy v) -> exists c, In c cs /\ at_centre m (ox + cc * m) (oy + cr * m) c).
  { intros cr cc HC HI. destruct (C58_alone g m (ox + cc * m) (oy + cr * m) cs HW (corners_drawn cr cc HC) Hm BX BY (corners_fit cr cc HC) E) as (c & Hc & F).
    - intros c Hc. now apply ND.
    - exists c. split; [exact Hc|]. now apply (centre_back cs). }
  destruct (K 0 0) as (c1 & I1 & A1); [left; auto|left; f_equal; ring|].
  destruct (K 0 (n - 7)) as (c2 & I2 & A2); [right; left; auto|right; left; f_equal; ring|].
  destruct (K (n - 7) 0) as (c3 & I3 & A3); [right; right; auto|right; right; left; f_equal; ring|].
  rewrite !Z.add_0_r in *. exists c1, c2, c3. auto 10.
Qed.

Lemma made_located c1 c2 c3 loc : at_centre m ox oy c1 -> at_centre m (ox + (4 * v + 10) * m) oy c2 -> at_centre m ox (oy + (4 * v + 10) * m) c3 ->
  made_from c1 c2 c3 v loc -> located m ox oy n loc /\ version loc = v.
Proof.
  intros (_ & X1 & Y1) (_ & X2 & Y2) (_ & X3 & Y3) (E1 & E2 & E3 & EV). split; [|exact EV]. destruct side_big as [N N7].
  assert (M : (2 <= IZR m)%R) by (apply IZR_le; lia).
  exists (/ 2)%R, (IZR ((7 * m - 1) / 2) - (7 * IZR m - 1) / 2)%R.
  assert (B : (Rabs (IZR ((7 * m - 1) / 2) - (7 * IZR m - 1) / 2) <= / 2)%R).
  { pose proof (Z.div_mod (7 * m - 1) 2 ltac:(lia)) as DM. pose proof (Z.mod_pos_bound (7 * m - 1) 2 ltac:(lia)) as MB.
    set (q := (7 * m - 1) / 2) in *. set (r := (7 * m - 1) mod 2) in *.
    assert (DR : (7 * IZR m - 1 = 2 * IZR q + IZR r)%R) by (rewrite <- !mult_IZR, <- minus_IZR, <- plus_IZR; f_equal; lia).
    assert (0 <= IZR r <= 1)%R by (split; apply IZR_le; lia). rabs; lra. }
  split; [rewrite Rabs_pos_eq; lra|]. split; [lra|].
  assert (NR : IZR n = (17 + 4 * IZR v)%R) by (unfold n, side_of; rewrite plus_IZR, mult_IZR; lra).
  rewrite E1, E2, E3. split; [|split]; split.
  - replace (middle_of m ox 3 + / 2)%R with (IZR (2 * ox + 7 * m) / 2)%R; [exact X1|]. unfold middle_of. rewrite plus_IZR, !mult_IZR. lra.
  - apply fin_hf in Y1. replace (middle_of m oy 3 + _)%R with (IZR (oy + (7 * m - 1) / 2)); [exact Y1|]. unfold middle_of. rewrite plus_IZR. lra.
  - replace (middle_of m ox (n - 4) + / 2)%R with (IZR (2 * (ox + (4 * v + 10) * m) + 7 * m) / 2)%R; [exact X2|].
    unfold middle_of. rewrite minus_IZR, NR, plus_IZR, !mult_IZR, plus_IZR, mult_IZR, plus_IZR, mult_IZR. lra.
  - apply fin_hf in Y2. replace (middle_of m oy 3 + _)%R with (IZR (oy + (7 * m - 1) / 2)); [exact Y2|]. unfold middle_of. rewrite plus_IZR. lra.
  - replace (middle_of m ox 3 + / 2)%R with (IZR (2 * ox + 7 * m) / 2)%R; [exact X3|]. unfold middle_of. rewrite plus_IZR, !mult_IZR. lra.
  - apply fin_hf in Y3. replace (middle_of m oy (n - 4) + _)%R with (IZR (oy + (4 * v + 10) * m + (7 * m - 1) / 2)); [exact Y3|].
    unfold middle_of. rewrite minus_IZR, NR, !plus_IZR, mult_IZR, plus_IZR, mult_IZR. lra.
Qed.

Lemma upright_2 c : at_centre m (ox + (4 * v + 10) * m) oy c -> at_centre m (ox + (4 * v + 10) * m * 1) (oy + (4 * v + 10) * m * 0) c.
Proof. now rewrite Z.mul_1_r, Z.mul_0_r, Z.add_0_r. Qed.
Lemma upright_3 c : at_centre m ox (oy + (4 * v + 10) * m) c -> at_centre m (ox + (4 * v + 10) * m * 0) (oy + (4 * v + 10) * m * 1) c.
Proof. now rewrite Z.mul_1_r, Z.mul_0_r, Z.add_0_r. Qed.

Theorem C60_located cs locs : find_candidates g = Ok cs -> no_decoys m ox oy v cs -> detect g = Ok locs ->
  exists loc, In loc locs /\ located m ox oy n loc /\ version loc = v.
Proof.
  intros E ND ED. destruct (three_candidates cs E ND) as (c1 & c2 & c3 & I1 & I2 & I3 & A1 & A2 & A3).
  destruct inside_image as (X & Y & XR & YB & BX & BY). destruct side_big as [N N7]. assert ((4 * v + 10) * m + 7 * m = n * m) by (rewrite <- N7; ring).
  unfold detect in ED. rewrite E in ED. cbn [bind] in ED.
  destruct (triple_in m ox oy v ltac:(nia) ltac:(lia) ltac:(lia) 1 0 0 1 ltac:(left; auto) c1 c2 c3 A1 (upright_2 _ A2) (upright_3 _ A3) cs locs I1 I2 I3 ED) as (loc & IL & M).
  exists loc. split; [exact IL|]. now apply (made_located c1 c2 c3).
Qed.

(** when there are no other candidates at all, there are no other locations *)
Theorem C60_only cs : find_candidates g = Ok cs -> no_decoys m ox oy v cs -> length cs = 3%nat ->
  exists loc, detect g = Ok [loc] /\ located m ox oy n loc /\ version loc = v.
Proof.
  intros E ND HL. destruct (three_candidates cs E ND) as (c1 & c2 & c3 & I1 & I2 & I3 & A1 & A2 & A3).
  destruct inside_image as (X & Y & XR & YB & BX & BY). destruct side_big as [N N7]. assert ((4 * v + 10) * m + 7 * m = n * m) by (rewrite <- N7; ring).
  destruct (triple_only m ox oy v ltac:(nia) ltac:(lia) ltac:(lia) 1 0 0 1 ltac:(left; auto) c1 c2 c3 A1 (upright_2 _ A2) (upright_3 _ A3) cs I1 I2 I3 HL) as (loc & EL & M).
  exists loc. split; [unfold detect; now rewrite E|]. now apply (made_located c1 c2 c3).
Qed.
End Alone.

(** *** the text *)
Lemma Forall2_in_left {A B} (R : A -> B -> Prop) la lb a : Forall2 R la lb -> In a la -> exists b, In b lb /\ R a b.
Proof.
  intros F. induction F as [|x y la lb H F IH]; [intros []|intros [->|HI]].
  - exists y. split; [now left|exact H].
  - destruct (IH HI) as (b & Hb & Rb). exists b. split; [now right|exact Rb].
Qed.

Section Text.
Context {D : Type} (to_gray : D -> gray) (img : D) (g : gray) (m ox oy v : Z) (l : level) (mask : N).
Context (segs : list raw) (texts : list (list N)) (base d : matrix).
Context (HW : wf_gray g) (Hv : 1 <= v <= 40) (Hm : 2 <= m) (HP : prepare default_prepare (to_gray img) = Ok g).
Context (HA : symbol_alone g m ox oy v d) (HAl : v = 1 \/ bottom_right_alignment (side_of v) (fun r c => d c r)).
Context (Hmask : (mask < 8)%N) (HS : Forall (raw_wf v) segs) (HT : Forall2 raw_text segs texts) (HL : (length (segment_bits v segs) <= 8 * data_codewords v l)%nat).
Context (HM : forall x y, data_module v x y -> d x y = encode_symbol v l mask segs base x y) (HF : carries d copy1 (format_word l mask)).

Lemma located_text loc : located m ox oy (side_of v) loc -> version loc = v -> qr_decode (extract g loc) = Ok (concat texts).
Proof. intros HLoc HV. destruct HA as (HD & _). exact (C56_decoded g m ox oy v l mask segs texts base d loc HW Hv Hmask HD HAl HS HT HL HM HF HLoc HV). Qed.

Theorem C60_among cs dec rs : find_candidates g = Ok cs -> no_decoys m ox oy v cs -> default_decoder to_gray = Ok dec ->
  decode dec img = Ok rs -> In (inl (concat texts)) rs.
Proof.
  intros E ND HD ER. injection HD as <-. apply C39_one_each in ER as (g' & locs & E1 & E2 & F). cbn [d_prepare d_detect] in E1, E2. rewrite HP in E1. injection E1 as <-.
  destruct (C60_located g m ox oy v d HW Hv Hm HA cs locs E ND E2) as (loc & IL & L & V).
  destruct (Forall2_in_left _ _ _ _ F IL) as (r & Er & (_ & R)).
  cbn [d_decode d_extract] in R. rewrite (located_text loc L V) in R. destruct r as [t|e]; [|discriminate]. injection R as <-.
  exact Er.
Qed.

Theorem C60_one cs dec : find_candidates g = Ok cs -> no_decoys m ox oy v cs -> length cs = 3%nat -> default_decoder to_gray = Ok dec ->
  decode dec img = Ok [inl (concat texts)].
Proof.
  intros E ND H3 HD. injection HD as <-. apply C39_one_each. cbn [d_prepare d_detect].
  destruct (C60_only g m ox oy v d HW Hv Hm HA cs E ND H3) as (loc & EL & L & V). exists g, [loc]. split; [exact HP|]. split; [exact EL|].
  constructor; [|constructor]. pose proof (located_text loc L V) as T. split; cbn [d_extract d_decode]; [|exact T].
  intros p EP. rewrite EP in T. discriminate.
Qed.
End Text.

(** *** painted symbols *)
Lemma painted_alone w h m ox oy v d : 1 <= m -> 1 <= v -> 0 <= ox -> 0 <= oy -> ox + side_of v * m < w -> oy + side_of v * m <= h -> w <= 2 ^ 26 -> h <= 2 ^ 26 ->
  finder_corners (side_of v) (fun r c => d c r) -> third_row_varied (side_of v) (fun r c => d c r) ->
  symbol_alone (painted w h m ox oy v d) m ox oy v d.
Proof.
  intros Hm Hv Hx Hy Ww Wh W2 H2 HF HT. split; [apply painted_drawn; lia|]. split; [exact HF|]. split; [exact HT|].
  split; [|cbn [painted image_of gw gh]; lia].
  intros x y u Px Py HO P. unfold pixel in P. pose proof (pixel_inside _ _ _ _ P) as [Lx Ly]. cbn [painted image_of gw gh] in Lx, Ly.
  rewrite painted_outside in P by lia. now injection P.
Qed.

(** the default decoder reads a symbol painted black on white with at least five pixels per module and a
    margin of at least ten pixels *)
Theorem C60_painted {D : Type} (to_gray : D -> gray) (img : D) w h m ox oy v l mask segs texts base d cs dec :
  to_gray img = painted w h m ox oy v d -> 5 <= m -> 1 <= v <= 40 -> 10 <= ox -> 10 <= oy -> ox + side_of v * m + 10 <= w -> oy + side_of v * m + 10 <= h ->
  w <= 2 ^ 26 -> h <= 2 ^ 26 -> w * h <= 2 ^ 36 ->
  finder_corners (side_of v) (fun r c => d c r) -> third_row_varied (side_of v) (fun r c => d c r) ->
  (v = 1 \/ bottom_right_alignment (side_of v) (fun r c => d c r)) ->
  (mask < 8)%N -> Forall (raw_wf v) segs -> Forall2 raw_text segs texts -> (length (segment_bits v segs) <= 8 * data_codewords v l)%nat ->
  (forall x y, data_module v x y -> d x y = encode_symbol v l mask segs base x y) -> carries d copy1 (format_word l mask) ->
  find_candidates (painted w h m ox oy v d) = Ok cs -> no_decoys m ox oy v cs -> default_decoder to_gray = Ok dec ->
  (forall rs, decode dec img = Ok rs -> In (inl (concat texts)) rs) /\
  (length cs = 3%nat -> decode dec img = Ok [inl (concat texts)]).
Proof.
  intros EI Hm Hv Hx Hy Ww Wh W2 H2 WH HFC HTR HAl Hmask HS HT HL HM HF E ND HD. assert (SP : 0 <= side_of v * m) by (unfold side_of; nia).
  assert (HW : wf_gray (painted w h m ox oy v d)) by (apply painted_wf; unfold u32_max; lia).
  assert (HP : prepare default_prepare (to_gray img) = Ok (painted w h m ox oy v d)) by (rewrite EI; apply C57_symbol; unfold u32_max; lia).
  assert (HA : symbol_alone (painted w h m ox oy v d) m ox oy v d) by (apply painted_alone; auto; lia).
  split.
  - intros rs. eapply C60_among; eauto; lia.
  - intros H3. eapply C60_one; eauto; lia.
Qed.

(** candidates at the centres of the three patterns are not decoys *)
Lemma in_the_way_near m fx fy fx' fy' c : 2 <= m -> centre_found m fx fy c -> in_the_way m fx' fy' c -> Z.abs (fx - fx') < 9 * m /\ Z.abs (fy - fy') < 9 * m.
Proof.
  intros Hm (_ & (_ & X) & (_ & Y)) ([px py] & ((_ & X') & (_ & Y')) & N). cbn [vx vy] in *. rewrite X in X'. rewrite Y in Y'. subst px py.
  pose proof (norm_pos (minus (Vec (IZR fx' + 7 / 2 * IZR m) (IZR (fy' + 2 * m))) (Vec (middle_of m fx 3 + / 2) (IZR (fy + (7 * m - 1) / 2))))) as NP.
  pose proof (norm_sq (minus (Vec (IZR fx' + 7 / 2 * IZR m) (IZR (fy' + 2 * m))) (Vec (middle_of m fx 3 + / 2) (IZR (fy + (7 * m - 1) / 2))))) as NS.
  set (l := norm _) in *. cbn [minus vx vy] in NS. assert (M : (2 <= IZR m)%R) by (apply IZR_le; lia).
  destruct (sq_sum_abs (IZR fx' + 7 / 2 * IZR m - (middle_of m fx 3 + / 2)) (IZR (fy' + 2 * m) - IZR (fy + (7 * m - 1) / 2)) l NP ltac:(lra)) as [AX AY].
  unfold middle_of in AX. rewrite <- minus_IZR, <- abs_IZR in AY.
  assert (BX : (IZR (Z.abs (fx' - fx)) < IZR (8 * m))%R).
  { rewrite abs_IZR, minus_IZR, mult_IZR. replace (IZR fx' - IZR fx)%R with (IZR fx' + 7 / 2 * IZR m - (IZR fx + (3 + / 2) * IZR m - / 2 + / 2))%R by lra. lra. }
  assert (BY : (IZR (Z.abs (fy' + 2 * m - (fy + (7 * m - 1) / 2))) <= IZR (7 * m) + 0.0001 * IZR m)%R) by (rewrite mult_IZR; lra).
  assert (BY' : (IZR (2 * Z.abs (fy' + 2 * m - (fy + (7 * m - 1) / 2))) < IZR (15 * m))%R) by (rewrite !mult_IZR in *; lra).
  apply lt_IZR in BX, BY'. pose proof (Z.div_mod (7 * m - 1) 2 ltac:(lia)). pose proof (Z.mod_pos_bound (7 * m - 1) 2 ltac:(lia)). lia.
Qed.

Theorem C60_no_decoys m ox oy v cs : 2 <= m -> 1 <= v ->
  Forall (fun c => exists fx fy, In (fx, fy) (corners_of m ox oy v) /\ centre_found m fx fy c) cs -> no_decoys m ox oy v cs.
Proof.
  intros Hm Hv HF c fx fy Hc HI HW. rewrite Forall_forall in HF. destruct (HF c Hc) as (fx' & fy' & HI' & F).
  destruct (in_the_way_near m fx' fy' fx fy c Hm F HW) as [NX NY].
  assert (L : 14 * m <= (side_of v - 7) * m) by (unfold side_of; nia).
  unfold corners_of in HI, HI'. cbn [In] in HI, HI'.
  destruct HI as [E|[E|[E|[]]]]; injection E as <- <-; destruct HI' as [E|[E|[E|[]]]]; injection E as <- <-; try exact F; exfalso; lia.
Qed.

(** *** a complete symbol of version 1, "HELLO", five pixels per module *)
Definition base_1 : matrix := fun x y =>
  let ring cx cy k := Z.max (Z.abs (x - cx)) (Z.abs (y - cy)) =? k in
  let finder cx cy := ring cx cy 0 || ring cx cy 1 || ring cx cy 3 in
  finder 3 3 || finder 17 3 || finder 3 17
  || (Z.eqb x 6 || Z.eqb y 6) && Z.even (x + y) && (7 <? x + y - 6) && (x + y - 6 <? 13).
Definition hello : list raw := [encode_alnum [72; 69; 76; 76; 79]%N].

(** the modules as a table *)
Definition order_1 : list (Z * Z) := Eval vm_compute in data_order 1.
Definition bits_1 : list bool := Eval vm_compute in
  map (fun p => xorb (snd p) (mask_bit 3 (fst (fst p)) (snd (fst p))))
      (combine order_1 (bits (interleave (encode_blocks 1 M hello)) ++ repeat false (Z.to_nat (data_module_count 1 mod 8)))).
Definition word_1 : N := Eval vm_compute in format_word M 3.
Definition symbol_1 : list (list bool) := Eval vm_compute in
  let d := place order_1 bits_1 (draw_on 1 word_1 word_1 base_1) in
  map (fun y => map (fun x => d (Z.of_nat x) (Z.of_nat y)) (seq 0 21)) (seq 0 21).
Definition modules_1 : matrix := fun x y => nth (Z.to_nat x) (nth (Z.to_nat y) symbol_1 []) false.


(** a table that has the bits on the data modules in their order agrees with the encoding *)
Lemma table_encodes v l mask segs base (d : matrix) order bs w : 1 <= v <= 40 -> data_order v = order -> format_word l mask = w ->
  map (fun p => xorb (snd p) (mask_bit mask (fst (fst p)) (snd (fst p))))
    (combine order (bits (interleave (encode_blocks v l segs)) ++ repeat false (Z.to_nat (data_module_count v mod 8)))) = bs ->
  length bs = length order -> map (fun p => d (fst p) (snd p)) order = bs ->
  forallb (fun i => Bool.eqb (d (fst (copy1 i)) (snd (copy1 i))) (N.testbit w (Z.to_N i))) (map Z.of_nat (seq 0 15)) = true ->
  (forall x y, data_module v x y -> d x y = encode_symbol v l mask segs base x y) /\ carries d copy1 (format_word l mask).
Proof.
  intros Hv EO EW EB HL HD HF. split.
  - intros x y HM. apply (data_order_In v x y ltac:(lia)) in HM. rewrite EO in HM.
    unfold encode_symbol, symbol_of, engrave. cbv zeta. rewrite EO, EB.
    assert (P := place_all order (draw_on v (format_word l mask) (format_word l mask) base) ltac:(rewrite <- EO; apply data_order_NoDup; lia) bs HL).
    exact (eq_sym (ext_in_map (eq_trans P (eq_sym HD)) (x, y) HM)).
  - intros i Hi. rewrite EW. rewrite forallb_forall in HF. apply Bool.eqb_prop. apply HF. apply in_map_iff. exists (Z.to_nat i). split; [lia|apply in_seq; lia].
Qed.

Lemma modules_1_encoded : (forall x y, data_module 1 x y -> modules_1 x y = encode_symbol 1 M 3 hello base_1 x y) /\ carries modules_1 copy1 (format_word M 3).
Proof. apply (table_encodes 1 M 3 hello base_1 modules_1 order_1 bits_1 word_1); [lia|vm_compute; reflexivity..]. Qed.

Definition check_corners (n : Z) (dark : Z -> Z -> bool) : bool :=
  forallb (fun r => forallb (fun c => let k := (r <? 7) && (c <? 7) && finder_dark r c in
    Bool.eqb (dark r c) k && Bool.eqb (dark r (n - 1 - c)) k && Bool.eqb (dark (n - 1 - r) c) k) (map Z.of_nat (seq 0 8))) (map Z.of_nat (seq 0 8)).
Lemma check_corners_ok n dark : check_corners n dark = true -> finder_corners n dark.
Proof.
  unfold check_corners. intros H r c Hr Hc. rewrite forallb_forall in H.
  assert (I : forall z, 0 <= z < 8 -> In z (map Z.of_nat (seq 0 8))) by (intros z Hz; apply in_map_iff; exists (Z.to_nat z); split; [lia|apply in_seq; lia]).
  specialize (H r (I r Hr)). rewrite forallb_forall in H. specialize (H c (I c Hc)). cbv zeta in H |- *.
  rewrite !andb_true_iff in H. destruct H as [[A B] C]. apply Bool.eqb_prop in A, B, C. auto.
Qed.

Definition paper : gray := painted 125 125 5 10 10 1 modules_1.
Definition paper_candidates : list finder_pos :=
  let c x y := FP (Pt (fdiv (of_Z x) (of_Z 2)) (of_Z y)) (of_Z 5) (of_Z 0) in [c 55 27; c 195 27; c 55 97].
Lemma paper_found : find_candidates paper = Ok paper_candidates.
Proof. vm_compute. reflexivity. Qed.

Example C60_example : exists dec, default_decoder (fun g => g) = Ok dec /\ decode dec paper = Ok [inl [72; 69; 76; 76; 79]%N] /\
  symbol_alone paper 5 10 10 1 modules_1 /\ no_decoys 5 10 10 1 paper_candidates.
Proof.
  assert (HF : finder_corners (side_of 1) (fun r c => modules_1 c r)) by (apply check_corners_ok; vm_compute; reflexivity).
  assert (HT : third_row_varied (side_of 1) (fun r c => modules_1 c r)).
  { intros c H0 H1. unfold side_of in H1. assert (A : c = 0 \/ c = 1 \/ c = 2 \/ c = 3) by lia.
    destruct A as [->|[->|[->| ->]]]; [exists 1|exists 1|exists 3|exists 2]; (split; [lia|vm_compute; discriminate]). }
  assert (HA : symbol_alone paper 5 10 10 1 modules_1) by (apply painted_alone; auto; unfold side_of; lia).
  assert (ND : no_decoys 5 10 10 1 paper_candidates).
  { assert (K : forall fx fy c, In (fx, fy) (corners_of 5 10 10 1) -> at_centre 5 fx fy c -> exists fx fy, In (fx, fy) (corners_of 5 10 10 1) /\ centre_found 5 fx fy c).
    { intros fx fy c HI A. exists fx, fy. split; [exact HI|]. now apply at_centre_found. }
    assert (H2 : forall k, Z.abs k <= 1000 -> hf (fdiv (of_Z k) (of_Z 2)) k).
    { intros k Hk. unfold hf. rewrite <- rnd_half by (unfold hb; lia). apply fin_fdiv; [apply fin_of_Z; lia|apply fin_of_Z; lia|lra|].
      apply half_big. unfold Rdiv. rewrite Rabs_mult, (Rabs_pos_eq (/ 2)), <- abs_IZR by lra. apply IZR_le in Hk. lra. }
    apply C60_no_decoys; [lia|lia|]. unfold paper_candidates. repeat constructor.
    - apply (K 10 10); [left; reflexivity|]. split; [apply fi_Z; unfold ib; lia|]. split; [apply (H2 55); lia|exact (hf_Z 27 ltac:(unfold hb; lia))].
    - apply (K 80 10); [right; left; reflexivity|]. split; [apply fi_Z; unfold ib; lia|]. split; [apply (H2 195); lia|exact (hf_Z 27 ltac:(unfold hb; lia))].
    - apply (K 10 80); [right; right; left; reflexivity|]. split; [apply fi_Z; unfold ib; lia|]. split; [apply (H2 55); lia|exact (hf_Z 97 ltac:(unfold hb; lia))]. }
  eexists. split; [reflexivity|]. split; [|split; [exact HA|exact ND]].
  apply (C60_painted (fun g => g) paper 125 125 5 10 10 1 M 3 hello [[72; 69; 76; 76; 79]%N] base_1 modules_1 paper_candidates); try (unfold side_of; lia); [reflexivity|exact HF|exact HT|..].
  - constructor; [|constructor]. apply encode_alnum_wf; [|vm_compute; reflexivity]. repeat (constructor; [vm_compute; tauto|]). constructor.
  - constructor; [|constructor]. split; [|vm_compute; reflexivity]. vm_compute. repeat constructor.
  - vm_compute. lia.
  - exact (proj1 modules_1_encoded).
  - exact (proj2 modules_1_encoded).
  - exact paper_found.
  - exact ND.
  - reflexivity.
  - reflexivity.
Qed.
