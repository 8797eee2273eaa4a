(** Symbols at any angle: C68, C69. *)
From Coq Require Import NArith ZArith Reals List Lia Lra Bool Psatz.
From Verif.Model Require Import Prepare Detect Extract Pipeline.
From Flocq Require Import Core.
From Verif.Spec Require Import Bits Segments Symbol Layout Bridge Message Encoder Plane Drawing Perspective Angle.
From Verif.Proofs Require Import BaseP FormatP EncodeP PrepareP FloatP ApproxP DetectP ExtractP AlignP GridP AngleP.
From Verif.Props Require Import PrepareProps DetectProps DecoderProps PipelineProps ExtractProps WholeProps TurnProps GridProps.
Import ListNotations.
Local Open Scope R_scope.

(** *** C68: where the modules of version 1 are read *)
Definition moderate (p : vec) : Prop := Rabs (vx p) <= 8388608 /\ Rabs (vy p) <= 8388608.
Definition affine_map (tl tr bl : vec) (fx fy : R -> R -> R) : Prop :=
  affine fx /\ affine fy /\ through_corners 21 fx (vx tl) (vx tr) (vx bl) /\ through_corners 21 fy (vy tl) (vy tr) (vy bl).

Lemma pixel_holds q r : Rabs (q - r) <= slack -> Rabs r <= 67108864 -> (0 <= pixel_of q)%Z /\ Rabs (IZR (pixel_of q) - Rmax 0 r) <= / 2 + / 64.
Proof.
  intros HQ H. unfold slack in HQ. pose proof (away_bounds q) as [B1 B2]. unfold pixel_of. apply Rabs_le_inv in HQ, H.
  assert (away q <= u32_max)%Z by (apply le_IZR; unfold u32_max; apply Rle_trans with 100000000; [lra|apply IZR_le; lia]).
  split; [unfold u32_max in *; lia|].
  replace (Z.min u32_max (Z.max 0 (away q))) with (Z.max 0 (away q)) by (unfold u32_max in *; lia).
  replace (IZR (Z.max 0 (away q))) with (Rmax 0 (IZR (away q))).
  - apply max0_near, Rabs_le. lra.
  - unfold Rmax. destruct (Rle_dec 0 (IZR (away q))) as [L|L]; [apply le_IZR in L|assert (away q < 0)%Z by (apply lt_IZR; lra)]; f_equal; lia.
Qed.

Lemma affine_grid f t q b : affine f -> through_corners 21 f t q b ->
  forall r c, grid t ((q - t) / 14) 0 ((b - t) / 14) r c = f (INR r) (INR c).
Proof.
  intros (k0 & k1 & k2 & HF) (T1 & T2 & T3) r c. rewrite !HF in *. rewrite <- T1, <- T2, <- T3. unfold grid. change (IZR 21) with 21. field.
Qed.
Lemma grid_moderate t q b r c : Rabs t <= 8388608 -> Rabs q <= 8388608 -> Rabs b <= 8388608 -> (r < 21)%nat -> (c < 21)%nat ->
  Rabs (grid t ((q - t) / 14) 0 ((b - t) / 14) r c) <= 67108864.
Proof.
  intros A B C Hr Hc. apply Rabs_le_inv in A, B, C. unfold grid.
  assert (R1 : 0 <= INR r <= 20) by (split; [apply pos_INR|]; replace 20 with (INR 20) by (simpl; lra); apply le_INR; lia).
  assert (R2 : 0 <= INR c <= 20) by (split; [apply pos_INR|]; replace 20 with (INR 20) by (simpl; lra); apply le_INR; lia).
  set (x := (q - t) / 14). set (y := (b - t) / 14). assert (X : Rabs x <= 1198373) by (unfold x; apply Rabs_le; lra). assert (Y : Rabs y <= 1198373) by (unfold y; apply Rabs_le; lra).
  assert (K : forall k z, -3 <= k <= 17 -> Rabs z <= 1198373 -> Rabs (k * z) <= 17 * 1198373).
  { intros k z Hk Hz. rewrite Rabs_mult. assert (Rabs k <= 17) by (apply Rabs_le; lra). pose proof (Rabs_pos z). pose proof (Rabs_pos k). nra. }
  pose proof (K (INR r - 3) y ltac:(lra) Y) as K1. pose proof (K (INR c - 3) x ltac:(lra) X) as K2. clearbody x y. apply Rabs_le_inv in K1, K2. apply Rabs_le. rewrite Rmult_0_r, Rplus_0_r. lra.
Qed.

Section One.
Context (g : gray) (loc : qrloc) (tl tr bl : vec) (HV : version loc = 1%Z) (HC : corners_at loc tl tr bl) (B1 : moderate tl) (B2 : moderate tr) (B3 : moderate bl).
Context (fx fy : R -> R -> R) (HF : affine_map tl tr bl fx fy).

Lemma read_1 r c : (r < 21)%nat -> (c < 21)%nat ->
  let x := round_u32 (sample_x1 loc r c) in let y := round_u32 (sample_y1 loc r c) in
  (0 <= x)%Z /\ (0 <= y)%Z /\ holds_point (fx (INR r) (INR c)) (fy (INR r) (INR c)) x y.
Proof.
  intros Hr Hc x y. destruct HC as ([F1 F2] & [F3 F4] & [F5 F6]). destruct HF as (A1 & A2 & T1 & T2). destruct B1 as [P1 P2], B2 as [P3 P4], B3 as [P5 P6].
  destruct (points_1 loc _ _ _ _ _ _ F1 F2 F3 F4 F5 F6) with (r := r) (c := c) as (a & b & HA & HB & EA & EB); auto.
  { intros r' c' Hr' Hc'. unfold grid_x1, grid_y1. split; now apply grid_moderate. }
  unfold grid_x1 in HA. unfold grid_y1 in HB. unfold x, y. rewrite EA, EB.
  pose proof (grid_moderate _ _ _ r c P1 P3 P5 Hr Hc) as G1. pose proof (grid_moderate _ _ _ r c P2 P4 P6 Hr Hc) as G2.
  rewrite (affine_grid fx _ _ _ A1 T1) in HA, G1. rewrite (affine_grid fy _ _ _ A2 T2) in HB, G2.
  destruct (pixel_holds _ _ HA G1) as [K1 K2]. destruct (pixel_holds _ _ HB G2) as [K3 K4]. split; [exact K1|]. split; [exact K3|]. now split.
Qed.

Theorem C68_sampling q : extract g loc = Ok q -> forall row column, (row < 21)%nat -> (column < 21)%nat ->
  exists v, nth_error (qdata q) (row * 21 + column) = Some v /\ seen (pixel g) (fx (INR row) (INR column)) (fy (INR row) (INR column)) v.
Proof.
  intros E row column Hr Hc. destruct (unfold_1 g loc HV) as (p & start & dx & dy & EX & U). rewrite EX in E. apply bind_ok in E as (data & ED & E). injection E as <-.
  destruct (GridP.sample_rows_reads _ _ _ _ _ _ _ _ _ ED) as (tail & -> & _ & RD). cbn [app qdata]. destruct (RD row column Hr Hc) as (v & V1 & V2).
  exists v. split; [exact V1|]. destruct (U row column) as [-> ->] in V2. destruct (read_1 row column Hr Hc) as (K1 & K2 & K3).
  eexists. eexists. split; [exact K1|]. split; [exact K2|]. split; [exact K3|]. unfold pixel. now rewrite V2.
Qed.

Theorem C68_exact d : (forall row column, (row < 21)%nat -> (column < 21)%nat ->
     clearly (pixel g) (fx (INR row) (INR column)) (fy (INR row) (INR column)) (colour (d (Z.of_nat column) (Z.of_nat row)))) ->
  extract g loc = Ok (deliver 1 d).
Proof.
  intros H. destruct (unfold_1 g loc HV) as (p & start & dx & dy & -> & U).
  rewrite (sample_rows_ok g p (fun r c => colour (d (Z.of_nat c) (Z.of_nat r)))); [reflexivity|]. intros r c Hr Hc. destruct (U r c) as [-> ->].
  destruct (read_1 r c Hr Hc) as (K1 & K2 & K3). apply pixel_get. now apply H.
Qed.

Theorem C68_text d text : (forall row column, (row < 21)%nat -> (column < 21)%nat ->
     clearly (pixel g) (fx (INR row) (INR column)) (fy (INR row) (INR column)) (colour (d (Z.of_nat column) (Z.of_nat row)))) ->
  holds_text 1 d text -> qr_decode (extract g loc) = Ok text.
Proof.
  intros H (l & mask & segs & texts & base & Hm & HS & HT & HF' & HE & HC' & ->).
  rewrite (C68_exact d H). eapply C30_roundtrip; eauto; [lia|]. apply deliver_shows. lia.
Qed.
End One.

(** *** "HELLO" in slanted modules: every row of four pixels is one pixel to the right of the row above *)
Definition slanted_pixel (x y : Z) : N := let r := ((y - 8) / 4)%Z in let c := ((x - 8 - r) / 4)%Z in
  if ((0 <=? r) && (r <? 21) && (0 <=? c) && (c <? 21))%Z then colour (modules_1 c r) else 255%N.
Definition slanted : gray := image_of 122 100 slanted_pixel.
Definition slanted_loc : qrloc := let h k := fdiv (fadd (of_Z k) (of_Z (k + 1))) (of_Z 2) in
  mkQRLoc (Pt (h 24%Z) (h 21%Z)) (Pt (h 80%Z) (h 21%Z)) (Pt (h 38%Z) (h 77%Z)) (of_Z 4) 1.
Definition slanted_x (row column : R) : R := 19 / 2 + row + 4 * column.
Definition slanted_y (row column : R) : R := 19 / 2 + 4 * row.
Lemma slanted_clear row column : (row < 21)%nat -> (column < 21)%nat ->
  clearly (pixel slanted) (slanted_x (INR row) (INR column)) (slanted_y (INR row) (INR column)) (colour (modules_1 (Z.of_nat column) (Z.of_nat row))).
Proof.
  intros Hr Hc i j Hi Hj [A B]. rewrite !INR_IZR_INZ in *. set (r := Z.of_nat row) in *. set (c := Z.of_nat column) in *. unfold slanted_x, slanted_y in *.
  assert (0 <= IZR r) by (apply IZR_le; lia). assert (0 <= IZR c) by (apply IZR_le; lia). rewrite Rmax_right in A, B by lra. apply Rabs_le_inv in A, B.
  assert (X : (9 + r + 4 * c <= i <= 10 + r + 4 * c)%Z).
  { split; apply Z.lt_succ_r, lt_IZR; rewrite succ_IZR, ?plus_IZR, ?mult_IZR; lra. }
  assert (Y : (9 + 4 * r <= j <= 10 + 4 * r)%Z).
  { split; apply Z.lt_succ_r, lt_IZR; rewrite succ_IZR, ?plus_IZR, ?mult_IZR; lra. }
  unfold pixel, slanted. rewrite image_of_pixel by lia. unfold slanted_pixel. cbv zeta.
  replace ((j - 8) / 4)%Z with r by (apply Z.div_unique with (j - 8 - 4 * r)%Z; lia). replace ((i - 8 - r) / 4)%Z with c by (apply Z.div_unique with (i - 8 - r - 4 * c)%Z; lia).
  destruct (Z.leb_spec 0 r); [|lia]. destruct (Z.ltb_spec r 21); [|lia]. destruct (Z.leb_spec 0 c); [|lia]. destruct (Z.ltb_spec c 21); [|lia]. reflexivity.
Qed.
Example C68_example : qr_decode (extract slanted slanted_loc) = Ok [72; 69; 76; 76; 79]%N.
Proof.
  apply (C68_text slanted slanted_loc (Vec (49 / 2) (43 / 2)) (Vec (161 / 2) (43 / 2)) (Vec (77 / 2) (155 / 2))) with (fx := slanted_x) (fy := slanted_y) (d := modules_1).
  - reflexivity.
  - unfold corners_at, point_at, slanted_loc. cbn [vx vy top_left top_right bottom_left px py].
    pose proof (average2 24 25 ltac:(lia) ltac:(lia)). pose proof (average2 21 22 ltac:(lia) ltac:(lia)). pose proof (average2 80 81 ltac:(lia) ltac:(lia)).
    pose proof (average2 38 39 ltac:(lia) ltac:(lia)). pose proof (average2 77 78 ltac:(lia) ltac:(lia)). auto.
  - split; cbn [vx vy]; apply Rabs_le; lra.
  - split; cbn [vx vy]; apply Rabs_le; lra.
  - split; cbn [vx vy]; apply Rabs_le; lra.
  - split; [exists (19 / 2), 1, 4; intros; unfold slanted_x; ring|]. split; [exists (19 / 2), 4, 0; intros; unfold slanted_y; ring|].
    unfold through_corners, slanted_x, slanted_y. cbn [vx vy]. repeat split; lra.
  - exact slanted_clear.
  - exact hello_text.
Qed.

(** *** C69: symbols drawn at any angle *)
(** a location whose three corners are the centres of the finder patterns, all off by the same distance of
    at most [o] pixels per coordinate *)
Definition located_at_angle (m c s ax ay : R) (n : Z) (o : R) (loc : qrloc) : Prop := exists ex ey,
  let seen_at p row column := point_at p (middle_x m c s ax (IZR row) (IZR column) + ex) (middle_y m c s ay (IZR row) (IZR column) + ey) in
  Rabs ex <= o /\ Rabs ey <= o /\ seen_at (top_left loc) 3%Z 3%Z /\ seen_at (top_right loc) 3%Z (n - 4)%Z /\ seen_at (bottom_left loc) (n - 4)%Z 3%Z.

Section Angled.
Context (g : gray) (m c s ax ay : R) (d : matrix) (loc : qrloc) (ex ey o : R).
Context (HW : wf_gray g) (WG : (gw g <= 2 ^ 22)%Z) (HG : (gh g <= 2 ^ 22)%Z).
Notation n := (side_of (version loc)).
Notation dark := (fun r c => d c r).
Notation mx := (middle_x m c s ax).
Notation my := (middle_y m c s ay).
Context (HD : drawn_at_angle (pixel g) m c s ax ay n dark).
Context (HX : Rabs ex <= o) (HY : Rabs ey <= o).
Context (TL : point_at (top_left loc) (mx 3 3 + ex) (my 3 3 + ey)).
Context (TR : point_at (top_right loc) (mx 3 (IZR (n - 4)) + ex) (my 3 (IZR (n - 4)) + ey)).
Context (BL : point_at (bottom_left loc) (mx (IZR (n - 4)) 3 + ex) (my (IZR (n - 4)) 3 + ey)).

Lemma o_pos : 0 <= o.
Proof. pose proof (Rabs_pos ex). lra. Qed.
Lemma off_by e x : Rabs e <= o -> Rabs (x + e - x) <= o.
Proof. intros H. now replace (x + e - x) with e by ring. Qed.

Lemma angled_1 : version loc = 1%Z -> 3 / 2 + 3 * o <= m -> extract g loc = Ok (deliver 1 d).
Proof.
  intros HV M. pose proof o_pos as O. assert (N : n = 21%Z) by (rewrite HV; reflexivity). rewrite N in *. change (21 - 4)%Z with 17%Z in *.
  assert (SQ : (o + 33 / 64) * (o + 33 / 64) + (o + 33 / 64) * (o + 33 / 64) < m / 2 * (m / 2)) by nra.
  assert (K : forall row column, (0 <= row < 21)%Z -> (0 <= column < 21)%Z ->
     moderate (Vec (mx (IZR row) (IZR column) + ex) (my (IZR row) (IZR column) + ey)) /\
     clearly (pixel g) (mx (IZR row) (IZR column) + ex) (my (IZR row) (IZR column) + ey) (colour (d column row))).
  { intros row column Hr Hc. destruct (near_pixels g 21 dark m c s ax ay HD row column _ _ o o Hr Hc (off_by ex _ HX) (off_by ey _ HY) O O SQ) as (A & B & C).
    split; [|exact C]. apply IZR_le in WG, HG. change (IZR (2 ^ 22)) with 4194304 in *. split; cbn [vx vy]; apply Rabs_le; lra. }
  pose proof (proj1 (K 3 3 ltac:(lia) ltac:(lia))%Z) as K1. pose proof (proj1 (K 3 17 ltac:(lia) ltac:(lia))%Z) as K2. pose proof (proj1 (K 17 3 ltac:(lia) ltac:(lia))%Z) as K3.
  assert (CO : corners_at loc (Vec (mx 3 3 + ex) (my 3 3 + ey)) (Vec (mx 3 17 + ex) (my 3 17 + ey)) (Vec (mx 17 3 + ex) (my 17 3 + ey))) by exact (conj TL (conj TR BL)).
  apply (C68_exact g loc _ _ _ HV CO K1 K2 K3 (fun r c => mx r c + ex) (fun r c => my r c + ey)).
  - cbn [vx vy]. unfold middle_x, middle_y. split; [|split; [|split]].
    + exists (ax + ex), (- m * s), (m * c). intros. ring.
    + exists (ay + ey), (m * c), (m * s). intros. ring.
    + unfold through_corners. cbn [vx vy]. split; [|split]; ring.
    + unfold through_corners. cbn [vx vy]. split; [|split]; ring.
  - intros row column Hr Hc. rewrite !INR_IZR_INZ. apply K; lia.
Qed.

Section Above.
Context (HV : (2 <= version loc <= 40)%Z) (HA : bottom_right_alignment n dark) (M : 11 + 10 * o <= m).

Lemma range_n : (25 <= n <= 177)%Z.
Proof. unfold side_of. lia. Qed.

Lemma angle_positive row column x y : (0 <= row < n)%Z -> (0 <= column < n)%Z -> Rabs (x - mx (IZR row) (IZR column)) <= 2 + o -> Rabs (y - my (IZR row) (IZR column)) <= 2 + o ->
  / 64 <= x <= IZR (gw g) /\ / 64 <= y <= IZR (gh g).
Proof.
  intros Hr Hc X Y. pose proof o_pos. assert (SQ : (2 + o + 65 / 64) * (2 + o + 65 / 64) + (2 + o + 65 / 64) * (2 + o + 65 / 64) < m / 2 * (m / 2)) by nra.
  exact (near_positive g n dark m c s ax ay HD row column x y _ _ Hr Hc X Y SQ).
Qed.
Lemma corner_in row column : (0 <= row < n)%Z -> (0 <= column < n)%Z -> 0 <= mx (IZR row) (IZR column) + ex <= M22 /\ 0 <= my (IZR row) (IZR column) + ey <= M22.
Proof.
  intros Hr Hc. destruct (angle_positive row column (mx (IZR row) (IZR column) + ex) (my (IZR row) (IZR column) + ey) Hr Hc) as [A B].
  - eapply Rle_trans; [now apply off_by|lra].
  - eapply Rle_trans; [now apply off_by|lra].
  - apply IZR_le in WG, HG. change (IZR (2 ^ 22)) with 4194304 in *. unfold M22. lra.
Qed.

Lemma step_x : DX n (mx 3 3 + ex) (mx 3 (IZR (n - 4)) + ex) = m * c /\ DY n (mx 3 3 + ex) (mx (IZR (n - 4)) 3 + ex) = - (m * s).
Proof. pose proof range_n as HN. assert (25 <= IZR n) by (apply IZR_le; lia). unfold DX, DY, middle_x. rewrite !minus_IZR. split; field; lra. Qed.
Lemma step_y : DX n (my 3 3 + ey) (my 3 (IZR (n - 4)) + ey) = m * s /\ DY n (my 3 3 + ey) (my (IZR (n - 4)) 3 + ey) = m * c.
Proof. pose proof range_n as HN. assert (25 <= IZR n) by (apply IZR_le; lia). unfold DX, DY, middle_y. rewrite !minus_IZR. split; field; lra. Qed.
Notation cx := (mx (IZR (n - 7)) (IZR (n - 7))).
Notation cy := (my (IZR (n - 7)) (IZR (n - 7))).
Lemma expected_angle : expected n (mx 3 3 + ex) (mx 3 (IZR (n - 4)) + ex) (mx (IZR (n - 4)) 3 + ex) = cx + ex /\
  expected n (my 3 3 + ey) (my 3 (IZR (n - 4)) + ey) (my (IZR (n - 4)) 3 + ey) = cy + ey.
Proof.
  unfold expected. destruct step_x as [-> ->]. destruct step_y as [-> ->]. unfold middle_x, middle_y. rewrite !minus_IZR. split; ring.
Qed.

Lemma pattern_angle : pattern_at g n (mx 3 3 + ex) (my 3 3 + ey) (mx 3 (IZR (n - 4)) + ex) (my 3 (IZR (n - 4)) + ey) (mx (IZR (n - 4)) 3 + ex) (my (IZR (n - 4)) 3 + ey) 0 0 0.
Proof.
  pose proof range_n as HN. pose proof o_pos as O. intros k i Hk Hi.
  assert (PX : probe_x n (mx 3 3 + ex) (mx 3 (IZR (n - 4)) + ex) (mx (IZR (n - 4)) 3 + ex) 0 0 0 i k = mx (IZR (n - 7 + k)) (IZR (n - 7 + i)) + ex).
  { unfold probe_x, probe, tried, scaled. rewrite (proj1 expected_angle). destruct step_x as [-> ->]. unfold middle_x. rewrite !plus_IZR. field. }
  assert (PY : probe_y n (my 3 3 + ey) (my 3 (IZR (n - 4)) + ey) (my (IZR (n - 4)) 3 + ey) 0 0 0 i k = my (IZR (n - 7 + k)) (IZR (n - 7 + i)) + ey).
  { unfold probe_y, probe, tried, scaled. rewrite (proj2 expected_angle). destruct step_y as [-> ->]. unfold middle_y. rewrite !plus_IZR. field. }
  rewrite PX, PY. assert (Hr : (0 <= n - 7 + k < n)%Z) by lia. assert (Hc : (0 <= n - 7 + i < n)%Z) by lia.
  destruct (angle_positive (n - 7 + k) (n - 7 + i) (mx (IZR (n - 7 + k)) (IZR (n - 7 + i)) + ex) (my (IZR (n - 7 + k)) (IZR (n - 7 + i)) + ey) Hr Hc) as [A B];
    [eapply Rle_trans; [now apply off_by|lra]|eapply Rle_trans; [now apply off_by|lra]|].
  assert (SQ : (o + 33 / 64) * (o + 33 / 64) + (o + 33 / 64) * (o + 33 / 64) < m / 2 * (m / 2)) by nra.
  destruct (near_pixels g n dark m c s ax ay HD (n - 7 + k) (n - 7 + i) _ _ o o Hr Hc (off_by ex _ HX) (off_by ey _ HY) O O SQ) as (_ & _ & C).
  split; [lra|]. split; [lra|]. rewrite (HA k i Hk Hi) in C. exact C.
Qed.

(** the centre of the alignment pattern that is used is up to [a] off, so the point read for a module up to *)
Lemma blend k e al a : - (28 / 100) <= k <= 196 / 100 -> Rabs e <= o -> Rabs al <= a + o -> 0 <= a -> Rabs (e + k * (al - e)) <= 196 / 100 * a + 324 / 100 * o.
Proof.
  intros Hk He Hal Ha. pose proof o_pos as O. replace (e + k * (al - e)) with ((1 - k) * e + k * al) by ring.
  eapply Rle_trans; [apply Rabs_triang|]. rewrite !Rabs_mult. assert (Rabs (1 - k) <= 128 / 100) by (apply Rabs_le; lra). assert (Rabs k <= 196 / 100) by (apply Rabs_le; lra).
  apply Rle_trans with (128 / 100 * o + 196 / 100 * (a + o)); [|lra]. apply Rplus_le_compat; apply Rmult_le_compat; auto using Rabs_pos.
Qed.
Lemma weight row column : (0 <= row < n)%Z -> (0 <= column < n)%Z ->
  - (28 / 100) <= (IZR row - 3) * (IZR column - 3) / (IZR (n - 10) * IZR (n - 10)) <= 196 / 100.
Proof.
  intros Hr Hc. pose proof range_n as HN. assert (N : 15 <= IZR (n - 10)) by (apply IZR_le; lia). set (w := IZR (n - 10)) in *.
  assert (K : forall z, (0 <= z < n)%Z -> - (2 / 10) <= (IZR z - 3) / w <= 14 / 10).
  { intros z Hz. assert (E : IZR z - 3 <= w + 6) by (unfold w; rewrite minus_IZR; assert (IZR z <= IZR n - 1) by (rewrite <- minus_IZR; apply IZR_le; lia); lra).
    assert (0 <= IZR z) by (apply IZR_le; lia). split; [apply Rmult_le_reg_r with w|apply Rmult_le_reg_r with w]; try lra;
      replace ((IZR z - 3) / w * w) with (IZR z - 3) by (field; lra); lra. }
  pose proof (K row Hr) as K1. pose proof (K column Hc) as K2. replace ((IZR row - 3) * (IZR column - 3) / (w * w)) with ((IZR row - 3) / w * ((IZR column - 3) / w)) by (field; lra).
  set (p := (IZR row - 3) / w) in *. set (q := (IZR column - 3) / w) in *. clearbody p q. clear - K1 K2. split; nra.
Qed.

Lemma angled_2 : extract g loc = Ok (deliver (version loc) d).
Proof.
  pose proof range_n as HN. pose proof o_pos as O. destruct TL as [F1 F2], TR as [F3 F4], BL as [F5 F6].
  destruct (corner_in 3 3 ltac:(lia) ltac:(lia)) as [H1 H2]. destruct (corner_in 3 (n - 4) ltac:(lia) ltac:(lia)) as [H3 H4]. destruct (corner_in (n - 4) 3 ltac:(lia) ltac:(lia)) as [H5 H6].
  set (est := est2 n loc). pose proof (at_expected n HN loc _ _ _ _ _ _ F1 F2 F3 F4 F5 F6 H1 H2 H3 H4 H5 H6) as AT.
  pose proof (accepted_complete g HW WG HG n HN loc _ _ _ _ _ _ F1 F2 F3 F4 F5 F6 H1 H2 H3 H4 H5 H6 0 0 0 est ltac:(lia) ltac:(lia) ltac:(lia) AT pattern_angle) as IA.
  assert (EF : find_alignment g (dX2 n loc) (dY2 n loc) (search_points est (dX2 n loc) (dY2 n loc)) = Ok (Some est)).
  { change (search_points est (dX2 n loc) (dY2 n loc)) with ((scale_of 0, est) :: tl (search_points est (dX2 n loc) (dY2 n loc))). cbn [find_alignment]. rewrite IA. reflexivity. }
  destruct (est2_apx n HN loc _ _ _ _ _ _ F1 F2 F3 F4 F5 F6 H1 H2 H3 H4 H5 H6) as [E1 E2]. fold est in E1, E2. destruct expected_angle as [X1 X2]. rewrite X1 in E1. rewrite X2 in E2.
  assert (U : u24 = / 16777216 /\ slack = / 64) by (split; reflexivity).
  assert (C0 : (0 <= n - 7 < n)%Z) by lia. destruct (corner_in (n - 7) (n - 7) C0 C0) as [P1 P2].
  destruct (round_holds (px est) (cx + ex)) as [R1 R2]; [eapply apx_weaken; [exact E1|lra]|unfold M22 in *; apply Rabs_le; lra|].
  destruct (round_holds (py est) (cy + ey)) as [R3 R4]; [eapply apx_weaken; [exact E2|lra]|unfold M22 in *; apply Rabs_le; lra|].
  set (x := round_u32 (px est)) in *. set (y := round_u32 (py est)) in *. rewrite Rmax_right in R2 by lra. rewrite Rmax_right in R4 by lra.
  assert (NX : Rabs (IZR x - cx) <= 33 / 64 + o) by (apply Rabs_le_inv in R2; pose proof (Rabs_le_inv _ _ HX); apply Rabs_le; lra).
  assert (NY : Rabs (IZR y - cy) <= 33 / 64 + o) by (apply Rabs_le_inv in R4; pose proof (Rabs_le_inv _ _ HY); apply Rabs_le; lra).
  destruct (centre_dark g n dark m c s ax ay HD HN HA x y) as (RX & RY & _).
  { apply (close_in_sq g n dark m c s ax ay HD _ _ _ _ _ NX NY); [lra|]. nra. }
  assert (W2 : (2 <= gw g)%Z).
  { destruct (angle_positive (n - 7) (n - 7) (cx + 2) cy C0 C0) as [[_ L1] _]; [apply Rabs_le; lra|apply Rabs_le; lra|].
    destruct (angle_positive (n - 7) (n - 7) (cx - 2) cy C0 C0) as [[L2 _] _]; [apply Rabs_le; lra|apply Rabs_le; lra|]. apply le_IZR. lra. }
  destruct (centre_total g HW WG est RX RY W2) as (al & EA).
  destruct (centre_sound g WG HG n HN _ _ _ _ _ _ H1 H2 H3 H4 H5 H6 est al RX RY EA) as (l & r & x' & t & u & CA & G1 & G2 & M1 & M2). fold x y in CA.
  destruct (centre_near g n dark m c s ax ay HD HN HA ltac:(lra) x y l r x' t u o O ltac:(lra) NX NY CA) as [N1 N2].
  change (deliver (version loc) d) with (mkQRData (rows (fun r c => colour (d (Z.of_nat c) (Z.of_nat r))) (Z.to_nat n)) (version loc) n).
  apply (extract_complete g n HN loc _ _ _ _ _ _ F1 F2 F3 F4 F5 F6 H1 H2 H3 H4 H5 H6 ltac:(unfold side_of; lia) est al _ _ _ EF EA G1 G2 M1 M2).
  intros row column Hr Hc. unfold grid_x2, grid_y2, plane, bend. rewrite X1, X2. destruct step_x as [-> ->]. destruct step_y as [-> ->]. rewrite !INR_IZR_INZ.
  set (R0 := Z.of_nat row). set (C1 := Z.of_nat column). assert (HR : (0 <= R0 < n)%Z) by lia. assert (HC : (0 <= C1 < n)%Z) by lia.
  pose proof (weight R0 C1 HR HC) as W. assert (N10 : 15 <= IZR (n - 10)) by (apply IZR_le; lia). set (k := (IZR R0 - 3) * (IZR C1 - 3) / (IZR (n - 10) * IZR (n - 10))) in *.
  pose proof (blend k ex _ (65 / 64) W HX N1 ltac:(lra)) as B1. pose proof (blend k ey _ (129 / 64) W HY N2 ltac:(lra)) as B2.
  refine (proj2 (proj2 (near_pixels g n dark m c s ax ay HD R0 C1 _ _ (196 / 100 * (65 / 64) + 324 / 100 * o) (196 / 100 * (129 / 64) + 324 / 100 * o) HR HC _ _ ltac:(lra) ltac:(lra) ltac:(nra)))).
  - replace (_ - mx (IZR R0) (IZR C1)) with (ex + k * (IZR (l + r) / 2 - cx - ex)); [exact B1|]. unfold k, middle_x. field. lra.
  - replace (_ - my (IZR R0) (IZR C1)) with (ey + k * (IZR (t + u) / 2 - cy - ey)); [exact B2|]. unfold k, middle_y. field. lra.
Qed.
End Above.
End Angled.

Theorem C69_sampled g m c s ax ay v d loc o : wf_gray g -> (gw g <= 2 ^ 22)%Z -> (gh g <= 2 ^ 22)%Z -> (1 <= v <= 40)%Z -> version loc = v ->
  drawn_at_angle (pixel g) m c s ax ay (side_of v) (fun r c => d c r) -> located_at_angle m c s ax ay (side_of v) o loc ->
  (v = 1%Z /\ 3 / 2 + 3 * o <= m \/ bottom_right_alignment (side_of v) (fun r c => d c r) /\ 11 + 10 * o <= m) ->
  extract g loc = Ok (deliver v d).
Proof.
  intros HW WG HG Hv <- HD (ex & ey & HX & HY & A & B & C) HM. destruct (Z.eq_dec (version loc) 1) as [E|NE].
  - replace (deliver (version loc) d) with (deliver 1 d) by now rewrite E. apply (angled_1 g m c s ax ay d loc ex ey o); auto. pose proof (Rabs_pos ex). destruct HM as [[_ HM]|[_ HM]]; lra.
  - destruct HM as [[E _]|[HA HM]]; [now destruct NE|]. apply (angled_2 g m c s ax ay d loc ex ey o); auto. lia.
Qed.

Theorem C69_text g m c s ax ay v d loc o text : wf_gray g -> (gw g <= 2 ^ 22)%Z -> (gh g <= 2 ^ 22)%Z -> (1 <= v <= 40)%Z -> version loc = v ->
  drawn_at_angle (pixel g) m c s ax ay (side_of v) (fun r c => d c r) -> located_at_angle m c s ax ay (side_of v) o loc ->
  (v = 1%Z /\ 3 / 2 + 3 * o <= m \/ bottom_right_alignment (side_of v) (fun r c => d c r) /\ 11 + 10 * o <= m) ->
  holds_text v d text -> qr_decode (extract g loc) = Ok text.
Proof.
  intros HW WG HG Hv HV HD HL HM (l & mask & segs & texts & base & Hm & HS & HT & HF & HE & HC & ->).
  rewrite (C69_sampled g m c s ax ay v d loc o) by assumption. eapply C30_roundtrip; eauto. apply deliver_shows. lia.
Qed.

(** *** "HELLO" in version 2, turned by an angle with cosine 4/5 and sine 3/5 *)
Definition tilted_pixel (x y : Z) : N :=
  let c := ((8 * (x - 240) + 6 * (y - 20) + 75) / 150)%Z in let r := ((8 * (y - 20) - 6 * (x - 240) + 75) / 150)%Z in
  if ((0 <=? r) && (r <? 25) && (0 <=? c) && (c <? 25))%Z then colour (wide_modules c r) else 255%N.
Definition tilted : gray := image_of 560 560 tilted_pixel.
Definition tilted_loc : qrloc := mkQRLoc (Pt (of_Z 249) (of_Z 83)) (Pt (of_Z 465) (of_Z 245)) (Pt (of_Z 87) (of_Z 299)) (of_Z 15) 2.
Lemma tilted_drawn : drawn_at_angle (pixel tilted) 15 (4 / 5) (3 / 5) 240 20 25 (fun r c => wide_modules c r).
Proof.
  split; [lra|]. split; [lra|]. intros row column i j Hr Hc [[A1 A2] [B1 B2]].
  assert (X : (150 * column <= 8 * (i - 240) + 6 * (j - 20) + 75 < 150 * column + 150)%Z).
  { split; [apply le_IZR|apply lt_IZR]; rewrite ?plus_IZR, ?mult_IZR, ?minus_IZR; lra. }
  assert (Y : (150 * row <= 8 * (j - 20) - 6 * (i - 240) + 75 < 150 * row + 150)%Z).
  { split; [apply le_IZR|apply lt_IZR]; rewrite ?plus_IZR, ?minus_IZR, ?plus_IZR, ?mult_IZR, ?minus_IZR; lra. }
  clear A1 A2 B1 B2. assert (0 <= i < 560)%Z by lia. assert (0 <= j < 560)%Z by lia. split; [lia|]. split; [lia|].
  unfold pixel, tilted. rewrite image_of_pixel by lia. unfold tilted_pixel. cbv zeta.
  replace ((8 * (i - 240) + 6 * (j - 20) + 75) / 150)%Z with column by (apply Z.div_unique with (8 * (i - 240) + 6 * (j - 20) + 75 - 150 * column)%Z; lia).
  replace ((8 * (j - 20) - 6 * (i - 240) + 75) / 150)%Z with row by (apply Z.div_unique with (8 * (j - 20) - 6 * (i - 240) + 75 - 150 * row)%Z; lia).
  destruct (Z.leb_spec 0 row); [|lia]. destruct (Z.ltb_spec row 25); [|lia]. destruct (Z.leb_spec 0 column); [|lia]. destruct (Z.ltb_spec column 25); [|lia]. reflexivity.
Qed.
Lemma tilted_alignment : bottom_right_alignment 25 (fun r c => wide_modules c r).
Proof.
  intros i j Hi Hj. assert (I : (i = -2 \/ i = -1 \/ i = 0 \/ i = 1 \/ i = 2)%Z) by lia. assert (J : (j = -2 \/ j = -1 \/ j = 0 \/ j = 1 \/ j = 2)%Z) by lia.
  destruct I as [->|[->|[->|[->| ->]]]], J as [->|[->|[->|[->| ->]]]]; reflexivity.
Qed.
Example C69_example : qr_decode (extract tilted tilted_loc) = Ok [72; 69; 76; 76; 79]%N.
Proof.
  apply (C69_text tilted 15 (4 / 5) (3 / 5) 240 20 2 wide_modules tilted_loc 0).
  - apply image_of_wf; [unfold u32_max; lia..|]. intros x y. unfold tilted_pixel, colour. cbv zeta. destruct (_ && _); [destruct (wide_modules _ _)|]; lia.
  - cbn [tilted image_of gw]. lia.
  - cbn [tilted image_of gh]. lia.
  - lia.
  - reflexivity.
  - exact tilted_drawn.
  - exists 0, 0. rewrite Rabs_R0. change (side_of 2) with 25%Z. change (25 - 4)%Z with 21%Z. unfold point_at, middle_x, middle_y, tilted_loc. cbn [top_left top_right bottom_left px py].
    assert (K : forall z x, (Z.abs z <= 2 ^ 53)%Z -> IZR z = x -> fin (of_Z z) x) by (intros z x Hz <-; now apply fin_of_Z).
    repeat split; try lra; apply K; (lia || lra).
  - right. split; [exact tilted_alignment|lra].
  - exact modules_wide_text.
Qed.
