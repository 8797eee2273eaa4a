(** Upright symbols whose modules are not a whole number of pixels (C82, C83, C84). *)
From Coq Require Import NArith ZArith Reals List Lia Lra Bool Psatz.
From Verif.Model Require Import Prepare Detect Extract Pipeline.
From Flocq Require Import Core.
From Verif.Spec Require Import Window Finder Plane Symbol Layout Drawing Angle Slant.
From Verif.Proofs Require Import BaseP PrepareP FloatP ApproxP DetectP GeometryP CompleteP ExtractP AlignP RefineP RefineF ScanP SlantP SlantF StraightP StraightScan.
From Verif.Props Require Import DetectProps ExtractProps DecoderProps FinderProps WholeProps SlantProps TiltProps InexactProps.
Import ListNotations.
Local Open Scope R_scope.

(** the candidate is at most one pixel right of the centre, between 2.17 pixels above and 1.51 below it, and the
    module size is right to a fifth of a pixel (the thousandths are for the rounding of 64-bit floats) *)
Definition found_upright (m ax ay : R) (f : finder_pos) : Prop := exists x y v,
  point_of (fp_location f) (Vec x y) /\ value_of (fp_module_size f) v /\
  - 0.001 <= x - ax <= 1.001 /\ - 2.17 <= y - ay <= 1.51 /\ Rabs (v - m) <= 1 / 5.
(** a candidate that is close enough to the upper side of the inner square to make the code pass over the pattern *)
Definition close_above (m ax ay : R) (f : finder_pos) : Prop := exists p,
  point_of (fp_location f) p /\ norm (minus (Vec ax (ay - 3 / 2 * m)) p) < 7 * m + 13 / 4.

(** what an upright pattern is, in other words *)
Lemma upright_pixels pixel m ax ay : 0 < m -> finder_at_angle pixel m 1 0 ax ay <->
  forall row column i j, (0 <= row < 9)%Z -> (0 <= column < 9)%Z -> m * (IZR column - 9 / 2) <= IZR i - ax < m * (IZR column - 7 / 2) ->
    m * (IZR row - 9 / 2) <= IZR j - ay < m * (IZR row - 7 / 2) -> (0 <= i)%Z /\ (0 <= j)%Z /\ pixel i j = Some (if ringed_finder row column then 0%N else 255%N).
Proof.
  intros M. unfold finder_at_angle, drawn_at_angle, in_module, middle_x, middle_y. split.
  - intros (_ & _ & H) row column i j Hr Hc X Y. apply (H row column i j Hr Hc). lra.
  - intros H. split; [exact M|]. split; [lra|]. intros row column i j Hr Hc [X Y]. apply (H row column i j Hr Hc); lra.
Qed.

(** *** C82 *)
(** [y] is the uppermost row of the inner square and [e] a column right of the first dark column of the pattern *)
Theorem C82_found g m ax ay y e cs : wf_gray g -> finder_at_angle (pixel g) m 1 0 ax ay -> 7 <= m -> (gw g <= 2 ^ 26)%Z -> (gh g <= 2 ^ 26)%Z ->
  ay - 3 / 2 * m <= IZR y <= ay - 3 / 2 * m + 1 -> ax - 5 / 2 * m + 1 <= IZR e -> steady (fun x => pix g x y) e -> find_candidates g = Ok cs ->
  exists f, In f cs /\ (found_upright m ax ay f \/ close_above m ax ay f).
Proof.
  intros WF HD SIZE WX WY HY HE HS E.
  destruct (straight_scanned g m ax ay WF HD WX WY SIZE y e cs HY HE HS E) as (f & Hf & x' & y' & FX & FY & [H|H]); exists f; (split; [exact Hf|]).
  - left. destruct H as (H1 & H2 & v' & FV & H3). exists x', y', v'. split; [split; now apply fin_value|]. split; [now apply fin_value|]. split; [lra|]. split; [exact H2|lra].
  - right. destruct H as (p & x0 & ms & v & FX0 & FY0 & FV & (B1 & B3 & B4 & B5 & B6) & N).
    exists (Vec x' y'). split; [split; now apply fin_value|].
    destruct (find_candidates_ok g WF) as (cs' & E' & HC). rewrite E in E'. injection E' as <-.
    unfold cands_ok in HC. rewrite Forall_forall in HC. destruct (HC f Hf) as (_ & x2 & y2 & X2 & Y2 & BX & BY).
    rewrite (fin_inj _ _ _ X2 FX) in BX. rewrite (fin_inj _ _ _ Y2 FY) in BY.
    assert (W1 : IZR (gw g - 1) <= 67108864) by (apply IZR_le; lia). assert (W2 : IZR (gh g - 1) <= 67108864) by (apply IZR_le; lia).
    destruct (dist_ok p (fp_location f) (Vec x0 (IZR y)) (Vec x' y')) as (l & F & L & L1 & _).
    { split; [exact FX0|exact FY0]. } { split; [exact FX|exact FY]. }
    { unfold box; cbn [vx vy]; lra. } { unfold box; cbn [vx vy]; lra. }
    destruct (mul_f (of_Z 7) ms 7 v (fin_of_Z 7 ltac:(lia)) FV) as (w & FW & EW); [unfold top; rabs; lra|]. unfold eps in EW.
    rewrite (flt_R _ _ _ _ F FW) in N. destruct (Rlt_bool_spec l w) as [A|A]; [|discriminate].
    pose proof (norm_triangle ax (ay - 3 / 2 * m) (Vec x' y') (Vec x0 (IZR y))) as T. cbn [vx vy] in T. set (n := norm (minus (Vec x0 (IZR y)) (Vec x' y'))) in *.
    assert (B0 : Rabs (ax - x0) <= 1.001) by (apply Rabs_le; lra). assert (B2 : Rabs (ay - 3 / 2 * m - IZR y) <= 1) by (apply Rabs_le; lra).
    assert (NB : n <= 7 * v + / 10).
    { destruct (Rlt_or_le n 1) as [C1|C1]; [|specialize (L1 C1); unfold u53 in L1; clear - L1 A EW B6; rabs; lra].
      clear - C1 B3 SIZE. rabs; lra. }
    clear - T B0 B2 B3 NB. rabs; lra.
Qed.
(** nothing else is close by: the pattern is found near its centre *)
Corollary C82_alone g m ax ay y e cs : wf_gray g -> finder_at_angle (pixel g) m 1 0 ax ay -> 7 <= m -> (gw g <= 2 ^ 26)%Z -> (gh g <= 2 ^ 26)%Z ->
  ay - 3 / 2 * m <= IZR y <= ay - 3 / 2 * m + 1 -> ax - 5 / 2 * m + 1 <= IZR e -> steady (fun x => pix g x y) e -> find_candidates g = Ok cs ->
  (forall f, In f cs -> close_above m ax ay f -> found_upright m ax ay f) -> exists f, In f cs /\ found_upright m ax ay f.
Proof. intros WF HD SIZE WX WY HY HE HS E HN. destruct (C82_found g m ax ay y e cs WF HD SIZE WX WY HY HE HS E) as (f & Hf & [H|H]); exists f; auto. Qed.

(** nothing dark to the left of the pattern in that row *)
Theorem C82_white g m ax ay y cs : wf_gray g -> finder_at_angle (pixel g) m 1 0 ax ay -> 7 <= m -> (gw g <= 2 ^ 26)%Z -> (gh g <= 2 ^ 26)%Z ->
  ay - 3 / 2 * m <= IZR y <= ay - 3 / 2 * m + 1 -> (forall x, (0 <= x)%Z -> IZR x < ax - 4 * m -> pixel g x y = Some 255%N) -> find_candidates g = Ok cs ->
  exists f, In f cs /\ (found_upright m ax ay f \/ close_above m ax ay f).
Proof.
  intros WF HD SIZE WX WY HY HL E.
  destruct (row_pierced g m ax ay WF HD SIZE y ltac:(lra)) as (a4 & a3 & a2 & a1 & b1 & b2 & b3 & CR).
  destruct CR as [A4 A3 A2 A1 B1 B2 B3 S4 S3 S2 S1 T1 T2 T3 IN]. cbn [fst snd] in IN.
  assert (L : (a3 < a2 < a1)%Z /\ (a1 <= b3)%Z /\ (a3 - 1 <= b3)%Z) by (repeat split; [apply lt_IZR|apply lt_IZR|apply le_IZR|apply le_IZR; rewrite minus_IZR]; lra).
  pose proof (IN (a3 - 1)%Z ltac:(lia)) as I1. pose proof (IN b3 ltac:(lia)) as I2.
  assert (PX : forall x v, (0 <= x < a1)%Z -> get_pixel g x y = Ok v -> pix g x y = v).
  { intros x v Hx G. rewrite get_pixel_pix in G by (auto; lia). now injection G. }
  assert (W3 : forall x, (0 <= x < a3)%Z -> pix g x y = 255%N).
  { intros x Hx. apply PX; [lia|]. destruct (Z_lt_le_dec x a4) as [G|G].
    - apply pixel_get, HL; [lia|]. assert (IZR x + 1 <= IZR a4) by (rewrite <- plus_IZR; apply IZR_le; lia). lra.
    - apply (S4 x). lia. }
  assert (K3 : forall x, (a3 <= x < a2)%Z -> pix g x y = 0%N) by (intros x Hx; apply PX; [lia|]; now apply (S3 x)).
  assert (W2 : forall x, (a2 <= x < a1)%Z -> pix g x y = 255%N) by (intros x Hx; apply PX; [lia|]; now apply (S2 x)).
  apply (C82_found g m ax ay y (a1 - 1) cs WF HD SIZE WX WY HY); [rewrite minus_IZR; lra| |exact E].
  intros a b d' HA HB CA NA NB CB ND.
  assert (KA : forall x, (0 < x <= a1 - 1)%Z -> pix g (x - 1) y <> pix g x y -> x = a3 \/ x = a2).
  { intros x Hx N. destruct (Z.eq_dec x a3); [auto|]. destruct (Z.eq_dec x a2); [auto|]. exfalso. apply N.
    destruct (Z_lt_le_dec x a3); [rewrite !W3 by lia; reflexivity|]. destruct (Z_lt_le_dec x a2); [rewrite !K3 by lia; reflexivity|]. rewrite !W2 by lia. reflexivity. }
  exfalso. apply KA in NA; [|lia].
  assert (XB : b = a3 \/ b = a2) by (apply KA; [lia|]; rewrite (CA (b - 1)%Z) by lia; congruence).
  assert (XD : d' = a3 \/ d' = a2) by (apply KA; [lia|]; rewrite (CB (d' - 1)%Z) by lia; congruence).
  lia.
Qed.

(** *** an example: seven and a half pixels per module *)
Definition halves_pixel (x y : Z) : N :=
  let column := ((2 * x) / 15)%Z in let row := ((2 * y) / 15)%Z in
  if ((row <? 9) && (column <? 9) && ringed_finder row column)%Z then 0%N else 255%N.
Definition halves : gray := image_of 80 80 halves_pixel.
Lemma halves_wf : wf_gray halves.
Proof. apply image_of_wf; [unfold u32_max; lia..|]. intros x y. unfold halves_pixel. cbv zeta. now destruct (_ && _). Qed.
Lemma halves_drawn : finder_at_angle (pixel halves) (15 / 2) 1 0 (135 / 4) (135 / 4).
Proof.
  apply upright_pixels; [lra|]. intros row column i j Hr Hc [X1 X2] [Y1 Y2].
  assert (X : (15 * column <= 2 * i < 15 * column + 15)%Z) by (split; [apply le_IZR|apply lt_IZR]; rewrite ?plus_IZR, ?mult_IZR; lra).
  assert (Y : (15 * row <= 2 * j < 15 * row + 15)%Z) by (split; [apply le_IZR|apply lt_IZR]; rewrite ?plus_IZR, ?mult_IZR; lra).
  split; [lia|]. split; [lia|]. unfold pixel, halves. rewrite image_of_pixel by lia. unfold halves_pixel. cbv zeta.
  replace (2 * i / 15)%Z with column by (apply Z.div_unique with (2 * i - 15 * column)%Z; lia).
  replace (2 * j / 15)%Z with row by (apply Z.div_unique with (2 * j - 15 * row)%Z; lia).
  destruct (Z.ltb_spec row 9); [|lia]. destruct (Z.ltb_spec column 9); [|lia]. reflexivity.
Qed.
Example C82_example : exists cs f, find_candidates halves = Ok cs /\ In f cs /\ (found_upright (15 / 2) (135 / 4) (135 / 4) f \/ close_above (15 / 2) (135 / 4) (135 / 4) f).
Proof.
  destruct (find_candidates_ok halves halves_wf) as (cs & E & _). exists cs.
  destruct (C82_white halves (15 / 2) (135 / 4) (135 / 4) 23 cs) as (f & Hf & H); auto.
  - exact halves_wf.
  - exact halves_drawn.
  - lra.
  - cbn [halves image_of gw]. lia.
  - cbn [halves image_of gh]. lia.
  - change (IZR 23) with 23. lra.
  - intros x X0 XL. assert (XX : (x < 4)%Z) by (apply lt_IZR; lra).
    unfold pixel, halves. rewrite image_of_pixel by lia. unfold halves_pixel, ringed_finder. cbv zeta.
    replace (2 * x / 15)%Z with 0%Z by (apply Z.div_unique with (2 * x)%Z; lia). rewrite !andb_false_r. reflexivity.
  - exists f. auto.
Qed.

(** *** C83: the version of an upright symbol of any size *)
(** a candidate for the finder pattern whose centre is the module (row, column), as C82 finds it *)
Definition at_corner (m ax ay : R) (row column : Z) (f : finder_pos) : Prop := exists x y v, candidate_at f (Vec x y) v /\ in_range (Vec x y) /\
  - 0.001 <= x - (ax + m * IZR column) <= 1.001 /\ - 2.17 <= y - (ay + m * IZR row) <= 1.51 /\ Rabs (v - m) <= 1 / 5.
Definition C83_statement : Prop := forall m ax ay v f1 f2 f3 locs, 7 <= m <= 1048576 -> (1 <= v <= 40)%Z ->
  at_corner m ax ay 3 3 f1 -> at_corner m ax ay 3 (side_of v - 4) f2 -> at_corner m ax ay (side_of v - 4) 3 f3 ->
  find_locations [f1; f2; f3] = Ok locs -> exists loc, In loc locs /\ version loc = v.

(** The modules of a symbol of version 40 have 7.125 pixels; measured are 49 pixels for the 49.875 of seven of them, which
    happens when the first one starts just after the middle of a pixel.  The 170 modules between the centres seem to be 173. *)
Theorem C83_refuted : ~ C83_statement.
Proof.
  intros H.
  assert (K : forall row column x y, (0 <= x <= 2000)%Z -> (0 <= y <= 2000)%Z -> 0 <= IZR x - (10 + 7.125 * IZR column) <= 1 -> 0 <= IZR y - (10 + 7.125 * IZR row) <= 1 ->
    at_corner 7.125 10 10 row column (FP (Pt (of_Z x) (of_Z y)) (of_Z 7) (of_Z 0))).
  { intros row column x y Hx Hy EX EY. exists (IZR x), (IZR y), (IZR 7). unfold candidate_at, in_range, point_at. cbn [fp_location fp_module_size px py vx vy].
    assert (0 <= IZR x <= 2000) by (split; apply IZR_le; lia). assert (0 <= IZR y <= 2000) by (split; apply IZR_le; lia).
    split; [split; [split; apply fin_of_Z; lia|apply fin_of_Z; lia]|]. split; [lra|]. split; [lra|]. split; [lra|]. apply Rabs_le. lra. }
  set (f1 := FP (Pt (of_Z 32) (of_Z 32)) (of_Z 7) (of_Z 0)). set (f2 := FP (Pt (of_Z 1243) (of_Z 32)) (of_Z 7) (of_Z 0)). set (f3 := FP (Pt (of_Z 32) (of_Z 1243)) (of_Z 7) (of_Z 0)).
  assert (E : exists loc, find_locations [f1; f2; f3] = Ok [loc] /\ version loc = 41%Z) by (eexists; split; vm_compute; reflexivity).
  destruct E as (loc0 & E & V). destruct (H 7.125 10 10 40%Z f1 f2 f3 [loc0]) as (loc & [<-|[]] & W).
  - lra.
  - lia.
  - apply K; try lia; lra.
  - change (side_of 40 - 4)%Z with 173%Z. apply K; try lia; lra.
  - change (side_of 40 - 4)%Z with 173%Z. apply K; try lia; lra.
  - exact E.
  - rewrite V in W. discriminate.
Qed.

(** What holds: the version is right if the modules are large enough for their number.  Missing from the full statement:
    smaller modules of symbols of higher versions (from version 10 for modules of 7 pixels, version 40 below 19.1 pixels). *)
Theorem C83_partial cs m ax ay v f1 f2 f3 locs : 7 <= m <= 67108864 -> (1 <= v <= 40)%Z -> IZR (4 * v + 10) / 5 + 4.1 <= 1.999 * m ->
  In f1 cs -> In f2 cs -> In f3 cs ->
  at_corner m ax ay 3 3 f1 -> at_corner m ax ay 3 (side_of v - 4) f2 -> at_corner m ax ay (side_of v - 4) 3 f3 -> find_locations cs = Ok locs ->
  exists loc, In loc locs /\ top_left loc = fp_location f1 /\ top_right loc = fp_location f2 /\ bottom_left loc = fp_location f3 /\ version loc = v.
Proof.
  intros HM HV ST I1 I2 I3 (x1 & y1 & m1 & C1 & R1 & X1 & Y1 & S1) (x2 & y2 & m2 & C2 & R2 & X2 & Y2 & S2) (x3 & y3 & m3 & C3 & R3 & X3 & Y3 & S3) E.
  destruct (C75_located cs locs f1 f2 f3 (Vec x1 y1) (Vec x2 y2) (Vec x3 y3) m1 m2 m3 v I1 I2 I3 C1 C2 C3 R1 R2 R3) as (loc & IL & K1 & K2 & K3 & K4 & _); [lia| |exact E|exists loc; auto].
  unfold symbol_like. assert (EN : IZR (side_of v - 4) = IZR (4 * v + 10) + 3) by (rewrite <- plus_IZR; f_equal; unfold side_of; lia).
  assert (NB : 14 <= IZR (4 * v + 10) <= 170) by (split; apply IZR_le; lia). rewrite EN in *. change (IZR 3) with 3 in *.
  set (N := IZR (4 * v + 10)) in *. clearbody N. clear EN C1 C2 C3 R1 R2 R3 HV E I1 I2 I3.
  apply Rabs_le_inv in S1, S2, S3. set (P := N * m). assert (P0 : 98 <= P) by (unfold P; replace 98 with (14 * 7) by ring; apply Rmult_le_compat; lra).
  pose (ex2 := x2 - x1 - P). pose (ey2 := y2 - y1). pose (ex3 := x3 - x1). pose (ey3 := y3 - y1 - P).
  assert (Q : - 1.002 <= ex2 <= 1.002 /\ - 3.68 <= ey2 <= 3.68 /\ - 1.002 <= ex3 <= 1.002 /\ - 3.68 <= ey3 <= 3.68) by (unfold ex2, ey2, ex3, ey3, P; lra).
  assert (E2 : minus (Vec x2 y2) (Vec x1 y1) = Vec (P + ex2) ey2) by (unfold minus, ex2, ey2; cbn [vx vy]; f_equal; ring).
  assert (E3 : minus (Vec x3 y3) (Vec x1 y1) = Vec ex3 (P + ey3)) by (unfold minus, ex3, ey3; cbn [vx vy]; f_equal; ring).
  rewrite E2, E3. clearbody ex2 ey2 ex3 ey3. clear E2 E3 X1 Y1 X2 Y2 X3 Y3. destruct Q as (Q1 & Q2 & Q3 & Q4).
  assert (S : forall z h, - h <= z <= h -> z * z <= h * h) by (clear; intros; nra). pose proof (S ex2 1.002 ltac:(lra)) as W1. pose proof (S ey2 3.68 ltac:(lra)) as W2. pose proof (S ex3 1.002 ltac:(lra)) as W3. pose proof (S ey3 3.68 ltac:(lra)) as W4.
  assert (PB : forall z h, - h <= z <= h -> - (P * h) <= P * z <= P * h) by (intros z h Hz; assert (0 <= P * (h - z)) by (apply Rmult_le_pos; lra); assert (0 <= P * (h + z)) by (apply Rmult_le_pos; lra); lra).
  pose proof (PB ex2 1.002 ltac:(lra)) as V1. pose proof (PB ey2 3.68 ltac:(lra)) as V2. pose proof (PB ex3 1.002 ltac:(lra)) as V3. pose proof (PB ey3 3.68 ltac:(lra)) as V4.
  assert (NA : P - 3.69 <= norm (Vec (P + ex2) ey2) <= P + 3.69).
  { pose proof (Rle_0_sqr ex2) as G1. pose proof (Rle_0_sqr ey2) as G2. unfold Rsqr in G1, G2. apply norm_between; [lra|lra|]. clear - P0 V1 W1 W2 G1 G2. lra. }
  assert (NC : P - 3.69 <= norm (Vec ex3 (P + ey3)) <= P + 3.69).
  { apply norm_between; [lra|lra|]. assert (W4' : 0 <= (ey3 + 3.68) * (2 * P + ey3 - 3.68)) by (apply Rmult_le_pos; lra). assert (W4'' : 0 <= (3.68 - ey3) * (2 * P + ey3 + 3.68)) by (apply Rmult_le_pos; lra).
    pose proof (Rle_0_sqr ex3) as G1. unfold Rsqr in G1. clear - P0 W3 W4' W4'' G1. lra. }
  pose proof (dot_cross (Vec (P + ex2) ey2) (Vec ex3 (P + ey3))) as DC.
  set (A := norm (Vec (P + ex2) ey2)) in *. set (B := norm (Vec ex3 (P + ey3))) in *. unfold dot, cross in *. cbn [vx vy] in *.
  assert (DB : - (5 * P) <= (P + ex2) * ex3 + ey2 * (P + ey3) <= 5 * P).
  { assert (T1 : - (1.002 * 1.002) <= ex2 * ex3 <= 1.002 * 1.002) by (clear - Q1 Q3; split; nra). assert (T2 : - (3.68 * 3.68) <= ey2 * ey3 <= 3.68 * 3.68) by (clear - Q2 Q4; split; nra). lra. }
  assert (XP : 0 < (P + ex2) * (P + ey3) - ey2 * ex3).
  { assert (T1 : - (3.68 * 1.002) <= ey2 * ex3 <= 3.68 * 1.002) by (clear - Q2 Q3; split; nra). assert (T2 : 90 * 90 <= (P + ex2) * (P + ey3)) by (apply Rmult_le_compat; lra). lra. }
  set (D := (P + ex2) * ex3 + ey2 * (P + ey3)) in *. set (X := (P + ex2) * (P + ey3) - ey2 * ex3) in *.
  assert (AB : (P - 3.69) * (P - 3.69) <= A * B) by (apply Rmult_le_compat; lra). clearbody D X A B. clear V1 V2 V3 V4 W1 W2 W3 W4 S PB Q1 Q2 Q3 Q4.
  split.
  { apply Rsqr_incr_0_var; [|lra]. unfold Rsqr. replace ((A * A) * (B * B)) with ((A * B) * (A * B)) in DC by ring.
    assert (ABP : 90 * P <= A * B) by (apply Rle_trans with (2 := AB); clear - P0; clearbody P; nra).
    assert (DD : D * D <= (5 * P) * (5 * P)) by (clear - DB P0; clearbody P; nra). assert (QQ : (90 * P) * (90 * P) <= (A * B) * (A * B)) by (apply Rmult_le_compat; lra).
    set (AB2 := (A * B) * (A * B)) in *. replace (0.9501 * (A * B) * (0.9501 * (A * B))) with (0.9501 * 0.9501 * AB2) by (unfold AB2; ring). clearbody AB2. clear - DC DD QQ P0. assert (0 < P * P) by (apply Rmult_lt_0_compat; lra). clearbody P. lra. }
  split; [lra|]. split; [lra|].
  assert (SZ : forall k, In k [m1; m2; m3] -> m - 1 / 5 <= k <= m + 1 / 5) by (intros k I; cbn in I; destruct I as [<-|[<-|[<-|[]]]]; lra).
  split.
  - intros k I. pose proof (SZ k I) as K. split; [lra|].
    assert (K1 : (N - 1.999) * k <= P - 3.69) by (apply Rle_trans with ((N - 1.999) * (m + 1 / 5)); [apply Rmult_le_compat_l; lra|]; unfold P; lra).
    assert (K2 : P + 3.69 <= (N + 1.999) * k) by (apply Rle_trans with ((N + 1.999) * (m - 1 / 5)); [|apply Rmult_le_compat_l; lra]; unfold P; lra).
    split; [apply (quotient_near A k (P - 3.69) (P + 3.69))|apply (quotient_near B k (P - 3.69) (P + 3.69))]; lra.
  - intros k k' I I'. pose proof (SZ k I). pose proof (SZ k' I'). lra.
Qed.
(** version 1 with modules of 7.125 pixels *)
Example C83_example : exists locs loc, find_locations [FP (Pt (of_Z 32) (of_Z 32)) (of_Z 7) (of_Z 0); FP (Pt (of_Z 132) (of_Z 32)) (of_Z 7) (of_Z 0); FP (Pt (of_Z 32) (of_Z 132)) (of_Z 7) (of_Z 0)] = Ok locs /\
  In loc locs /\ version loc = 1%Z.
Proof.
  set (cs := [_; _; _]). assert (E : exists locs, find_locations cs = Ok locs) by (eexists; vm_compute; reflexivity). destruct E as (locs & E). exists locs.
  assert (K : forall row column x y, (0 <= x <= 2000)%Z -> (0 <= y <= 2000)%Z -> 0 <= IZR x - (10 + 7.125 * IZR column) <= 1 -> 0 <= IZR y - (10 + 7.125 * IZR row) <= 1 ->
    at_corner 7.125 10 10 row column (FP (Pt (of_Z x) (of_Z y)) (of_Z 7) (of_Z 0))).
  { intros row column x y Hx Hy EX EY. exists (IZR x), (IZR y), (IZR 7). unfold candidate_at, in_range, point_at. cbn [fp_location fp_module_size px py vx vy].
    assert (0 <= IZR x <= 2000) by (split; apply IZR_le; lia). assert (0 <= IZR y <= 2000) by (split; apply IZR_le; lia).
    split; [split; [split; apply fin_of_Z; lia|apply fin_of_Z; lia]|]. split; [lra|]. split; [lra|]. split; [lra|]. apply Rabs_le. lra. }
  destruct (C83_partial cs 7.125 10 10 1 (FP (Pt (of_Z 32) (of_Z 32)) (of_Z 7) (of_Z 0)) (FP (Pt (of_Z 132) (of_Z 32)) (of_Z 7) (of_Z 0)) (FP (Pt (of_Z 32) (of_Z 132)) (of_Z 7) (of_Z 0)) locs)
    as (loc & IL & _ & _ & _ & V); auto.
  - lra.
  - lia.
  - change (IZR (4 * 1 + 10)) with 14. lra.
  - cbn. tauto.
  - cbn. tauto.
  - cbn. tauto.
  - apply K; try lia; lra.
  - change (side_of 1 - 4)%Z with 17%Z. apply K; try lia; lra.
  - change (side_of 1 - 4)%Z with 17%Z. apply K; try lia; lra.
  - exists loc. auto.
Qed.
