(** Symbols at any angle whose corners are known only approximately, and from candidates to texts: C77, C78. *)
From Coq Require Import NArith ZArith Reals List Lia Lra Bool Psatz.
From Verif.Model Require Import Prepare Detect Extract Pipeline.
From Flocq Require Import Core.
From Verif.Spec Require Import Bits Segments Symbol Layout Bridge Message Encoder Plane Drawing Perspective Angle Slant.
From Verif.Proofs Require Import BaseP FormatP EncodeP PrepareP FloatP ApproxP DetectP GeometryP LocateP CompleteP ExtractP AlignP GridP AngleP.
From Verif.Props Require Import PrepareProps DetectProps DecoderProps PipelineProps ExtractProps WholeProps TurnProps GridProps AngleProps SlantProps TiltProps.
Import ListNotations.
Local Open Scope R_scope.

(** *** C77: corners that are off by different amounts *)
Definition off_at_most (o m c s ax ay : R) (row column : Z) (p : point) : Prop := exists x y, point_at p x y /\
  Rabs (x - middle_x m c s ax (IZR row) (IZR column)) <= o /\ Rabs (y - middle_y m c s ay (IZR row) (IZR column)) <= o.
Definition located_roughly (o m c s ax ay : R) (n : Z) (loc : qrloc) : Prop :=
  off_at_most o m c s ax ay 3 3 (top_left loc) /\ off_at_most o m c s ax ay 3 (n - 4) (top_right loc) /\ off_at_most o m c s ax ay (n - 4) 3 (bottom_left loc).

Definition drift (n : Z) (e1 e2 e3 row column : R) : R := e1 + (column - 3) * ((e2 - e1) / IZR (n - 7)) + (row - 3) * ((e3 - e1) / IZR (n - 7)).
Lemma drift_mix n e1 e2 e3 row column : (21 <= n)%Z ->
  drift n e1 e2 e3 row column = (1 - (column - 3) / IZR (n - 7) - (row - 3) / IZR (n - 7)) * e1 + (column - 3) / IZR (n - 7) * e2 + (row - 3) / IZR (n - 7) * e3.
Proof. intros Hn. assert (14 <= IZR (n - 7)) by (apply IZR_le; lia). unfold drift. field. lra. Qed.
Lemma mix_bound a b c e1 e2 e3 o k : Rabs e1 <= o -> Rabs e2 <= o -> Rabs e3 <= o -> Rabs a + Rabs b + Rabs c <= k -> Rabs (a * e1 + b * e2 + c * e3) <= k * o.
Proof.
  intros H1 H2 H3 H. pose proof (Rabs_pos a) as A. pose proof (Rabs_pos b) as B. pose proof (Rabs_pos c) as C. pose proof (Rabs_pos e1).
  eapply Rle_trans; [apply Rabs_triang|]. eapply Rle_trans; [apply Rplus_le_compat_r, Rabs_triang|]. rewrite !Rabs_mult.
  apply Rle_trans with (Rabs a * o + Rabs b * o + Rabs c * o); [repeat apply Rplus_le_compat; apply Rmult_le_compat_l; assumption|].
  rewrite <- !Rmult_plus_distr_r. apply Rmult_le_compat_r; lra.
Qed.
Lemma portion n z : (21 <= n)%Z -> (0 <= z < n)%Z -> - (3 / 14) <= (IZR z - 3) / IZR (n - 7) <= 17 / 14.
Proof.
  intros Hn Hz. assert (N : 14 <= IZR (n - 7)) by (apply IZR_le; lia). assert (Z0 : 0 <= IZR z) by (apply IZR_le; lia).
  assert (Z1 : IZR z <= IZR (n - 7) + 6) by (rewrite <- plus_IZR; apply IZR_le; lia).
  split; apply Rmult_le_reg_r with (IZR (n - 7)); try lra; unfold Rdiv; rewrite (Rmult_assoc (IZR z - 3)), Rinv_l, Rmult_1_r by lra; lra.
Qed.
Lemma drift_bound n e1 e2 e3 o row column : (21 <= n)%Z -> (0 <= row < n)%Z -> (0 <= column < n)%Z -> Rabs e1 <= o -> Rabs e2 <= o -> Rabs e3 <= o ->
  Rabs (drift n e1 e2 e3 (IZR row) (IZR column)) <= 27 / 7 * o.
Proof.
  intros Hn Hr Hc H1 H2 H3. rewrite drift_mix by exact Hn. pose proof (portion n row Hn Hr) as P. pose proof (portion n column Hn Hc) as Q.
  apply mix_bound; auto. set (a := (IZR column - 3) / IZR (n - 7)) in *. set (b := (IZR row - 3) / IZR (n - 7)) in *. clearbody a b. clear - P Q. rabs; lra.
Qed.
Lemma drift_inner n e1 e2 e3 o row column : (25 <= n)%Z -> (3 <= row <= n - 4)%Z -> (3 <= column <= n - 4)%Z -> Rabs e1 <= o -> Rabs e2 <= o -> Rabs e3 <= o ->
  Rabs (drift n e1 e2 e3 (IZR row) (IZR column)) <= 3 * o.
Proof.
  intros Hn Hr Hc H1 H2 H3. rewrite drift_mix by lia. assert (N : 14 <= IZR (n - 7)) by (apply IZR_le; lia).
  assert (P : forall z, (3 <= z <= n - 4)%Z -> 0 <= (IZR z - 3) / IZR (n - 7) <= 1).
  { intros z Hz. assert (Z0 : 3 <= IZR z) by (apply IZR_le; lia). assert (Z1 : IZR z <= IZR (n - 7) + 3) by (rewrite <- plus_IZR; apply IZR_le; lia).
    split; apply Rmult_le_reg_r with (IZR (n - 7)); try lra; unfold Rdiv; rewrite (Rmult_assoc (IZR z - 3)), Rinv_l, Rmult_1_r by lra; lra. }
  pose proof (P row Hr) as A. pose proof (P column Hc) as B.
  apply mix_bound; auto. set (a := (IZR column - 3) / IZR (n - 7)) in *. set (b := (IZR row - 3) / IZR (n - 7)) in *. clearbody a b. clear - A B. rabs; lra.
Qed.

(** the weights of the errors of the corners if the fourth point is the alignment pattern *)
Definition blend1 (al p q : R) : R := 1 - al * (p + q) + p * q * (2 * al - 1).
Definition blend2 (al p q : R) : R := al * (q * (1 - p)).
Lemma blend_sum al p q : 5 / 6 <= al <= 1 -> - (2 / 10) <= p <= 14 / 10 -> - (2 / 10) <= q <= 14 / 10 ->
  Rabs (blend1 al p q) + Rabs (blend2 al p q) + Rabs (blend2 al q p) + 3 * Rabs (p * q) <= 72 / 10.
Proof.
  intros A P Q. unfold blend1, blend2.
  assert (T : forall x y z, 0 <= x -> 0 <= y -> 0 <= z -> 0 <= x * (y * z)) by (intros; repeat apply Rmult_le_pos; assumption).
  pose proof (T (al - 5 / 6) (p + 2 / 10) (q + 2 / 10) ltac:(lra) ltac:(lra) ltac:(lra)). pose proof (T (al - 5 / 6) (p + 2 / 10) (14 / 10 - q) ltac:(lra) ltac:(lra) ltac:(lra)).
  pose proof (T (al - 5 / 6) (14 / 10 - p) (q + 2 / 10) ltac:(lra) ltac:(lra) ltac:(lra)). pose proof (T (al - 5 / 6) (14 / 10 - p) (14 / 10 - q) ltac:(lra) ltac:(lra) ltac:(lra)).
  pose proof (T (1 - al) (p + 2 / 10) (q + 2 / 10) ltac:(lra) ltac:(lra) ltac:(lra)). pose proof (T (1 - al) (p + 2 / 10) (14 / 10 - q) ltac:(lra) ltac:(lra) ltac:(lra)).
  pose proof (T (1 - al) (14 / 10 - p) (q + 2 / 10) ltac:(lra) ltac:(lra) ltac:(lra)). pose proof (T (1 - al) (14 / 10 - p) (14 / 10 - q) ltac:(lra) ltac:(lra) ltac:(lra)).
  clear T. unfold Rabs. repeat destruct (Rcase_abs _); lra.
Qed.

Section Rough.
Context (g : gray) (m c s ax ay : R) (d : matrix) (loc : qrloc) (ex1 ey1 ex2 ey2 ex3 ey3 o : R).
Context (HW : wf_gray g) (WG : (gw g <= 2 ^ 22)%Z) (HG : (gh g <= 2 ^ 22)%Z).
Notation n := (side_of (version loc)).
Notation dark := (fun r c => d c r).
Notation mx := (middle_x m c s ax).
Notation my := (middle_y m c s ay).
Context (HD : drawn_at_angle (pixel g) m c s ax ay n dark).
Context (HX1 : Rabs ex1 <= o) (HX2 : Rabs ex2 <= o) (HX3 : Rabs ex3 <= o) (HY1 : Rabs ey1 <= o) (HY2 : Rabs ey2 <= o) (HY3 : Rabs ey3 <= o).
Context (TL : point_at (top_left loc) (mx 3 3 + ex1) (my 3 3 + ey1)).
Context (TR : point_at (top_right loc) (mx 3 (IZR (n - 4)) + ex2) (my 3 (IZR (n - 4)) + ey2)).
Context (BL : point_at (bottom_left loc) (mx (IZR (n - 4)) 3 + ex3) (my (IZR (n - 4)) 3 + ey3)).
Notation ex := (drift n ex1 ex2 ex3).
Notation ey := (drift n ey1 ey2 ey3).

Lemma rough_pos : 0 <= o.
Proof. pose proof (Rabs_pos ex1). lra. Qed.
Lemma off_by' e k x : Rabs e <= k -> Rabs (x + e - x) <= k.
Proof. intros H. now replace (x + e - x) with e by ring. Qed.
Lemma drift_corners : (21 <= n)%Z -> forall e1 e2 e3, drift n e1 e2 e3 3 3 = e1 /\ drift n e1 e2 e3 3 (IZR (n - 4)) = e2 /\ drift n e1 e2 e3 (IZR (n - 4)) 3 = e3.
Proof.
  intros Hn e1 e2 e3. assert (N : 14 <= IZR n - 7) by (rewrite <- minus_IZR; apply IZR_le; lia). unfold drift. rewrite !minus_IZR.
  repeat split; field; lra.
Qed.

Lemma rough_1 : version loc = 1%Z -> 3 / 2 + 11 * o <= m -> extract g loc = Ok (deliver 1 d).
Proof.
  intros HV M. pose proof rough_pos as O. assert (N : n = 21%Z) by (rewrite HV; reflexivity). pose proof (drift_corners ltac:(lia)) as DC. rewrite N in *. change (21 - 4)%Z with 17%Z in *.
  assert (SQ : (27 / 7 * o + 33 / 64) * (27 / 7 * o + 33 / 64) + (27 / 7 * o + 33 / 64) * (27 / 7 * o + 33 / 64) < m / 2 * (m / 2)) by (clear - M O; nra).
  assert (K : forall row column, (0 <= row < 21)%Z -> (0 <= column < 21)%Z ->
     moderate (Vec (mx (IZR row) (IZR column) + drift 21 ex1 ex2 ex3 (IZR row) (IZR column)) (my (IZR row) (IZR column) + drift 21 ey1 ey2 ey3 (IZR row) (IZR column))) /\
     clearly (pixel g) (mx (IZR row) (IZR column) + drift 21 ex1 ex2 ex3 (IZR row) (IZR column)) (my (IZR row) (IZR column) + drift 21 ey1 ey2 ey3 (IZR row) (IZR column)) (colour (d column row))).
  { intros row column Hr Hc. assert (L : (21 <= 21)%Z) by lia.
    pose proof (off_by' _ _ (mx (IZR row) (IZR column)) (drift_bound 21 ex1 ex2 ex3 o row column L Hr Hc HX1 HX2 HX3)) as DX'. pose proof (off_by' _ _ (my (IZR row) (IZR column)) (drift_bound 21 ey1 ey2 ey3 o row column L Hr Hc HY1 HY2 HY3)) as DY'.
    destruct (near_pixels g 21 dark m c s ax ay HD row column _ _ (27 / 7 * o) (27 / 7 * o) Hr Hc DX' DY' ltac:(lra) ltac:(lra) SQ) as (A & B & C).
    split; [|exact C]. apply IZR_le in WG, HG. change (IZR (2 ^ 22)) with 4194304 in *. split; cbn [vx vy]; apply Rabs_le; lra. }
  pose proof (proj1 (K 3 3 ltac:(lia) ltac:(lia))%Z) as K1. pose proof (proj1 (K 3 17 ltac:(lia) ltac:(lia))%Z) as K2. pose proof (proj1 (K 17 3 ltac:(lia) ltac:(lia))%Z) as K3.
  destruct (DC ex1 ex2 ex3) as (D1 & D2 & D3). destruct (DC ey1 ey2 ey3) as (D4 & D5 & D6). rewrite D1, D4 in K1. rewrite D2, D5 in K2. rewrite D3, D6 in K3.
  assert (CO : corners_at loc (Vec (mx 3 3 + ex1) (my 3 3 + ey1)) (Vec (mx 3 17 + ex2) (my 3 17 + ey2)) (Vec (mx 17 3 + ex3) (my 17 3 + ey3))) by exact (conj TL (conj TR BL)).
  apply (C68_exact g loc _ _ _ HV CO K1 K2 K3 (fun r c => mx r c + drift 21 ex1 ex2 ex3 r c) (fun r c => my r c + drift 21 ey1 ey2 ey3 r c)).
  - cbn [vx vy]. split; [|split; [|split]].
    + exists (ax + ex1 - 3 * ((ex2 - ex1) / 14) - 3 * ((ex3 - ex1) / 14)), (- m * s + (ex3 - ex1) / 14), (m * c + (ex2 - ex1) / 14). intros. unfold middle_x, drift. change (IZR (21 - 7)) with 14. field.
    + exists (ay + ey1 - 3 * ((ey2 - ey1) / 14) - 3 * ((ey3 - ey1) / 14)), (m * c + (ey3 - ey1) / 14), (m * s + (ey2 - ey1) / 14). intros. unfold middle_y, drift. change (IZR (21 - 7)) with 14. field.
    + unfold through_corners. cbn [vx vy]. change (IZR 21) with 21. replace (21 - 4) with 17 by lra. rewrite D1, D2, D3. auto.
    + unfold through_corners. cbn [vx vy]. change (IZR 21) with 21. replace (21 - 4) with 17 by lra. rewrite D4, D5, D6. auto.
  - intros row column Hr Hc. rewrite !INR_IZR_INZ. apply K; lia.
Qed.

Section Above.
Context (HV : (2 <= version loc <= 40)%Z) (HA : bottom_right_alignment n dark) (M : 11 + 21 * o <= m).

Lemma range_n' : (25 <= n <= 177)%Z.
Proof. unfold side_of. lia. Qed.

Lemma rough_positive row column x y : (0 <= row < n)%Z -> (0 <= column < n)%Z -> Rabs (x - mx (IZR row) (IZR column)) <= 2 + 3 * o -> Rabs (y - my (IZR row) (IZR column)) <= 2 + 3 * o ->
  / 64 <= x <= IZR (gw g) /\ / 64 <= y <= IZR (gh g).
Proof.
  intros Hr Hc X Y. pose proof rough_pos as O. assert (SQ : (2 + 3 * o + 65 / 64) * (2 + 3 * o + 65 / 64) + (2 + 3 * o + 65 / 64) * (2 + 3 * o + 65 / 64) < m / 2 * (m / 2)) by (clear - M O; nra).
  exact (near_positive g n dark m c s ax ay HD row column x y _ _ Hr Hc X Y SQ).
Qed.
Lemma rough_in row column : (3 <= row <= n - 4)%Z -> (3 <= column <= n - 4)%Z ->
  0 <= mx (IZR row) (IZR column) + ex (IZR row) (IZR column) <= M22 /\ 0 <= my (IZR row) (IZR column) + ey (IZR row) (IZR column) <= M22.
Proof.
  intros Hr Hc. pose proof range_n' as HN.
  pose proof (off_by' _ _ (mx (IZR row) (IZR column)) (drift_inner n ex1 ex2 ex3 o row column ltac:(lia) Hr Hc HX1 HX2 HX3)) as DX'. pose proof (off_by' _ _ (my (IZR row) (IZR column)) (drift_inner n ey1 ey2 ey3 o row column ltac:(lia) Hr Hc HY1 HY2 HY3)) as DY'.
  destruct (rough_positive row column _ _ ltac:(lia) ltac:(lia) ltac:(eapply Rle_trans; [exact DX'|lra]) ltac:(eapply Rle_trans; [exact DY'|lra])) as [A B].
  apply IZR_le in WG, HG. change (IZR (2 ^ 22)) with 4194304 in *. unfold M22. lra.
Qed.

Lemma rough_step_x : DX n (mx 3 3 + ex1) (mx 3 (IZR (n - 4)) + ex2) = m * c + (ex2 - ex1) / IZR (n - 7) /\ DY n (mx 3 3 + ex1) (mx (IZR (n - 4)) 3 + ex3) = - (m * s) + (ex3 - ex1) / IZR (n - 7).
Proof. pose proof range_n' as HN. assert (25 <= IZR n) by (apply IZR_le; lia). unfold DX, DY, middle_x. rewrite !minus_IZR. split; field; lra. Qed.
Lemma rough_step_y : DX n (my 3 3 + ey1) (my 3 (IZR (n - 4)) + ey2) = m * s + (ey2 - ey1) / IZR (n - 7) /\ DY n (my 3 3 + ey1) (my (IZR (n - 4)) 3 + ey3) = m * c + (ey3 - ey1) / IZR (n - 7).
Proof. pose proof range_n' as HN. assert (25 <= IZR n) by (apply IZR_le; lia). unfold DX, DY, middle_y. rewrite !minus_IZR. split; field; lra. Qed.
Notation cx := (mx (IZR (n - 7)) (IZR (n - 7))).
Notation cy := (my (IZR (n - 7)) (IZR (n - 7))).
Notation ex0 := (ex (IZR (n - 7)) (IZR (n - 7))).
Notation ey0 := (ey (IZR (n - 7)) (IZR (n - 7))).
Lemma expected_rough : expected n (mx 3 3 + ex1) (mx 3 (IZR (n - 4)) + ex2) (mx (IZR (n - 4)) 3 + ex3) = cx + ex0 /\
  expected n (my 3 3 + ey1) (my 3 (IZR (n - 4)) + ey2) (my (IZR (n - 4)) 3 + ey3) = cy + ey0.
Proof.
  pose proof range_n' as HN. assert (25 <= IZR n) by (apply IZR_le; lia).
  unfold expected. destruct rough_step_x as [-> ->]. destruct rough_step_y as [-> ->]. unfold middle_x, middle_y, drift. rewrite !minus_IZR. split; field; lra.
Qed.

Lemma pattern_rough : pattern_at g n (mx 3 3 + ex1) (my 3 3 + ey1) (mx 3 (IZR (n - 4)) + ex2) (my 3 (IZR (n - 4)) + ey2) (mx (IZR (n - 4)) 3 + ex3) (my (IZR (n - 4)) 3 + ey3) 0 0 0.
Proof.
  pose proof range_n' as HN. pose proof rough_pos as O. intros k i Hk Hi. assert (25 <= IZR n) by (apply IZR_le; lia).
  assert (PX : probe_x n (mx 3 3 + ex1) (mx 3 (IZR (n - 4)) + ex2) (mx (IZR (n - 4)) 3 + ex3) 0 0 0 i k = mx (IZR (n - 7 + k)) (IZR (n - 7 + i)) + ex (IZR (n - 7 + k)) (IZR (n - 7 + i))).
  { unfold probe_x, probe, tried, scaled. rewrite (proj1 expected_rough). destruct rough_step_x as [-> ->]. unfold middle_x, drift. rewrite !plus_IZR, !minus_IZR. field. lra. }
  assert (PY : probe_y n (my 3 3 + ey1) (my 3 (IZR (n - 4)) + ey2) (my (IZR (n - 4)) 3 + ey3) 0 0 0 i k = my (IZR (n - 7 + k)) (IZR (n - 7 + i)) + ey (IZR (n - 7 + k)) (IZR (n - 7 + i))).
  { unfold probe_y, probe, tried, scaled. rewrite (proj2 expected_rough). destruct rough_step_y as [-> ->]. unfold middle_y, drift. rewrite !plus_IZR, !minus_IZR. field. lra. }
  rewrite PX, PY. assert (Hr : (0 <= n - 7 + k < n)%Z) by lia. assert (Hc : (0 <= n - 7 + i < n)%Z) by lia.
  assert (Hr' : (3 <= n - 7 + k <= n - 4)%Z) by lia. assert (Hc' : (3 <= n - 7 + i <= n - 4)%Z) by lia.
  pose proof (off_by' _ _ (mx (IZR (n - 7 + k)) (IZR (n - 7 + i))) (drift_inner n ex1 ex2 ex3 o _ _ ltac:(lia) Hr' Hc' HX1 HX2 HX3)) as DX'.
  pose proof (off_by' _ _ (my (IZR (n - 7 + k)) (IZR (n - 7 + i))) (drift_inner n ey1 ey2 ey3 o _ _ ltac:(lia) Hr' Hc' HY1 HY2 HY3)) as DY'.
  destruct (rough_positive (n - 7 + k) (n - 7 + i) _ _ Hr Hc ltac:(eapply Rle_trans; [exact DX'|lra]) ltac:(eapply Rle_trans; [exact DY'|lra])) as [A B].
  assert (SQ : (3 * o + 33 / 64) * (3 * o + 33 / 64) + (3 * o + 33 / 64) * (3 * o + 33 / 64) < m / 2 * (m / 2)) by (clear - M O; nra).
  destruct (near_pixels g n dark m c s ax ay HD (n - 7 + k) (n - 7 + i) _ _ (3 * o) (3 * o) Hr Hc DX' DY' ltac:(lra) ltac:(lra) SQ) as (_ & _ & C).
  split; [lra|]. split; [lra|]. rewrite (HA k i Hk Hi) in C. exact C.
Qed.

(** the centre of the alignment pattern that is used is up to [a] + 3 o off; the errors of the corners mostly cancel *)
Lemma rough_blend R0 C1 e1 e2 e3 al a : (0 <= R0 < n)%Z -> (0 <= C1 < n)%Z -> Rabs e1 <= o -> Rabs e2 <= o -> Rabs e3 <= o -> Rabs al <= a + 3 * o -> 0 <= a ->
  let k := (IZR R0 - 3) * (IZR C1 - 3) / (IZR (n - 10) * IZR (n - 10)) in
  Rabs (drift n e1 e2 e3 (IZR R0) (IZR C1) + k * (al - drift n e1 e2 e3 (IZR (n - 7)) (IZR (n - 7)))) <= 196 / 100 * a + 72 / 10 * o.
Proof.
  intros HR HC H1 H2 H3 Hal Ha k. pose proof rough_pos as O. pose proof range_n' as HN. pose proof (weight loc HV R0 C1 HR HC) as KB. fold k in KB.
  assert (N : 15 <= IZR (n - 10)) by (apply IZR_le; lia). assert (E7 : IZR (n - 7) = IZR (n - 10) + 3) by (rewrite <- plus_IZR; f_equal; lia).
  assert (ED : drift n e1 e2 e3 (IZR R0) (IZR C1) + k * (al - drift n e1 e2 e3 (IZR (n - 7)) (IZR (n - 7))) =
    blend1 (IZR (n - 10) / (IZR (n - 10) + 3)) ((IZR R0 - 3) / IZR (n - 10)) ((IZR C1 - 3) / IZR (n - 10)) * e1 +
    blend2 (IZR (n - 10) / (IZR (n - 10) + 3)) ((IZR R0 - 3) / IZR (n - 10)) ((IZR C1 - 3) / IZR (n - 10)) * e2 +
    blend2 (IZR (n - 10) / (IZR (n - 10) + 3)) ((IZR C1 - 3) / IZR (n - 10)) ((IZR R0 - 3) / IZR (n - 10)) * e3 + k * al).
  { unfold blend1, blend2, drift, k. rewrite E7. field. lra. }
  rewrite ED. clear ED.
  assert (P : forall z, (0 <= z < n)%Z -> - (2 / 10) <= (IZR z - 3) / IZR (n - 10) <= 14 / 10).
  { intros z Hz. assert (Z0 : 0 <= IZR z) by (apply IZR_le; lia). assert (Z1 : IZR z <= IZR (n - 10) + 9) by (rewrite <- plus_IZR; apply IZR_le; lia).
    split; apply Rmult_le_reg_r with (IZR (n - 10)); try lra; unfold Rdiv; rewrite (Rmult_assoc (IZR z - 3)), Rinv_l, Rmult_1_r by lra; lra. }
  pose proof (P R0 HR) as BP. pose proof (P C1 HC) as BQ.
  assert (BA : 5 / 6 <= IZR (n - 10) / (IZR (n - 10) + 3) <= 1).
  { split; apply Rmult_le_reg_r with (IZR (n - 10) + 3); try lra; unfold Rdiv; rewrite (Rmult_assoc (IZR (n - 10))), Rinv_l, Rmult_1_r by lra; lra. }
  assert (EK : k = (IZR R0 - 3) / IZR (n - 10) * ((IZR C1 - 3) / IZR (n - 10))) by (unfold k; field; lra).
  set (al0 := IZR (n - 10) / (IZR (n - 10) + 3)) in *. set (p := (IZR R0 - 3) / IZR (n - 10)) in *. set (q := (IZR C1 - 3) / IZR (n - 10)) in *. clearbody al0 p q k. clear P N E7 HR HC HN.
  pose proof (blend_sum al0 p q BA BP BQ) as BS. rewrite <- EK in BS.
  assert (K1 : Rabs (k * al) <= 196 / 100 * a + 3 * Rabs k * o).
  { rewrite Rabs_mult. apply Rle_trans with (Rabs k * (a + 3 * o)); [apply Rmult_le_compat_l; [apply Rabs_pos|exact Hal]|].
    assert (Rabs k * a <= 196 / 100 * a) by (apply Rmult_le_compat_r; [exact Ha|apply Rabs_le; lra]). lra. }
  eapply Rle_trans; [apply Rabs_triang|]. pose proof (mix_bound _ _ _ e1 e2 e3 o _ H1 H2 H3 (Rle_refl (Rabs (blend1 al0 p q) + Rabs (blend2 al0 p q) + Rabs (blend2 al0 q p)))) as MB.
  assert (MB2 : (Rabs (blend1 al0 p q) + Rabs (blend2 al0 p q) + Rabs (blend2 al0 q p)) * o + 3 * Rabs k * o <= 72 / 10 * o) by (rewrite <- Rmult_plus_distr_r; apply Rmult_le_compat_r; lra).
  lra.
Qed.

Lemma rough_2 : extract g loc = Ok (deliver (version loc) d).
Proof.
  pose proof range_n' as HN. pose proof rough_pos as O. destruct TL as [F1 F2], TR as [F3 F4], BL as [F5 F6].
  destruct (drift_corners ltac:(lia) ex1 ex2 ex3) as (D1 & D2 & D3). destruct (drift_corners ltac:(lia) ey1 ey2 ey3) as (D4 & D5 & D6).
  destruct (rough_in 3 3 ltac:(lia) ltac:(lia)) as [H1 H2]. destruct (rough_in 3 (n - 4) ltac:(lia) ltac:(lia)) as [H3 H4]. destruct (rough_in (n - 4) 3 ltac:(lia) ltac:(lia)) as [H5 H6].
  change (IZR 3) with 3 in H1, H2, H3, H4, H5, H6. rewrite D1 in H1. rewrite D4 in H2. rewrite D2 in H3. rewrite D5 in H4. rewrite D3 in H5. rewrite D6 in H6.
  set (est := est2 n loc). pose proof (at_expected n HN loc _ _ _ _ _ _ F1 F2 F3 F4 F5 F6 H1 H2 H3 H4 H5 H6) as AT.
  pose proof (accepted_complete g HW WG HG n HN loc _ _ _ _ _ _ F1 F2 F3 F4 F5 F6 H1 H2 H3 H4 H5 H6 0 0 0 est ltac:(lia) ltac:(lia) ltac:(lia) AT pattern_rough) as IA.
  assert (EF : find_alignment g (dX2 n loc) (dY2 n loc) (search_points est (dX2 n loc) (dY2 n loc)) = Ok (Some est)).
  { change (search_points est (dX2 n loc) (dY2 n loc)) with ((scale_of 0, est) :: tl (search_points est (dX2 n loc) (dY2 n loc))). cbn [find_alignment]. rewrite IA. reflexivity. }
  destruct (est2_apx n HN loc _ _ _ _ _ _ F1 F2 F3 F4 F5 F6 H1 H2 H3 H4 H5 H6) as [E1 E2]. fold est in E1, E2. destruct expected_rough as [X1 X2]. rewrite X1 in E1. rewrite X2 in E2.
  assert (U : u24 = / 16777216 /\ slack = / 64) by (split; reflexivity).
  assert (C0 : (0 <= n - 7 < n)%Z) by lia. assert (C3 : (3 <= n - 7 <= n - 4)%Z) by lia. destruct (rough_in (n - 7) (n - 7) C3 C3) as [P1 P2].
  pose proof (drift_inner n ex1 ex2 ex3 o (n - 7) (n - 7) ltac:(lia) C3 C3 HX1 HX2 HX3) as HX0. pose proof (drift_inner n ey1 ey2 ey3 o (n - 7) (n - 7) ltac:(lia) C3 C3 HY1 HY2 HY3) as HY0.
  destruct (round_holds (px est) (cx + ex0)) as [R1 R2]; [eapply apx_weaken; [exact E1|lra]|unfold M22 in *; apply Rabs_le; lra|].
  destruct (round_holds (py est) (cy + ey0)) as [R3 R4]; [eapply apx_weaken; [exact E2|lra]|unfold M22 in *; apply Rabs_le; lra|].
  set (x := round_u32 (px est)) in *. set (y := round_u32 (py est)) in *. rewrite Rmax_right in R2 by lra. rewrite Rmax_right in R4 by lra.
  assert (NX : Rabs (IZR x - cx) <= 33 / 64 + 3 * o) by (apply Rabs_le_inv in R2; pose proof (Rabs_le_inv _ _ HX0); apply Rabs_le; lra).
  assert (NY : Rabs (IZR y - cy) <= 33 / 64 + 3 * o) by (apply Rabs_le_inv in R4; pose proof (Rabs_le_inv _ _ HY0); apply Rabs_le; lra).
  destruct (centre_dark g n dark m c s ax ay HD HN HA x y) as (RX & RY & _).
  { apply (close_in_sq g n dark m c s ax ay HD _ _ _ _ _ NX NY); [lra|]. clear - M O. nra. }
  assert (W2 : (2 <= gw g)%Z).
  { destruct (rough_positive (n - 7) (n - 7) (cx + 2) cy C0 C0) as [[_ L1] _]; [apply Rabs_le; lra|apply Rabs_le; lra|].
    destruct (rough_positive (n - 7) (n - 7) (cx - 2) cy C0 C0) as [[L2 _] _]; [apply Rabs_le; lra|apply Rabs_le; lra|]. apply le_IZR. lra. }
  destruct (centre_total g HW WG est RX RY W2) as (al & EA).
  destruct (centre_sound g WG HG n HN _ _ _ _ _ _ H1 H2 H3 H4 H5 H6 est al RX RY EA) as (l & r & x' & t & u & CA & G1 & G2 & M1 & M2). fold x y in CA.
  destruct (centre_near g n dark m c s ax ay HD HN HA ltac:(lra) x y l r x' t u (3 * o) ltac:(lra) ltac:(lra) NX NY CA) as [N1 N2].
  change (deliver (version loc) d) with (mkQRData (rows (fun r c => colour (d (Z.of_nat c) (Z.of_nat r))) (Z.to_nat n)) (version loc) n).
  apply (extract_complete g n HN loc _ _ _ _ _ _ F1 F2 F3 F4 F5 F6 H1 H2 H3 H4 H5 H6 ltac:(unfold side_of; lia) est al _ _ _ EF EA G1 G2 M1 M2).
  intros row column Hr Hc. unfold grid_x2, grid_y2, plane, bend. rewrite X1, X2. destruct rough_step_x as [-> ->]. destruct rough_step_y as [-> ->]. rewrite !INR_IZR_INZ.
  set (R0 := Z.of_nat row). set (C1 := Z.of_nat column). assert (HR : (0 <= R0 < n)%Z) by lia. assert (HC : (0 <= C1 < n)%Z) by lia.
  assert (N10 : 15 <= IZR (n - 10)) by (apply IZR_le; lia). assert (N7 : 18 <= IZR (n - 7)) by (apply IZR_le; lia).
  pose proof (rough_blend R0 C1 ex1 ex2 ex3 _ (65 / 64) HR HC HX1 HX2 HX3 N1 ltac:(lra)) as B1.
  pose proof (rough_blend R0 C1 ey1 ey2 ey3 _ (129 / 64) HR HC HY1 HY2 HY3 N2 ltac:(lra)) as B2. cbv zeta in B1, B2.
  set (k := (IZR R0 - 3) * (IZR C1 - 3) / (IZR (n - 10) * IZR (n - 10))) in *.
  assert (SQ : (196 / 100 * (65 / 64) + 72 / 10 * o + 33 / 64) * (196 / 100 * (65 / 64) + 72 / 10 * o + 33 / 64) + (196 / 100 * (129 / 64) + 72 / 10 * o + 33 / 64) * (196 / 100 * (129 / 64) + 72 / 10 * o + 33 / 64) < m / 2 * (m / 2)).
  { clear - M O. apply Rlt_le_trans with ((11 + 21 * o) / 2 * ((11 + 21 * o) / 2)); [nra|apply Rmult_le_compat; lra]. }
  refine (proj2 (proj2 (near_pixels g n dark m c s ax ay HD R0 C1 _ _ (196 / 100 * (65 / 64) + 72 / 10 * o) (196 / 100 * (129 / 64) + 72 / 10 * o) HR HC _ _ ltac:(lra) ltac:(lra) SQ))).
  - match goal with |- Rabs ?z <= _ => replace z with (ex (IZR R0) (IZR C1) + k * (IZR (l + r) / 2 - cx - ex0)) end; [exact B1|]. unfold k, drift, middle_x. field. lra.
  - match goal with |- Rabs ?z <= _ => replace z with (ey (IZR R0) (IZR C1) + k * (IZR (t + u) / 2 - cy - ey0)) end; [exact B2|]. unfold k, drift, middle_y. field. lra.
Qed.
End Above.
End Rough.

Theorem C77_sampled g m c s ax ay v d loc o : wf_gray g -> (gw g <= 2 ^ 22)%Z -> (gh g <= 2 ^ 22)%Z -> (1 <= v <= 40)%Z -> version loc = v ->
  drawn_at_angle (pixel g) m c s ax ay (side_of v) (fun r c => d c r) -> located_roughly o m c s ax ay (side_of v) loc ->
  (v = 1%Z /\ 3 / 2 + 11 * o <= m \/ bottom_right_alignment (side_of v) (fun r c => d c r) /\ 11 + 21 * o <= m) ->
  extract g loc = Ok (deliver v d).
Proof.
  intros HW WG HG Hv <- HD ((x1 & y1 & A & X1 & Y1) & (x2 & y2 & B & X2 & Y2) & (x3 & y3 & C & X3 & Y3)) HM.
  assert (E : forall a b p, point_at p (fst a) (snd a) -> point_at p (fst b + (fst a - fst b)) (snd b + (snd a - snd b))).
  { intros a b p H. replace (fst b + (fst a - fst b)) with (fst a) by ring. replace (snd b + (snd a - snd b)) with (snd a) by ring. exact H. }
  apply (E (x1, y1) (middle_x m c s ax 3 3, middle_y m c s ay 3 3)) in A.
  apply (E (x2, y2) (middle_x m c s ax 3 (IZR (side_of (version loc) - 4)), middle_y m c s ay 3 (IZR (side_of (version loc) - 4)))) in B.
  apply (E (x3, y3) (middle_x m c s ax (IZR (side_of (version loc) - 4)) 3, middle_y m c s ay (IZR (side_of (version loc) - 4)) 3)) in C. cbn [fst snd] in A, B, C.
  set (n4 := IZR (side_of (version loc) - 4)) in *. change (IZR 3) with 3 in *.
  set (ex1 := x1 - _) in *. set (ey1 := y1 - _) in *. set (ex2 := x2 - _) in *. set (ey2 := y2 - _) in *. set (ex3 := x3 - _) in *. set (ey3 := y3 - _) in *.
  destruct (Z.eq_dec (version loc) 1) as [EV|NE].
  - replace (deliver (version loc) d) with (deliver 1 d) by now rewrite EV. apply (rough_1 g m c s ax ay d loc ex1 ey1 ex2 ey2 ex3 ey3 o); auto. pose proof (Rabs_pos ex1). destruct HM as [[_ HM]|[_ HM]]; lra.
  - destruct HM as [[EV _]|[HA HM]]; [now destruct NE|]. apply (rough_2 g m c s ax ay d loc ex1 ey1 ex2 ey2 ex3 ey3 o); auto. lia.
Qed.

Theorem C77_text g m c s ax ay v d loc o text : wf_gray g -> (gw g <= 2 ^ 22)%Z -> (gh g <= 2 ^ 22)%Z -> (1 <= v <= 40)%Z -> version loc = v ->
  drawn_at_angle (pixel g) m c s ax ay (side_of v) (fun r c => d c r) -> located_roughly o m c s ax ay (side_of v) loc ->
  (v = 1%Z /\ 3 / 2 + 11 * o <= m \/ bottom_right_alignment (side_of v) (fun r c => d c r) /\ 11 + 21 * o <= m) ->
  holds_text v d text -> qr_decode (extract g loc) = Ok text.
Proof.
  intros HW WG HG Hv HV HD HL HM (l & mask & segs & texts & base & Hm & HS & HT & HF & HE & HC & ->).
  rewrite (C77_sampled g m c s ax ay v d loc o) by assumption. eapply C30_roundtrip; eauto. apply deliver_shows. lia.
Qed.

(** *** "HELLO" in version 1, turned by an angle with cosine 12/13 and sine 5/13, 65 pixels per module *)
Definition leaning_pixel (x y : Z) : N :=
  let c := ((2 * (12 * (x - 600) + 5 * (y - 100)) + 845) / 1690)%Z in let r := ((2 * (12 * (y - 100) - 5 * (x - 600)) + 845) / 1690)%Z in
  if ((0 <=? r) && (r <? 21) && (0 <=? c) && (c <? 21))%Z then colour (modules_1 c r) else 255%N.
Definition leaning : gray := image_of 1900 1900 leaning_pixel.
Lemma leaning_wf : wf_gray leaning.
Proof. apply image_of_wf; [unfold u32_max; lia..|]. intros x y. unfold leaning_pixel, colour. cbv zeta. destruct (_ && _); [destruct (modules_1 _ _)|]; lia. Qed.
Lemma leaning_drawn : drawn_at_angle (pixel leaning) 65 (12 / 13) (5 / 13) 600 100 21 (fun r c => modules_1 c r).
Proof.
  split; [lra|]. split; [lra|]. intros row column i j Hr Hc [[A1 A2] [B1 B2]].
  assert (X : (1690 * column <= 2 * (12 * (i - 600) + 5 * (j - 100)) + 845 < 1690 * column + 1690)%Z).
  { split; [apply le_IZR|apply lt_IZR]; rewrite ?plus_IZR, ?mult_IZR, ?plus_IZR, ?mult_IZR, ?minus_IZR; lra. }
  assert (Y : (1690 * row <= 2 * (12 * (j - 100) - 5 * (i - 600)) + 845 < 1690 * row + 1690)%Z).
  { split; [apply le_IZR|apply lt_IZR]; rewrite ?plus_IZR, ?mult_IZR, ?minus_IZR, ?mult_IZR, ?minus_IZR; lra. }
  clear A1 A2 B1 B2. assert (0 <= i < 1900)%Z by lia. assert (0 <= j < 1900)%Z by lia. split; [lia|]. split; [lia|].
  unfold pixel, leaning. rewrite image_of_pixel by lia. unfold leaning_pixel. cbv zeta.
  replace ((2 * (12 * (i - 600) + 5 * (j - 100)) + 845) / 1690)%Z with column by (apply Z.div_unique with (2 * (12 * (i - 600) + 5 * (j - 100)) + 845 - 1690 * column)%Z; lia).
  replace ((2 * (12 * (j - 100) - 5 * (i - 600)) + 845) / 1690)%Z with row by (apply Z.div_unique with (2 * (12 * (j - 100) - 5 * (i - 600)) + 845 - 1690 * row)%Z; lia).
  destruct (Z.leb_spec 0 row); [|lia]. destruct (Z.ltb_spec row 21); [|lia]. destruct (Z.leb_spec 0 column); [|lia]. destruct (Z.ltb_spec column 21); [|lia]. reflexivity.
Qed.
Lemma rough_Z o m c s ax ay row column x y : (Z.abs x <= 2 ^ 53)%Z -> (Z.abs y <= 2 ^ 53)%Z ->
  Rabs (IZR x - middle_x m c s ax (IZR row) (IZR column)) <= o -> Rabs (IZR y - middle_y m c s ay (IZR row) (IZR column)) <= o -> off_at_most o m c s ax ay row column (Pt (of_Z x) (of_Z y)).
Proof. intros Hx Hy A B. exists (IZR x), (IZR y). split; [split; now apply fin_of_Z|]. auto. Qed.
(** the exact corners would be (705, 355), (1545, 705) and (355, 1195) *)
Example C77_example : qr_decode (extract leaning (mkQRLoc (Pt (of_Z 701) (of_Z 359)) (Pt (of_Z 1549) (of_Z 704)) (Pt (of_Z 355) (of_Z 1191)) (of_Z 70) 1)) = Ok [72; 69; 76; 76; 79]%N.
Proof.
  apply (C77_text leaning 65 (12 / 13) (5 / 13) 600 100 1 modules_1 _ 4).
  - exact leaning_wf.
  - cbn [leaning image_of gw]. lia.
  - cbn [leaning image_of gh]. lia.
  - lia.
  - reflexivity.
  - exact leaning_drawn.
  - unfold located_roughly. change (side_of 1 - 4)%Z with 17%Z. split; [|split]; cbn [top_left top_right bottom_left]; apply rough_Z; try lia; unfold middle_x, middle_y; apply Rabs_le; lra.
  - left. split; [reflexivity|lra].
  - exact hello_text.
Qed.

(** *** C78: from the candidates to the text *)
Lemma near_rough o m c s ax ay row column f : near_centre o m c s ax ay row column f -> off_at_most o m c s ax ay row column (fp_location f).
Proof. intros (x & y & v & [P _] & _ & X & Y & _). cbn [vx vy] in P. exists x, y. split; [exact P|]. split; lra. Qed.

Lemma drawn_small g m c s ax ay n dark : drawn_at_angle (pixel g) m c s ax ay n dark -> (21 <= n)%Z -> (gw g <= 2 ^ 22)%Z -> (gh g <= 2 ^ 22)%Z -> 3 <= m -> m <= 67108864.
Proof.
  intros HD Hn WG HG M. pose proof HD as (_ & U & _).
  assert (K : forall row column, (0 <= row < n)%Z -> (0 <= column < n)%Z -> - / 2 <= middle_x m c s ax (IZR row) (IZR column) <= 4194304 + / 2 /\ - / 2 <= middle_y m c s ay (IZR row) (IZR column) <= 4194304 + / 2).
  { intros row column Hr Hc. assert (Z0 : forall x, Rabs (x - x) <= 0) by (intros x; rewrite Rminus_diag_eq, Rabs_R0 by reflexivity; lra).
    destruct (near_pixels g n dark m c s ax ay HD row column _ _ 0 0 Hr Hc (Z0 _) (Z0 _) ltac:(lra) ltac:(lra) ltac:(clear - M; nra)) as (A & B & _).
    apply IZR_le in WG, HG. change (IZR (2 ^ 22)) with 4194304 in *. lra. }
  destruct (K 0 0 ltac:(lia) ltac:(lia))%Z as [A1 A2]. destruct (K 0 1 ltac:(lia) ltac:(lia))%Z as [B1 B2]. unfold middle_x, middle_y in *. change (IZR 0) with 0 in *. change (IZR 1) with 1 in *.
  assert (X : - 4194305 <= m * c <= 4194305) by lra. assert (Y : - 4194305 <= m * s <= 4194305) by lra.
  assert (Q : (m * c) * (m * c) + (m * s) * (m * s) = m * m * (c * c + s * s)) by ring. rewrite U in Q.
  assert ((m * c) * (m * c) <= 4194305 * 4194305) by (clear - X; nra). assert ((m * s) * (m * s) <= 4194305 * 4194305) by (clear - Y; nra).
  apply Rsqr_incr_0_var; [|lra]. unfold Rsqr. lra.
Qed.

(** Three candidates near the centres: the symbol is among what is found, and it is read. *)
Theorem C78_read g o m c s ax ay v d text cs f1 f2 f3 locs : wf_gray g -> (gw g <= 2 ^ 22)%Z -> (gh g <= 2 ^ 22)%Z -> (1 <= v <= 40)%Z ->
  drawn_at_angle (pixel g) m c s ax ay (side_of v) (fun r c => d c r) ->
  18 <= m -> (v = 1%Z /\ 3 / 2 + 11 * o <= m \/ bottom_right_alignment (side_of v) (fun r c => d c r) /\ 11 + 21 * o <= m) -> straight_enough o m c s v -> holds_text v d text ->
  In f1 cs -> In f2 cs -> In f3 cs ->
  near_centre o m c s ax ay 3 3 f1 -> near_centre o m c s ax ay 3 (side_of v - 4) f2 -> near_centre o m c s ax ay (side_of v - 4) 3 f3 ->
  find_locations cs = Ok locs -> exists loc, In loc locs /\ version loc = v /\ qr_decode (extract g loc) = Ok text.
Proof.
  intros HW WG HG HV HD M18 HM ST HT I1 I2 I3 N1 N2 N3 E. pose proof HD as (_ & U & _).
  assert (O : 0 <= o) by (destruct N1 as (x & y & w & _ & _ & X & _); pose proof (Rabs_pos (x - middle_x m c s ax (IZR 3) (IZR 3))); lra).
  assert (OM : 4 * o <= m) by (destruct HM as [[_ H]|[_ H]]; lra).
  assert (S21 : (21 <= side_of v)%Z) by (unfold side_of; lia).
  pose proof (drawn_small g m c s ax ay _ _ HD S21 WG HG ltac:(lra)) as MB.
  destruct (C76_partial cs o m c s ax ay v f1 f2 f3 locs U ltac:(lra) OM HV ST I1 I2 I3 N1 N2 N3 E) as (loc & IL & K1 & K2 & K3 & K4).
  exists loc. split; [exact IL|]. split; [exact K4|]. apply (C77_text g m c s ax ay v d loc o); auto.
  unfold located_roughly. rewrite K1, K2, K3. split; [|split]; now apply near_rough.
Qed.

Definition leaning_candidates : list finder_pos :=
  [FP (Pt (of_Z 1549) (of_Z 704)) (of_Z 71) (of_Z 0); FP (Pt (of_Z 20) (of_Z 30)) (of_Z 5) (of_Z 0); FP (Pt (of_Z 355) (of_Z 1192)) (of_Z 70) (of_Z 0);
   FP (Pt (of_Z 702) (of_Z 358)) (of_Z 70) (of_Z 0)].
Example C78_example : exists locs loc, find_locations leaning_candidates = Ok locs /\ In loc locs /\ qr_decode (extract leaning loc) = Ok [72; 69; 76; 76; 79]%N.
Proof.
  assert (E : exists locs, find_locations leaning_candidates = Ok locs) by (eexists; vm_compute; reflexivity). destruct E as (locs & E).
  destruct (C78_read leaning 4 65 (12 / 13) (5 / 13) 600 100 1 modules_1 [72; 69; 76; 76; 79]%N leaning_candidates (FP (Pt (of_Z 702) (of_Z 358)) (of_Z 70) (of_Z 0))
    (FP (Pt (of_Z 1549) (of_Z 704)) (of_Z 71) (of_Z 0)) (FP (Pt (of_Z 355) (of_Z 1192)) (of_Z 70) (of_Z 0)) locs) as (loc & IL & _ & T); auto.
  - exact leaning_wf.
  - cbn [leaning image_of gw]. lia.
  - cbn [leaning image_of gh]. lia.
  - lia.
  - exact leaning_drawn.
  - lra.
  - left. split; [reflexivity|lra].
  - unfold straight_enough. rewrite larger_1213. change (IZR (4 * 1 + 10)) with 14. lra.
  - exact hello_text.
  - cbn. tauto.
  - cbn. tauto.
  - cbn. tauto.
  - apply near_Z; try lia; rewrite ?larger_1213; unfold middle_x, middle_y; apply Rabs_le; lra.
  - change (side_of 1 - 4)%Z with 17%Z. apply near_Z; try lia; rewrite ?larger_1213; unfold middle_x, middle_y; apply Rabs_le; lra.
  - change (side_of 1 - 4)%Z with 17%Z. apply near_Z; try lia; rewrite ?larger_1213; unfold middle_x, middle_y; apply Rabs_le; lra.
  - exists locs, loc. auto.
Qed.

(** *** the whole way *)
Definition corners_of (v : Z) : list (Z * Z) := [(3, 3); (3, side_of v - 4); (side_of v - 4, 3)]%Z.
(** the finder pattern in that corner with its light ring; the row of pixels nearest to its centre has no run too short
    to be seen, up to the pattern *)
Definition visible (g : gray) (m c s ax ay : R) (corner : Z * Z) : Prop :=
  let x := middle_x m c s ax (IZR (fst corner)) (IZR (snd corner)) in let y := middle_y m c s ay (IZR (fst corner)) (IZR (snd corner)) in
  finder_at_angle (pixel g) m c s x y /\ exists j e, Rabs (IZR j - y) <= / 2 /\ x - 2 * (m / larger c s) <= IZR e /\ steady (fun i => pix g i j) e.
(** Every candidate that makes the code pass over the pattern is for the pattern, at most [o] pixels off.  (Without
    anything else in the picture, the candidate of the first row that fits is: with o = m / 13 up to about 12 degrees, C74.) *)
Definition found_within (o m c s ax ay : R) (f : finder_pos) : Prop := exists x y v,
  point_of (fp_location f) (Vec x y) /\ value_of (fp_module_size f) v /\ Rabs (x - ax) <= o /\ Rabs (y - ay) <= o /\ Rabs (v - m / larger c s) <= 5 / 6.
Definition unhidden (o m c s ax ay : R) (cs : list finder_pos) (corner : Z * Z) : Prop :=
  let x := middle_x m c s ax (IZR (fst corner)) (IZR (snd corner)) in let y := middle_y m c s ay (IZR (fst corner)) (IZR (snd corner)) in
  forall f, In f cs -> close_by m c s x y f -> found_within o m c s x y f.

Lemma visible_near g o m c s ax ay cs corner : wf_gray g -> (gw g <= 2 ^ 22)%Z -> (gh g <= 2 ^ 22)%Z -> 18 <= m -> 23 / 5 <= o -> find_candidates g = Ok cs ->
  visible g m c s ax ay corner -> unhidden o m c s ax ay cs corner -> exists f, In f cs /\ near_centre o m c s ax ay (fst corner) (snd corner) f.
Proof.
  intros HW WG HG M O E (HF & j & e & HJ & HE & HS) HU.
  assert (K : exists f, In f cs /\ found_within o m c s (middle_x m c s ax (IZR (fst corner)) (IZR (snd corner))) (middle_y m c s ay (IZR (fst corner)) (IZR (snd corner))) f).
  { destruct (C73_found g m c s _ _ j e cs HW HF M ltac:(lia) ltac:(lia) HJ HE HS E) as (f & IF & [H|H]); exists f; (split; [exact IF|]); [|now apply HU].
    destruct H as (x & y & v & H1 & H2 & H3 & H4 & H5). exists x, y, v. repeat split; try apply H1; try apply H2; lra. }
  destruct K as (f & IF & x & y & v & [VX VY] & VV & X & Y & V). exists f. split; [exact IF|].
  destruct (find_candidates_ok g HW) as (cs' & E' & HC). rewrite E in E'. injection E' as <-.
  unfold cands_ok in HC. rewrite Forall_forall in HC. destruct (HC f IF) as ((v' & FV & _) & x' & y' & FX & FY & BX & BY).
  cbn [vx vy] in VX, VY. pose proof (value_inj _ _ _ FX VX) as ->. pose proof (value_inj _ _ _ FY VY) as ->. pose proof (value_inj _ _ _ FV VV) as ->.
  exists x, y, v. split; [split; [split; assumption|exact FV]|]. split; [|auto].
  assert (W1 : IZR (gw g - 1) <= 4194304) by (apply IZR_le; lia). assert (W2 : IZR (gh g - 1) <= 4194304) by (apply IZR_le; lia). split; cbn [vx vy]; lra.
Qed.

Theorem C78_decoded {D : Type} (dec : decoder D gray (list N)) (img : D) g o m c s ax ay v d text cs rs : usual dec -> d_prepare dec img = Ok g ->
  wf_gray g -> (gw g <= 2 ^ 22)%Z -> (gh g <= 2 ^ 22)%Z -> (1 <= v <= 40)%Z ->
  drawn_at_angle (pixel g) m c s ax ay (side_of v) (fun r c => d c r) -> 23 / 5 <= o ->
  (v = 1%Z /\ 3 / 2 + 11 * o <= m \/ bottom_right_alignment (side_of v) (fun r c => d c r) /\ 11 + 21 * o <= m) -> straight_enough o m c s v -> holds_text v d text ->
  Forall (visible g m c s ax ay) (corners_of v) -> find_candidates g = Ok cs -> Forall (unhidden o m c s ax ay cs) (corners_of v) ->
  decode dec img = Ok rs -> In (inl text) rs.
Proof.
  intros (U1 & U2 & U3) HP HW WG HG HV HD O HM ST HT VI E UN ER.
  assert (M18 : 18 <= m) by (destruct HM as [[_ H]|[_ H]]; lra).
  assert (K : forall corner, In corner (corners_of v) -> exists f, In f cs /\ near_centre o m c s ax ay (fst corner) (snd corner) f).
  { rewrite Forall_forall in VI, UN. intros corner I. apply (visible_near g o m c s ax ay cs corner HW WG HG M18 O E); auto. }
  destruct (K (3, 3)%Z) as (f1 & I1 & N1); [cbn; tauto|]. destruct (K (3, side_of v - 4)%Z) as (f2 & I2 & N2); [cbn; tauto|]. destruct (K (side_of v - 4, 3)%Z) as (f3 & I3 & N3); [cbn; tauto|].
  cbn [fst snd] in N1, N2, N3. apply C39_one_each in ER as (g' & locs & E1 & E2 & F). rewrite HP in E1. injection E1 as <-. rewrite U1 in E2.
  unfold detect in E2. rewrite E in E2. cbn [bind] in E2.
  destruct (C78_read g o m c s ax ay v d text cs f1 f2 f3 locs HW WG HG HV HD M18 HM ST HT I1 I2 I3 N1 N2 N3 E2) as (loc & IL & _ & T).
  destruct (Forall2_in_left _ _ _ _ F IL) as (r & Er & (_ & R)). rewrite U2, U3, T in R. destruct r as [t'|e]; [|discriminate]. injection R as <-. exact Er.
Qed.
