(** From candidates to symbols at any angle: C75, C76. *)
From Coq Require Import NArith ZArith Reals List Lia Lra Bool Psatz.
From Verif.Model Require Import Prepare Detect Extract Pipeline.
From Flocq Require Import Core.
From Verif.Spec Require Import Bits Segments Symbol Layout Bridge Message Encoder Plane Drawing Perspective Angle Slant.
From Verif.Proofs Require Import BaseP FormatP EncodeP PrepareP FloatP ApproxP DetectP GeometryP LocateP CompleteP ExtractP AlignP GridP AngleP.
From Verif.Props Require Import PrepareProps DetectProps DecoderProps PipelineProps ExtractProps WholeProps TurnProps GridProps AngleProps SlantProps.
Import ListNotations.
Local Open Scope R_scope.

(** *** C75: which triples of candidates are taken for a symbol *)
Definition candidate_at (f : finder_pos) (p : vec) (m : R) : Prop := point_at (fp_location f) (vx p) (vy p) /\ fin (fp_module_size f) m.
Definition in_range (p : vec) : Prop := 0 <= vx p <= 2147483648 /\ 0 <= vy p <= 2147483648.
(** a corner of nearly ninety degrees with sides of nearly the same length, and nearly the right length for the
    version whichever of the module sizes is used, which are nearly the same *)
Definition symbol_like (tl tr bl : vec) (sizes : list R) (v : Z) : Prop :=
  let a := norm (minus tr tl) in let b := norm (minus bl tl) in
  0.9501 * (a * b) <= cross (minus tr tl) (minus bl tl) /\ 0.8501 * a <= b /\ 0.8501 * b <= a /\
  (forall m, In m sizes -> 1 <= m <= 1073741824 /\ Rabs (a / m - IZR (4 * v + 10)) <= 1.999 /\ Rabs (b / m - IZR (4 * v + 10)) <= 1.999) /\
  (forall m m', In m sizes -> In m' sizes -> 0.9001 * m <= m').

Theorem C75_located cs locs f1 f2 f3 tl tr bl m1 m2 m3 v : In f1 cs -> In f2 cs -> In f3 cs ->
  candidate_at f1 tl m1 -> candidate_at f2 tr m2 -> candidate_at f3 bl m3 -> in_range tl -> in_range tr -> in_range bl ->
  (1 <= v <= 100000)%Z -> symbol_like tl tr bl [m1; m2; m3] v -> find_locations cs = Ok locs ->
  exists loc, In loc locs /\ top_left loc = fp_location f1 /\ top_right loc = fp_location f2 /\ bottom_left loc = fp_location f3 /\
    version loc = v /\ In (module_size loc) [fp_module_size f1; fp_module_size f2; fp_module_size f3].
Proof.
  intros I1 I2 I3 [P1 F1] [P2 F2] [P3 F3] B1 B2 B3 HV (RA & AB & BA & SZ & AL) E.
  assert (HS : forall ms m, fin ms m -> In m [m1; m2; m3] -> has_size ms m (norm (minus tr tl)) (norm (minus bl tl)) v).
  { intros ms m F I. destruct (SZ m I) as (K1 & K2 & K3). repeat split; tauto || assumption. }
  destruct (locations_complete cs locs f1 f2 f3 tl tr bl m1 m2 m3 v) as (ms & IM & IL); auto.
  - apply HS; auto. cbn. tauto.
  - apply HS; auto. cbn. tauto.
  - apply HS; auto. cbn. tauto.
  - eexists. split; [exact IL|]. cbn [top_left top_right bottom_left version module_size]. auto.
Qed.

Definition sample_candidates : list finder_pos :=
  [FP (Pt (of_Z 500) (of_Z 90)) (of_Z 10) (of_Z 0); FP (Pt (of_Z 100) (of_Z 230)) (of_Z 10) (of_Z 0); FP (Pt (of_Z 240) (of_Z 235)) (of_Z 10) (of_Z 0);
   FP (Pt (of_Z 104) (of_Z 88)) (of_Z 11) (of_Z 0)].
Lemma norm_between x y a b : 0 <= a -> 0 <= b -> a * a <= x * x + y * y <= b * b -> a <= norm (Vec x y) <= b.
Proof.
  intros A B [H1 H2]. unfold norm. cbn [vx vy]. split; [rewrite <- (sqrt_square a) by exact A|rewrite <- (sqrt_square b) by exact B]; apply sqrt_le_1_alt; assumption.
Qed.
Lemma quotient_near a b l h x e : 0 < b -> 0 <= e -> l <= a <= h -> (x - e) * b <= l -> h <= (x + e) * b -> Rabs (a / b - x) <= e.
Proof.
  intros B E [H1 H2] L1 L2. apply Rabs_le. split; apply Rmult_le_reg_r with b; try exact B; replace ((a / b - x) * b) with (a - x * b) by (field; lra); lra.
Qed.
(** the second, the fourth and the third make a symbol of version 1 *)
Example C75_example : exists locs loc, find_locations sample_candidates = Ok locs /\ In loc locs /\ version loc = 1%Z /\ top_left loc = Pt (of_Z 100) (of_Z 230).
Proof.
  assert (E : exists locs, find_locations sample_candidates = Ok locs) by (eexists; vm_compute; reflexivity). destruct E as (locs & E).
  assert (K : forall x y, (0 <= x <= 1000)%Z -> (0 <= y <= 1000)%Z -> point_at (Pt (of_Z x) (of_Z y)) (IZR x) (IZR y)) by (intros x y Hx Hy; split; apply fin_of_Z; lia).
  destruct (C75_located sample_candidates locs (FP (Pt (of_Z 100) (of_Z 230)) (of_Z 10) (of_Z 0)) (FP (Pt (of_Z 104) (of_Z 88)) (of_Z 11) (of_Z 0)) (FP (Pt (of_Z 240) (of_Z 235)) (of_Z 10) (of_Z 0))
     (Vec 100 230) (Vec 104 88) (Vec 240 235) 10 11 10 1) as (loc & IL & TL & _ & _ & VE & _); auto.
  - cbn; tauto.
  - cbn; tauto.
  - cbn; tauto.
  - split; [apply K; lia|apply fin_of_Z; lia].
  - split; [apply K; lia|apply fin_of_Z; lia].
  - split; [apply K; lia|apply fin_of_Z; lia].
  - split; cbn [vx vy]; lra.
  - split; cbn [vx vy]; lra.
  - split; cbn [vx vy]; lra.
  - lia.
  - pose proof (norm_between (104 - 100) (88 - 230) 142 142.1 ltac:(lra) ltac:(lra) ltac:(lra)) as NA. pose proof (norm_between (240 - 100) (235 - 230) 140 140.1 ltac:(lra) ltac:(lra) ltac:(lra)) as NB.
    unfold symbol_like, cross, minus. cbn [vx vy]. set (a := norm (Vec (104 - 100) (88 - 230))) in *. set (b := norm (Vec (240 - 100) (235 - 230))) in *. clearbody a b.
    split; [assert (a * b <= 142.1 * 140.1) by (apply Rmult_le_compat; lra); lra|]. split; [lra|]. split; [lra|]. split.
    + change (IZR (4 * 1 + 10)) with 14. intros m I. assert (m = 10 \/ m = 11) as [->| ->] by (cbn in I; destruct I as [<-|[<-|[<-|[]]]]; auto).
      * split; [lra|]. split; [apply (quotient_near a 10 142 142.1)|apply (quotient_near b 10 140 140.1)]; lra.
      * split; [lra|]. split; [apply (quotient_near a 11 142 142.1)|apply (quotient_near b 11 140 140.1)]; lra.
    + intros m m' I I'. assert (10 <= m <= 11) by (cbn in I; destruct I as [<-|[<-|[<-|[]]]]; lra). assert (10 <= m') by (cbn in I'; destruct I' as [<-|[<-|[<-|[]]]]; lra). lra.
  - exists locs, loc. rewrite TL. auto.
Qed.

(** *** C76: the version of a turned symbol *)
Definition centre_of (m c s ax ay : R) (row column : Z) : vec := Vec (middle_x m c s ax (IZR row) (IZR column)) (middle_y m c s ay (IZR row) (IZR column)).
(** candidates at the centres of the finder patterns, with the module size measured along rows and columns *)
Definition exactly_at (m c s ax ay : R) (row column : Z) (f : finder_pos) : Prop :=
  candidate_at f (centre_of m c s ax ay row column) (m / larger c s) /\ in_range (centre_of m c s ax ay row column).
Definition C76_statement : Prop := forall m c s ax ay v f1 f2 f3 locs, c * c + s * s = 1 -> 18 <= m <= 1048576 -> (1 <= v <= 40)%Z ->
  exactly_at m c s ax ay 3 3 f1 -> exactly_at m c s ax ay 3 (side_of v - 4) f2 -> exactly_at m c s ax ay (side_of v - 4) 3 f3 ->
  find_locations [f1; f2; f3] = Ok locs -> exists loc, In loc locs /\ version loc = v.

Theorem C76_refuted : ~ C76_statement.
Proof.
  intros H. set (ms := fdiv (fadd (of_Z 62) (of_Z 63)) (of_Z 2)).
  assert (FM : fin ms (50 / larger (4 / 5) (3 / 5))).
  { rewrite larger_45. replace (50 / (4 / 5)) with (IZR (62 + 63) / 2) by (change (IZR (62 + 63)) with 125; lra). apply average2; lia. }
  assert (K : forall row column x y, (0 <= x <= 2000)%Z -> (0 <= y <= 2000)%Z -> middle_x 50 (4 / 5) (3 / 5) 770 (IZR row) (IZR column) = IZR x ->
    middle_y 50 (4 / 5) (3 / 5) 190 (IZR row) (IZR column) = IZR y -> exactly_at 50 (4 / 5) (3 / 5) 770 190 row column (FP (Pt (of_Z x) (of_Z y)) ms (of_Z 0))).
  { intros row column x y Hx Hy EX EY. unfold exactly_at, candidate_at, in_range, centre_of, point_at. cbn [fp_location fp_module_size px py vx vy]. rewrite EX, EY.
    assert (0 <= IZR x <= 2000) by (split; apply IZR_le; lia). assert (0 <= IZR y <= 2000) by (split; apply IZR_le; lia).
    repeat split; try lra; try exact FM; apply fin_of_Z; lia. }
  destruct (H 50 (4 / 5) (3 / 5) 770 190 1%Z (FP (Pt (of_Z 800) (of_Z 400)) ms (of_Z 0)) (FP (Pt (of_Z 1360) (of_Z 820)) ms (of_Z 0)) (FP (Pt (of_Z 380) (of_Z 960)) ms (of_Z 0)) [])
    as (loc & [] & _).
  - lra.
  - lra.
  - lia.
  - apply K; [lia|lia|unfold middle_x; lra|unfold middle_y; lra].
  - apply K; [lia|lia|unfold middle_x; change (side_of 1 - 4)%Z with 17%Z; lra|unfold middle_y; change (side_of 1 - 4)%Z with 17%Z; lra].
  - apply K; [lia|lia|unfold middle_x; change (side_of 1 - 4)%Z with 17%Z; lra|unfold middle_y; change (side_of 1 - 4)%Z with 17%Z; lra].
  - vm_compute. reflexivity.
Qed.

(** candidates near the centres, at most [o] pixels off across and down *)
Definition near_centre (o m c s ax ay : R) (row column : Z) (f : finder_pos) : Prop := exists x y v,
  candidate_at f (Vec x y) v /\ in_range (Vec x y) /\ Rabs (x - middle_x m c s ax (IZR row) (IZR column)) <= o /\
  Rabs (y - middle_y m c s ay (IZR row) (IZR column)) <= o /\ Rabs (v - m / larger c s) <= 5 / 6.
(** the modules seem to be larger than they are by a factor of 1 / larger c s: for the 14 modules between the centres of
    version 1 the angle may be up to 30 degrees if m is large, for the 170 of version 40 up to 8 *)
Definition straight_enough (o m c s : R) (v : Z) : Prop := IZR (4 * v + 10) * (m * (1 - larger c s) + 5 / 6) + 2 + 3 * o <= 1.999 * m.

Lemma lean c s x y h : c * c + s * s = 1 -> 0 <= h -> x * x + y * y <= h * h -> - h <= c * x + s * y <= h.
Proof.
  intros U H0 H.
  assert (K : (c * x + s * y) * (c * x + s * y) + (c * y - s * x) * (c * y - s * x) = (c * c + s * s) * (x * x + y * y)) by ring.
  rewrite U in K. pose proof (Rle_0_sqr (c * y - s * x)) as S. unfold Rsqr in S. set (t := c * x + s * y) in *. set (r := (c * y - s * x) * (c * y - s * x)) in *. clearbody t r.
  assert (T : t * t <= h * h) by lra. clear - T H0. split; nra.
Qed.
Lemma stretched P c s x y h : c * c + s * s = 1 -> 0 <= h <= P -> x * x + y * y <= h * h -> P - h <= norm (Vec (P * c + x) (P * s + y)) <= P + h.
Proof.
  intros U [H0 HP] H. pose proof (lean c s x y h U H0 H) as T.
  assert (K : (c * x + s * y) * (c * x + s * y) + (c * y - s * x) * (c * y - s * x) = (c * c + s * s) * (x * x + y * y)) by ring.
  rewrite U in K. pose proof (Rle_0_sqr (c * y - s * x)) as S. unfold Rsqr in S.
  apply norm_between; try lra.
  replace ((P * c + x) * (P * c + x) + (P * s + y) * (P * s + y)) with (P * P * (c * c + s * s) + 2 * (P * (c * x + s * y)) + (x * x + y * y)) by ring. rewrite U.
  set (t := c * x + s * y) in *. set (r := (c * y - s * x) * (c * y - s * x)) in *. set (q := x * x + y * y) in *. clearbody t r q. clear - T K S H0 HP H.
  assert (0 <= (t + h) * (2 * P + t - h)) by (apply Rmult_le_pos; lra). assert (0 <= P * (h - t)) by (apply Rmult_le_pos; lra). split; lra.
Qed.

Lemma cauchy a b c d h : a * a + b * b <= h -> c * c + d * d <= h -> - h <= a * c + b * d <= h.
Proof.
  intros A B. pose proof (Rle_0_sqr (a - c)). pose proof (Rle_0_sqr (a + c)). pose proof (Rle_0_sqr (b - d)). pose proof (Rle_0_sqr (b + d)). unfold Rsqr in *. lra.
Qed.
Lemma larger_bounds c s : c * c + s * s = 1 -> 0.7 <= larger c s <= 1.
Proof.
  intros U. unfold larger. pose proof (Rmax_l (Rabs c) (Rabs s)) as L1. pose proof (Rmax_r (Rabs c) (Rabs s)) as L2.
  assert (C : c * c = Rabs c * Rabs c) by (rewrite <- Rabs_mult, Rabs_pos_eq; [reflexivity|apply Rle_0_sqr]).
  assert (S : s * s = Rabs s * Rabs s) by (rewrite <- Rabs_mult, Rabs_pos_eq; [reflexivity|apply Rle_0_sqr]).
  pose proof (Rabs_pos c). pose proof (Rabs_pos s). rewrite C, S in U. set (p := Rabs c) in *. set (q := Rabs s) in *. clearbody p q. clear C S.
  split; [|apply Rmax_lub; nra]. set (k := Rmax p q) in *. clearbody k. nra.
Qed.

Lemma near_like o m c s ax ay v f1 f2 f3 : c * c + s * s = 1 -> 18 <= m <= 67108864 -> 4 * o <= m -> (1 <= v <= 40)%Z -> straight_enough o m c s v ->
  near_centre o m c s ax ay 3 3 f1 -> near_centre o m c s ax ay 3 (side_of v - 4) f2 -> near_centre o m c s ax ay (side_of v - 4) 3 f3 ->
  exists tl tr bl m1 m2 m3, candidate_at f1 tl m1 /\ candidate_at f2 tr m2 /\ candidate_at f3 bl m3 /\ in_range tl /\ in_range tr /\ in_range bl /\
    symbol_like tl tr bl [m1; m2; m3] v.
Proof.
  intros U HM OM HV ST (x1 & y1 & m1 & C1 & R1 & X1 & Y1 & S1) (x2 & y2 & m2 & C2 & R2 & X2 & Y2 & S2) (x3 & y3 & m3 & C3 & R3 & X3 & Y3 & S3).
  exists (Vec x1 y1), (Vec x2 y2), (Vec x3 y3), m1, m2, m3. do 6 (split; [assumption|]).
  unfold symbol_like. unfold straight_enough in ST. assert (EN : IZR (side_of v - 4) = IZR (4 * v + 10) + 3) by (rewrite <- plus_IZR; f_equal; unfold side_of; lia).
  assert (NB : 14 <= IZR (4 * v + 10) <= 170) by (split; apply IZR_le; lia). unfold middle_x, middle_y in *. rewrite EN in *. change (IZR 3) with 3 in *.
  set (N := IZR (4 * v + 10)) in *. clearbody N. clear EN C1 C2 C3 R1 R2 R3 HV.
  pose proof (larger_bounds c s U) as LB. set (L := larger c s) in *.
  assert (HMV : m / L * L = m) by (field; lra). set (M := m / L) in *. clearbody M L.
  assert (ML : m <= M) by (rewrite <- HMV; assert (0 < M) by (apply Rmult_lt_reg_r with L; lra); assert (0 <= M * (1 - L)) by (apply Rmult_le_pos; lra); lra).
  assert (MU : M <= 100000000) by (apply Rmult_le_reg_r with L; lra).
  assert (O : 0 <= o) by (pose proof (Rabs_pos (x1 - (ax + m * (c * 3 - s * 3)))); lra).
  apply Rabs_le_inv in X1, Y1, X2, Y2, X3, Y3, S1, S2, S3.
  set (P := N * m). assert (P0 : 252 <= P) by (unfold P; replace 252 with (14 * 18) by ring; apply Rmult_le_compat; lra). assert (PH : 14 * m <= P) by (unfold P; apply Rmult_le_compat_r; lra).
  pose (ex2 := x2 - x1 - P * c). pose (ey2 := y2 - y1 - P * s). pose (ex3 := x3 - x1 + P * s). pose (ey3 := y3 - y1 - P * c).
  set (h := 2.83 * o). assert (H0 : 0 <= h) by (unfold h; lra). assert (HP : 19 * h <= P) by (unfold h; lra).
  assert (SQ : forall a b, - (2 * o) <= a <= 2 * o -> - (2 * o) <= b <= 2 * o -> a * a + b * b <= h * h).
  { clear - O. intros a b A B. assert (a * a <= 2 * o * (2 * o)) by nra. assert (b * b <= 2 * o * (2 * o)) by nra. unfold h. assert (0 <= o * o) by nra. lra. }
  assert (Q2 : ex2 * ex2 + ey2 * ey2 <= h * h) by (apply SQ; unfold ex2, ey2, P; lra).
  assert (Q3 : ex3 * ex3 + ey3 * ey3 <= h * h) by (apply SQ; unfold ex3, ey3, P; lra).
  assert (E2 : minus (Vec x2 y2) (Vec x1 y1) = Vec (P * c + ex2) (P * s + ey2)) by (unfold minus, ex2, ey2; cbn [vx vy]; f_equal; ring).
  assert (E3 : minus (Vec x3 y3) (Vec x1 y1) = Vec (P * - s + ex3) (P * c + ey3)) by (unfold minus, ex3, ey3; cbn [vx vy]; f_equal; ring).
  assert (U' : - s * - s + c * c = 1) by lra.
  pose proof (stretched P c s ex2 ey2 h U ltac:(lra) Q2) as A1. pose proof (stretched P (- s) c ex3 ey3 h U' ltac:(lra) Q3) as B1.
  rewrite E2, E3. clearbody ex2 ey2 ex3 ey3.
  pose proof (dot_cross (Vec (P * c + ex2) (P * s + ey2)) (Vec (P * - s + ex3) (P * c + ey3))) as DC.
  set (A := norm (Vec (P * c + ex2) (P * s + ey2))) in *. set (B := norm (Vec (P * - s + ex3) (P * c + ey3))) in *. 
  unfold dot, cross in *. cbn [vx vy] in *.
  pose proof (lean c s ex3 ey3 h U ltac:(lra) Q3) as T1. pose proof (lean (- s) c ex2 ey2 h U' ltac:(lra) Q2) as T2.
  pose proof (lean (- s) c ex3 ey3 h U' ltac:(lra) Q3) as T3. pose proof (lean c s ex2 ey2 h U ltac:(lra) Q2) as T4.
  assert (T5 : - (h * h) <= ex2 * ex3 + ey2 * ey3 <= h * h) by (apply cauchy; [lra|lra]).
  assert (T6 : - (h * h) <= ex2 * ey3 - ey2 * ex3 <= h * h) by (replace (ex2 * ey3 - ey2 * ex3) with (ex2 * ey3 + ey2 * - ex3) by ring; apply cauchy; lra).
  assert (ED : (P * c + ex2) * (P * - s + ex3) + (P * s + ey2) * (P * c + ey3) = P * (c * ex3 + s * ey3) + P * (- s * ex2 + c * ey2) + (ex2 * ex3 + ey2 * ey3)) by ring.
  assert (EC : (P * c + ex2) * (P * c + ey3) - (P * s + ey2) * (P * - s + ex3) =
     P * P * (c * c + s * s) + P * (- s * ex3 + c * ey3) + P * (c * ex2 + s * ey2) + (ex2 * ey3 - ey2 * ex3)) by ring. rewrite U in EC.
  set (D := (P * c + ex2) * (P * - s + ex3) + (P * s + ey2) * (P * c + ey3)) in *. set (X := (P * c + ex2) * (P * c + ey3) - (P * s + ey2) * (P * - s + ex3)) in *.
  assert (PM : forall t w, - w <= t <= w -> - (P * w) <= P * t <= P * w) by (intros t w Ht; assert (0 <= P * (w - t)) by (apply Rmult_le_pos; lra); assert (0 <= P * (w + t)) by (apply Rmult_le_pos; lra); lra).
  pose proof (PM _ _ T1) as PT1. pose proof (PM _ _ T2) as PT2. pose proof (PM _ _ T3) as PT3. pose proof (PM _ _ T4) as PT4.
  assert (HH : 19 * (h * h) <= P * h /\ 19 * (P * h) <= P * P).
  { clear - H0 HP P0. split; [assert (0 <= h * (P - 19 * h)) by (apply Rmult_le_pos; lra)|assert (0 <= P * (P - 19 * h)) by (apply Rmult_le_pos; lra)]; lra. }
  assert (PP : 0 < P * P) by (apply Rmult_lt_0_compat; lra).
  assert (DB : - (0.11 * (P * P)) <= D <= 0.11 * (P * P)) by lra.
  assert (XP : 0 < X) by lra.
  assert (AB : (P - h) * (P - h) <= A * B) by (apply Rmult_le_compat; lra).
  assert (ABP : 0.89 * (P * P) <= A * B) by lra.
  clearbody D X A B. 
  split.
  { apply Rsqr_incr_0_var; [|lra]. unfold Rsqr. replace ((A * A) * (B * B)) with ((A * B) * (A * B)) in DC by ring.
    assert (DD : D * D <= (0.11 * (P * P)) * (0.11 * (P * P))) by (clear - DB; nra). assert (Q : (0.89 * (P * P)) * (0.89 * (P * P)) <= (A * B) * (A * B)) by (apply Rmult_le_compat; lra).
    set (AB2 := (A * B) * (A * B)) in *. replace (0.9501 * (A * B) * (0.9501 * (A * B))) with (0.9501 * 0.9501 * AB2) by (unfold AB2; ring). clearbody AB2. clear - DC DD Q PP. assert (0 < P * P * (P * P)) by (apply Rmult_lt_0_compat; lra). clearbody P. lra. }
  split; [lra|]. split; [lra|].
  assert (SZ : forall k, In k [m1; m2; m3] -> M - 5 / 6 <= k <= M + 5 / 6) by (intros k I; cbn in I; destruct I as [<-|[<-|[<-|[]]]]; lra).
  split.
  - intros k I. pose proof (SZ k I) as K. split; [lra|].
    assert (K1 : (N - 1.999) * k <= P - h).
    { apply Rle_trans with ((N - 1.999) * (M + 5 / 6)); [apply Rmult_le_compat_l; lra|]. apply Rmult_le_reg_r with L; [lra|].
      replace ((N - 1.999) * (M + 5 / 6) * L) with ((N - 1.999) * (M * L) + 5 / 6 * ((N - 1.999) * L)) by ring. rewrite HMV.
      assert ((N - 1.999) * L <= N - 1.999) by (rewrite <- (Rmult_1_r (N - 1.999)) at 2; apply Rmult_le_compat_l; lra). assert (o * L <= o) by (rewrite <- (Rmult_1_r o) at 2; apply Rmult_le_compat_l; lra). unfold P, h. lra. }
    assert (K2 : P + h <= (N + 1.999) * k).
    { apply Rle_trans with ((N + 1.999) * (m - 5 / 6)); [|apply Rmult_le_compat_l; lra]. unfold P, h. assert (0 <= N * (m * (1 - L))) by (apply Rmult_le_pos; [lra|apply Rmult_le_pos; lra]). lra. }
    split; [apply (quotient_near A k (P - h) (P + h))|apply (quotient_near B k (P - h) (P + h))]; lra.
  - intros k k' I I'. pose proof (SZ k I). pose proof (SZ k' I'). lra.
Qed.

(** What holds: the version is right if the symbol is not turned too far for its size, also if the centres and the
    sizes are only approximate.  Missing from the full statement: the other angles. *)
Theorem C76_partial cs o m c s ax ay v f1 f2 f3 locs : c * c + s * s = 1 -> 18 <= m <= 67108864 -> 4 * o <= m -> (1 <= v <= 40)%Z -> straight_enough o m c s v ->
  In f1 cs -> In f2 cs -> In f3 cs ->
  near_centre o m c s ax ay 3 3 f1 -> near_centre o m c s ax ay 3 (side_of v - 4) f2 -> near_centre o m c s ax ay (side_of v - 4) 3 f3 ->
  find_locations cs = Ok locs ->
  exists loc, In loc locs /\ top_left loc = fp_location f1 /\ top_right loc = fp_location f2 /\ bottom_left loc = fp_location f3 /\ version loc = v.
Proof.
  intros U HM OM HV ST I1 I2 I3 N1 N2 N3 E. destruct (near_like o m c s ax ay v f1 f2 f3 U HM OM HV ST N1 N2 N3) as (tl & tr & bl & m1 & m2 & m3 & C1 & C2 & C3 & R1 & R2 & R3 & SL).
  destruct (C75_located cs locs f1 f2 f3 tl tr bl m1 m2 m3 v) as (loc & IL & K1 & K2 & K3 & K4 & _); auto; [lia|]. exists loc. auto.
Qed.

Lemma near_Z o m c s ax ay row column x y z t : (0 <= x <= 1000000)%Z -> (0 <= y <= 1000000)%Z -> (0 <= z <= 1000000)%Z ->
  Rabs (IZR x - middle_x m c s ax (IZR row) (IZR column)) <= o -> Rabs (IZR y - middle_y m c s ay (IZR row) (IZR column)) <= o -> Rabs (IZR z - m / larger c s) <= 5 / 6 ->
  near_centre o m c s ax ay row column (FP (Pt (of_Z x) (of_Z y)) (of_Z z) t).
Proof.
  intros Hx Hy Hz A B C. exists (IZR x), (IZR y), (IZR z). assert (0 <= IZR x <= 1000000) by (split; apply IZR_le; lia). assert (0 <= IZR y <= 1000000) by (split; apply IZR_le; lia).
  split; [split; [split; apply fin_of_Z; lia|apply fin_of_Z; lia]|]. split; [split; cbn [vx vy]; lra|]. auto.
Qed.
Lemma larger_1213 : larger (12 / 13) (5 / 13) = 12 / 13.
Proof. unfold larger. rewrite !Rabs_pos_eq by lra. apply Rmax_left. lra. Qed.
(** a version-2 symbol leaning by 22.6 degrees, with candidates a few pixels off *)
Example C76_example : exists locs loc, find_locations [FP (Pt (of_Z 702) (of_Z 358)) (of_Z 70) (of_Z 0); FP (Pt (of_Z 1788) (of_Z 804)) (of_Z 71) (of_Z 0);
    FP (Pt (of_Z 255) (of_Z 1432)) (of_Z 70) (of_Z 0)] = Ok locs /\ In loc locs /\ version loc = 2%Z.
Proof.
  match goal with |- exists locs loc, ?a = Ok locs /\ _ => assert (E : exists locs, a = Ok locs) by (eexists; vm_compute; reflexivity) end. destruct E as (locs & E).
  pose proof E as (loc & IL & _ & _ & _ & H)%(C76_partial _ 4 65 (12 / 13) (5 / 13) 600 100 2 (FP (Pt (of_Z 702) (of_Z 358)) (of_Z 70) (of_Z 0))
    (FP (Pt (of_Z 1788) (of_Z 804)) (of_Z 71) (of_Z 0)) (FP (Pt (of_Z 255) (of_Z 1432)) (of_Z 70) (of_Z 0))).
  - exists locs, loc. auto.
  - lra.
  - lra.
  - lra.
  - lia.
  - unfold straight_enough. rewrite larger_1213. change (IZR (4 * 2 + 10)) with 18. lra.
  - cbn. tauto.
  - cbn. tauto.
  - cbn. tauto.
  - apply near_Z; try lia; rewrite ?larger_1213; unfold middle_x, middle_y; apply Rabs_le; lra.
  - change (side_of 2 - 4)%Z with 21%Z. apply near_Z; try lia; rewrite ?larger_1213; unfold middle_x, middle_y; apply Rabs_le; lra.
  - change (side_of 2 - 4)%Z with 21%Z. apply near_Z; try lia; rewrite ?larger_1213; unfold middle_x, middle_y; apply Rabs_le; lra.
Qed.
