(** Upright symbols of any size are read: C84. *)
From Coq Require Import NArith ZArith Reals List Lia Lra Bool Psatz.
From Verif.Model Require Import Prepare Detect Extract Pipeline.
From Flocq Require Import Core.
From Verif.Spec Require Import Bits Segments Symbol Layout Bridge Message Encoder Plane Drawing Perspective Angle Slant.
From Verif.Proofs Require Import BaseP FormatP EncodeP PrepareP FloatP ApproxP DetectP GeometryP LocateP CompleteP ExtractP AlignP GridP AngleP.
From Verif.Props Require Import PrepareProps DetectProps DecoderProps PipelineProps ExtractProps WholeProps TurnProps GridProps AngleProps SlantProps TiltProps InexactProps StraightProps.
Import ListNotations.
Local Open Scope R_scope.

(** the run of dark pixels around [x] is centred at the middle, to half a pixel *)
Lemma run_middle (white : Z -> Prop) (w x l r : Z) (mid h : R) : 1 <= h -> - h <= IZR x - mid < h ->
  (forall z, - h <= IZR z - mid < h -> (0 <= z < w)%Z /\ ~ white z) ->
  (forall z, - h - 1 <= IZR z - mid < - h \/ h <= IZR z - mid < h + 1 -> (0 <= z < w)%Z /\ white z) ->
  run_between white w x l r -> - / 2 <= IZR (l + r) / 2 - mid <= / 2.
Proof.
  intros H X DK WH [[L1 L2] [R1 R2]].
  set (zl := (Zceil (mid - h) - 1)%Z). set (zr := Zceil (mid + h)).
  pose proof (Zceil_ub (mid - h)) as U1. pose proof (Zceil_lb (mid - h)) as U2. pose proof (Zceil_ub (mid + h)) as U3. pose proof (Zceil_lb (mid + h)) as U4. fold zr in U3, U4.
  assert (ZL : IZR zl = IZR (Zceil (mid - h)) - 1) by (unfold zl; now rewrite minus_IZR).
  destruct (WH zl) as [I1 W1]; [left; lra|]. destruct (WH zr) as [I2 W2]; [right; lra|].
  assert (A1 : (zl < x)%Z) by (apply lt_IZR; lra). assert (A2 : (x < zr)%Z) by (apply lt_IZR; lra).
  assert (DZ : forall z, (zl < z < zr)%Z -> ~ white z).
  { intros z [Z1 Z2]. apply DK. assert (IZR zl + 1 <= IZR z) by (rewrite <- plus_IZR; apply IZR_le; lia). assert (IZR z + 1 <= IZR zr) by (rewrite <- plus_IZR; apply IZR_le; lia). lra. }
  assert (EL : l = zl).
  { destruct (Z.lt_trichotomy l zl) as [L|[L|L]]; [|exact L|]; exfalso.
    - apply (L2 zl); [lia|exact W1].
    - destruct L1 as [[L1 L3]|[L1 L3]]; [apply (DZ l); [lia|exact L3]|lia]. }
  assert (ER : r = zr).
  { destruct (Z.lt_trichotomy r zr) as [L|[L|L]]; [|exact L|]; exfalso.
    - destruct R1 as [[L1' L3]|L1']; [apply (DZ r); [lia|exact L3]|lia].
    - apply (R2 zr); [lia|exact W2]. }
  rewrite EL, ER, plus_IZR. lra.
Qed.

Section Near.
Context (g : gray) (m ax ay : R) (n : Z) (dark : Z -> Z -> bool) (HD : drawn_at_angle (pixel g) m 1 0 ax ay n dark).
Notation mx := (middle_x m 1 0 ax).
Notation my := (middle_y m 1 0 ay).

Lemma upright_in row column x y : Rabs (x - mx (IZR row) (IZR column)) < m / 2 -> Rabs (y - my (IZR row) (IZR column)) < m / 2 -> in_module m 1 0 ax ay row column x y.
Proof. intros A B. apply Rabs_def2 in A, B. unfold in_module, middle_x, middle_y in *. lra. Qed.

Lemma upright_near row column x y a b : (0 <= row < n)%Z -> (0 <= column < n)%Z ->
  Rabs (x - mx (IZR row) (IZR column)) <= a -> Rabs (y - my (IZR row) (IZR column)) <= b -> a + 33 / 64 < m / 2 -> b + 33 / 64 < m / 2 ->
  (- / 2 <= x < IZR (gw g) + / 2) /\ (- / 2 <= y < IZR (gh g) + / 2) /\ clearly (pixel g) x y (colour (dark row column)).
Proof.
  intros Hr Hc A B HA HB. apply Rabs_le_inv in A, B.
  assert (NR : forall z, exists k, IZR k - / 2 <= z < IZR k + / 2).
  { intros z. exists (Zfloor (z + / 2)). pose proof (Zfloor_lb (z + / 2)). pose proof (Zfloor_ub (z + / 2)). lra. }
  destruct (NR x) as (i & HI). destruct (NR y) as (j & HJ).
  assert (K : forall i j, Rabs (IZR i - x) <= 33 / 64 -> Rabs (IZR j - y) <= 33 / 64 -> in_module m 1 0 ax ay row column (IZR i) (IZR j)).
  { intros i' j' HI' HJ'. apply Rabs_le_inv in HI', HJ'. apply upright_in; apply Rabs_def1; lra. }
  destruct (pixel_in g n dark m 1 0 ax ay HD row column i j Hr Hc) as (I & J & _); [apply K; apply Rabs_le; lra|].
  assert (0 <= IZR i <= IZR (gw g) - 1) by (split; [apply IZR_le; lia|]; rewrite <- minus_IZR; apply IZR_le; lia).
  assert (0 <= IZR j <= IZR (gh g) - 1) by (split; [apply IZR_le; lia|]; rewrite <- minus_IZR; apply IZR_le; lia).
  split; [lra|]. split; [lra|]. intros i' j' I' J' [P1 P2]. apply IZR_le in I', J'.
  assert (X : forall k z, 0 <= IZR k -> - / 2 <= z -> Rabs (IZR k - Rmax 0 z) <= / 2 + / 64 -> Rabs (IZR k - z) <= 33 / 64).
  { intros k z K0 Z0 KZ. unfold Rmax in KZ. destruct (Rle_dec 0 z) as [L|L]; [replace (33 / 64) with (/ 2 + / 64) by lra; exact KZ|].
    apply Rabs_le_inv in KZ. assert (k < 1)%Z by (apply lt_IZR; lra). assert (0 <= k)%Z by (apply le_IZR; lra). replace k with 0%Z by lia. apply Rabs_le. lra. }
  apply (pixel_in g n dark m 1 0 ax ay HD row column i' j' Hr Hc). apply K; apply X; auto; lra.
Qed.

Lemma upright_positive row column x y a b : (0 <= row < n)%Z -> (0 <= column < n)%Z ->
  Rabs (x - mx (IZR row) (IZR column)) <= a -> Rabs (y - my (IZR row) (IZR column)) <= b -> a + 65 / 64 < m / 2 -> b + 65 / 64 < m / 2 ->
  / 64 <= x <= IZR (gw g) /\ / 64 <= y <= IZR (gh g).
Proof.
  intros Hr Hc A B H1 H2. apply Rabs_le_inv in A, B.
  assert (LO : forall z, exists k, IZR k < z /\ z - 65 / 64 <= IZR k /\ (z < / 64 -> (k < 0)%Z)).
  { intros z. exists (Zfloor (z - / 64)). pose proof (Zfloor_lb (z - / 64)). pose proof (Zfloor_ub (z - / 64)). split; [lra|]. split; [lra|].
    intros N. apply lt_IZR. lra. }
  assert (HI : forall z, exists k, z <= IZR k + 1 /\ IZR k <= z) by (intros z; exists (Zfloor z); pose proof (Zfloor_lb z); pose proof (Zfloor_ub z); lra).
  destruct (LO x) as (i & I1 & I2 & I3). destruct (LO y) as (j & J1 & J2 & J3). destruct (HI x) as (i' & I4 & I5). destruct (HI y) as (j' & J4 & J5).
  destruct (pixel_in g n dark m 1 0 ax ay HD row column i j Hr Hc) as (P1 & P2 & _); [apply upright_in; apply Rabs_def1; lra|].
  destruct (pixel_in g n dark m 1 0 ax ay HD row column i' j' Hr Hc) as (P3 & P4 & _); [apply upright_in; apply Rabs_def1; lra|].
  assert (IZR i' <= IZR (gw g) - 1) by (rewrite <- minus_IZR; apply IZR_le; lia). assert (IZR j' <= IZR (gh g) - 1) by (rewrite <- minus_IZR; apply IZR_le; lia).
  split; (split; [|lra]).
  - destruct (Rle_lt_dec (/ 64) x) as [L|L]; [exact L|]. specialize (I3 L). lia.
  - destruct (Rle_lt_dec (/ 64) y) as [L|L]; [exact L|]. specialize (J3 L). lia.
Qed.

Context (HN : (25 <= n <= 177)%Z) (HA : bottom_right_alignment n dark) (M2 : 3 <= m).
Notation cx := (mx (IZR (n - 7)) (IZR (n - 7))).
Notation cy := (my (IZR (n - 7)) (IZR (n - 7))).

Lemma middle_dark i j : - (m / 2) <= IZR i - cx < m / 2 -> - (m / 2) <= IZR j - cy < m / 2 -> (0 <= i < gw g)%Z /\ (0 <= j < gh g)%Z /\ pixel g i j = Some 0%N.
Proof. intros A B. apply (centre_dark g n dark m 1 0 ax ay HD HN HA). unfold sq'. lra. Qed.
Lemma around_light i j : - (m / 2) - 1 <= IZR i - cx < m / 2 + 1 -> - (m / 2) - 1 <= IZR j - cy < m / 2 + 1 ->
  ~ (- (m / 2) <= IZR i - cx < m / 2 /\ - (m / 2) <= IZR j - cy < m / 2) -> - (m / 2) <= IZR i - cx < m / 2 \/ - (m / 2) <= IZR j - cy < m / 2 ->
  (0 <= i < gw g)%Z /\ (0 <= j < gh g)%Z /\ pixel g i j = Some 255%N.
Proof.
  intros A B N O.
  assert (F : forall z, - (m / 2) - 1 <= z < m / 2 + 1 -> exists k, (-1 <= k <= 1)%Z /\ m * (IZR k - / 2) <= z < m * (IZR k + / 2) /\ (k = 0%Z -> - (m / 2) <= z < m / 2)).
  { intros z Hz. destruct (Rlt_le_dec z (- (m / 2))) as [L|L]; [exists (-1)%Z|destruct (Rle_lt_dec (m / 2) z) as [L'|L']; [exists 1%Z|exists 0%Z]]; (split; [lia|]); (split; [|intros; (lia || lra)]); lra. }
  destruct (F _ A) as (k & HK & K3 & K5). destruct (F _ B) as (l & HL & K4 & K6).
  assert (NZ : ~ (k = 0 /\ l = 0)%Z) by (intros [-> ->]; apply N; split; [now apply K5|now apply K6]).
  assert (IM : in_module m 1 0 ax ay (n - 7 + l) (n - 7 + k) (IZR i) (IZR j)).
  { unfold in_module, middle_x, middle_y in *. rewrite !plus_IZR in *. lra. }
  destruct (pixel_in g n dark m 1 0 ax ay HD (n - 7 + l) (n - 7 + k) i j ltac:(lia) ltac:(lia) IM) as (P1 & P2 & P3). rewrite HA in P3 by lia.
  destruct (Z.eqb_spec (Z.max (Z.abs l) (Z.abs k)) 1) as [_|NE]; [|lia]. auto.
Qed.

Lemma upright_centre x y l r x' t u : - (m / 2) <= IZR x - cx < m / 2 -> - (m / 2) <= IZR y - cy < m / 2 -> centred_at g x y l r x' t u ->
  Rabs (IZR (l + r) / 2 - cx) <= / 2 /\ Rabs (IZR (t + u) / 2 - cy) <= / 2.
Proof.
  intros NX NY (R1 & EX & R2).
  assert (C1 : - / 2 <= IZR (l + r) / 2 - cx <= / 2).
  { apply (run_middle (white_in_row g y) (gw g) x l r cx (m / 2)); [lra|exact NX| | |exact R1].
    - intros z Hz. destruct (middle_dark z y Hz NY) as (A & B & P). split; [exact A|]. unfold white_in_row. rewrite P. discriminate.
    - intros z Hz. destruct (around_light z y) as (A & B & P); [lra|lra|lra|tauto|]. split; [exact A|exact P]. }
  split; [apply Rabs_le; lra|].
  assert (X' : - (m / 2) <= IZR x' - cx < m / 2).
  { assert (E : - / 2 <= IZR x' - IZR (l + r) / 2 <= / 2) by (destruct EX as [E|E]; apply IZR_eq in E; rewrite mult_IZR, ?plus_IZR in E; rewrite plus_IZR; lra). lra. }
  apply Rabs_le. apply (run_middle (white_in_column g x') (gh g) y t u cy (m / 2)); [lra|exact NY| | |exact R2].
  - intros z Hz. destruct (middle_dark x' z X' Hz) as (A & B & P). split; [exact B|]. unfold white_in_column. rewrite P. discriminate.
  - intros z Hz. destruct (around_light x' z) as (A & B & P); [lra|lra|lra|tauto|]. split; [exact B|exact P].
Qed.
End Near.

(** *** the corners as C82 finds them *)
(** up to 1.84 pixels off from 0.33 pixels above and left of the centre, which covers what C82 says about both directions *)
Definition off_upright (m ax ay : R) (row column : Z) (p : point) : Prop := exists x y, point_at p x y /\
  - 2.17 <= x - (ax + m * IZR column) <= 1.51 /\ - 2.17 <= y - (ay + m * IZR row) <= 1.51.
Definition located_upright (m ax ay : R) (n : Z) (loc : qrloc) : Prop :=
  off_upright m ax ay 3 3 (top_left loc) /\ off_upright m ax ay 3 (n - 4) (top_right loc) /\ off_upright m ax ay (n - 4) 3 (bottom_left loc).

Notation mid := (- 0.33).
Notation hw := 1.84.
Lemma drift_shift n e1 e2 e3 row column : (21 <= n)%Z -> drift n e1 e2 e3 row column = mid + drift n (e1 - mid) (e2 - mid) (e3 - mid) row column.
Proof. intros Hn. assert (14 <= IZR (n - 7)) by (apply IZR_le; lia). unfold drift. field. lra. Qed.
Lemma drift_upright n e1 e2 e3 row column : (21 <= n)%Z -> (0 <= row < n)%Z -> (0 <= column < n)%Z -> Rabs (e1 - mid) <= hw -> Rabs (e2 - mid) <= hw -> Rabs (e3 - mid) <= hw ->
  Rabs (drift n e1 e2 e3 (IZR row) (IZR column)) <= 7.43.
Proof.
  intros Hn Hr Hc H1 H2 H3. rewrite drift_shift by exact Hn. pose proof (drift_bound n _ _ _ hw row column Hn Hr Hc H1 H2 H3) as D.
  apply Rabs_le_inv in D. apply Rabs_le. lra.
Qed.
Lemma drift_upright_inner n e1 e2 e3 row column : (25 <= n)%Z -> (3 <= row <= n - 4)%Z -> (3 <= column <= n - 4)%Z -> Rabs (e1 - mid) <= hw -> Rabs (e2 - mid) <= hw -> Rabs (e3 - mid) <= hw ->
  Rabs (drift n e1 e2 e3 (IZR row) (IZR column)) <= 5.85.
Proof.
  intros Hn Hr Hc H1 H2 H3. rewrite drift_shift by lia. pose proof (drift_inner n _ _ _ hw row column Hn Hr Hc H1 H2 H3) as D.
  apply Rabs_le_inv in D. apply Rabs_le. lra.
Qed.
Lemma blend_half al p q : 5 / 6 <= al <= 1 -> - (2 / 10) <= p <= 14 / 10 -> - (2 / 10) <= q <= 14 / 10 ->
  Rabs (blend1 al p q) + Rabs (blend2 al p q) + Rabs (blend2 al q p) + / 2 * Rabs (p * q) <= 24 / 10.
Proof.
  intros A P Q. unfold blend1, blend2.
  assert (T : forall x y z, 0 <= x -> 0 <= y -> 0 <= z -> 0 <= x * (y * z)) by (intros; repeat apply Rmult_le_pos; assumption).
  pose proof (T (al - 5 / 6) (p + 2 / 10) (q + 2 / 10) ltac:(lra) ltac:(lra) ltac:(lra)). pose proof (T (al - 5 / 6) (p + 2 / 10) (14 / 10 - q) ltac:(lra) ltac:(lra) ltac:(lra)).
  pose proof (T (al - 5 / 6) (14 / 10 - p) (q + 2 / 10) ltac:(lra) ltac:(lra) ltac:(lra)). pose proof (T (al - 5 / 6) (14 / 10 - p) (14 / 10 - q) ltac:(lra) ltac:(lra) ltac:(lra)).
  pose proof (T (1 - al) (p + 2 / 10) (q + 2 / 10) ltac:(lra) ltac:(lra) ltac:(lra)). pose proof (T (1 - al) (p + 2 / 10) (14 / 10 - q) ltac:(lra) ltac:(lra) ltac:(lra)).
  pose proof (T (1 - al) (14 / 10 - p) (q + 2 / 10) ltac:(lra) ltac:(lra) ltac:(lra)). pose proof (T (1 - al) (14 / 10 - p) (14 / 10 - q) ltac:(lra) ltac:(lra) ltac:(lra)).
  clear T. unfold Rabs. repeat destruct (Rcase_abs _); lra.
Qed.

Section Read.
Context (g : gray) (m ax ay : R) (d : matrix) (loc : qrloc) (ex1 ey1 ex2 ey2 ex3 ey3 : R).
Context (HW : wf_gray g) (WG : (gw g <= 2 ^ 22)%Z) (HG : (gh g <= 2 ^ 22)%Z).
Notation n := (side_of (version loc)).
Notation dark := (fun r c => d c r).
Notation mx := (middle_x m 1 0 ax).
Notation my := (middle_y m 1 0 ay).
Context (HD : drawn_at_angle (pixel g) m 1 0 ax ay n dark).
Context (HX1 : Rabs (ex1 - mid) <= hw) (HX2 : Rabs (ex2 - mid) <= hw) (HX3 : Rabs (ex3 - mid) <= hw) (HY1 : Rabs (ey1 - mid) <= hw) (HY2 : Rabs (ey2 - mid) <= hw) (HY3 : Rabs (ey3 - mid) <= hw).
Context (TL : point_at (top_left loc) (mx 3 3 + ex1) (my 3 3 + ey1)).
Context (TR : point_at (top_right loc) (mx 3 (IZR (n - 4)) + ex2) (my 3 (IZR (n - 4)) + ey2)).
Context (BL : point_at (bottom_left loc) (mx (IZR (n - 4)) 3 + ex3) (my (IZR (n - 4)) 3 + ey3)).
Notation ex := (drift n ex1 ex2 ex3).
Notation ey := (drift n ey1 ey2 ey3).

Lemma upright_1 : version loc = 1%Z -> 16 <= m -> extract g loc = Ok (deliver 1 d).
Proof.
  intros HV M. assert (N : n = 21%Z) by (rewrite HV; reflexivity). pose proof (drift_corners loc ltac:(lia)) as DC. rewrite N in *. change (21 - 4)%Z with 17%Z in *.
  assert (K : forall row column, (0 <= row < 21)%Z -> (0 <= column < 21)%Z ->
     moderate (Vec (mx (IZR row) (IZR column) + drift 21 ex1 ex2 ex3 (IZR row) (IZR column)) (my (IZR row) (IZR column) + drift 21 ey1 ey2 ey3 (IZR row) (IZR column))) /\
     clearly (pixel g) (mx (IZR row) (IZR column) + drift 21 ex1 ex2 ex3 (IZR row) (IZR column)) (my (IZR row) (IZR column) + drift 21 ey1 ey2 ey3 (IZR row) (IZR column)) (colour (d column row))).
  { intros row column Hr Hc. assert (L : (21 <= 21)%Z) by lia.
    pose proof (off_by' _ _ (mx (IZR row) (IZR column)) (drift_upright 21 ex1 ex2 ex3 row column L Hr Hc HX1 HX2 HX3)) as DX'. pose proof (off_by' _ _ (my (IZR row) (IZR column)) (drift_upright 21 ey1 ey2 ey3 row column L Hr Hc HY1 HY2 HY3)) as DY'.
    destruct (upright_near g m ax ay 21 dark HD row column _ _ 7.43 7.43 Hr Hc DX' DY' ltac:(lra) ltac:(lra)) as (A & B & C).
    split; [|exact C]. apply IZR_le in WG, HG. change (IZR (2 ^ 22)) with 4194304 in *. split; cbn [vx vy]; apply Rabs_le; lra. }
  pose proof (proj1 (K 3 3 ltac:(lia) ltac:(lia))%Z) as K1. pose proof (proj1 (K 3 17 ltac:(lia) ltac:(lia))%Z) as K2. pose proof (proj1 (K 17 3 ltac:(lia) ltac:(lia))%Z) as K3.
  destruct (DC ex1 ex2 ex3) as (D1 & D2 & D3). destruct (DC ey1 ey2 ey3) as (D4 & D5 & D6). rewrite D1, D4 in K1. rewrite D2, D5 in K2. rewrite D3, D6 in K3.
  assert (CO : corners_at loc (Vec (mx 3 3 + ex1) (my 3 3 + ey1)) (Vec (mx 3 17 + ex2) (my 3 17 + ey2)) (Vec (mx 17 3 + ex3) (my 17 3 + ey3))) by exact (conj TL (conj TR BL)).
  apply (C68_exact g loc _ _ _ HV CO K1 K2 K3 (fun r c => mx r c + drift 21 ex1 ex2 ex3 r c) (fun r c => my r c + drift 21 ey1 ey2 ey3 r c)).
  - cbn [vx vy]. split; [|split; [|split]].
    + exists (ax + ex1 - 3 * ((ex2 - ex1) / 14) - 3 * ((ex3 - ex1) / 14)), (- m * 0 + (ex3 - ex1) / 14), (m * 1 + (ex2 - ex1) / 14). intros. unfold middle_x, drift. change (IZR (21 - 7)) with 14. field.
    + exists (ay + ey1 - 3 * ((ey2 - ey1) / 14) - 3 * ((ey3 - ey1) / 14)), (m * 1 + (ey3 - ey1) / 14), (m * 0 + (ey2 - ey1) / 14). intros. unfold middle_y, drift. change (IZR (21 - 7)) with 14. field.
    + unfold through_corners. cbn [vx vy]. change (IZR 21) with 21. replace (21 - 4) with 17 by lra. rewrite D1, D2, D3. auto.
    + unfold through_corners. cbn [vx vy]. change (IZR 21) with 21. replace (21 - 4) with 17 by lra. rewrite D4, D5, D6. auto.
  - intros row column Hr Hc. rewrite !INR_IZR_INZ. apply K; lia.
Qed.

Section Above.
Context (HV : (2 <= version loc <= 40)%Z) (HA : bottom_right_alignment n dark) (M : 14 <= m).

Lemma inner_in row column : (3 <= row <= n - 4)%Z -> (3 <= column <= n - 4)%Z ->
  (/ 64 <= mx (IZR row) (IZR column) + ex (IZR row) (IZR column) <= M22 /\ / 64 <= my (IZR row) (IZR column) + ey (IZR row) (IZR column) <= M22) /\
  clearly (pixel g) (mx (IZR row) (IZR column) + ex (IZR row) (IZR column)) (my (IZR row) (IZR column) + ey (IZR row) (IZR column)) (colour (d column row)).
Proof.
  intros Hr Hc. assert (HN : (25 <= n <= 177)%Z) by (unfold side_of; lia). assert (L : (25 <= n)%Z) by lia.
  pose proof (off_by' _ _ (mx (IZR row) (IZR column)) (drift_upright_inner n ex1 ex2 ex3 row column L Hr Hc HX1 HX2 HX3)) as DX'. pose proof (off_by' _ _ (my (IZR row) (IZR column)) (drift_upright_inner n ey1 ey2 ey3 row column L Hr Hc HY1 HY2 HY3)) as DY'.
  assert (Hr' : (0 <= row < n)%Z) by lia. assert (Hc' : (0 <= column < n)%Z) by lia.
  destruct (upright_positive g m ax ay n dark HD row column _ _ 5.85 5.85 Hr' Hc' DX' DY' ltac:(lra) ltac:(lra)) as [A B].
  destruct (upright_near g m ax ay n dark HD row column _ _ 5.85 5.85 Hr' Hc' DX' DY' ltac:(lra) ltac:(lra)) as (_ & _ & C).
  split; [|exact C]. apply IZR_le in WG, HG. change (IZR (2 ^ 22)) with 4194304 in *. unfold M22. lra.
Qed.

Notation cx := (mx (IZR (n - 7)) (IZR (n - 7))).
Notation cy := (my (IZR (n - 7)) (IZR (n - 7))).
Notation ex0 := (ex (IZR (n - 7)) (IZR (n - 7))).
Notation ey0 := (ey (IZR (n - 7)) (IZR (n - 7))).

Lemma upright_pattern : pattern_at g n (mx 3 3 + ex1) (my 3 3 + ey1) (mx 3 (IZR (n - 4)) + ex2) (my 3 (IZR (n - 4)) + ey2) (mx (IZR (n - 4)) 3 + ex3) (my (IZR (n - 4)) 3 + ey3) 0 0 0.
Proof.
  assert (HN : (25 <= n <= 177)%Z) by (unfold side_of; lia). intros k i Hk Hi. assert (25 <= IZR n) by (apply IZR_le; lia).
  pose proof (expected_rough m 1 0 ax ay loc ex1 ey1 ex2 ey2 ex3 ey3 HV) as [XR YR].
  pose proof (rough_step_x m 1 0 ax loc ex1 ex2 ex3 HV) as [SX1 SX2]. pose proof (rough_step_y m 1 0 ay loc ey1 ey2 ey3 HV) as [SY1 SY2].
  assert (PX : probe_x n (mx 3 3 + ex1) (mx 3 (IZR (n - 4)) + ex2) (mx (IZR (n - 4)) 3 + ex3) 0 0 0 i k = mx (IZR (n - 7 + k)) (IZR (n - 7 + i)) + ex (IZR (n - 7 + k)) (IZR (n - 7 + i))).
  { unfold probe_x, probe, tried, scaled. rewrite XR, SX1, SX2. unfold middle_x, drift. rewrite !plus_IZR, !minus_IZR. field. lra. }
  assert (PY : probe_y n (my 3 3 + ey1) (my 3 (IZR (n - 4)) + ey2) (my (IZR (n - 4)) 3 + ey3) 0 0 0 i k = my (IZR (n - 7 + k)) (IZR (n - 7 + i)) + ey (IZR (n - 7 + k)) (IZR (n - 7 + i))).
  { unfold probe_y, probe, tried, scaled. rewrite YR, SY1, SY2. unfold middle_y, drift. rewrite !plus_IZR, !minus_IZR. field. lra. }
  rewrite PX, PY. destruct (inner_in (n - 7 + k) (n - 7 + i) ltac:(lia) ltac:(lia)) as ((A & B) & C).
  split; [lra|]. split; [lra|]. rewrite (HA k i Hk Hi) in C. exact C.
Qed.

Lemma upright_blend R0 C1 e1 e2 e3 al : (0 <= R0 < n)%Z -> (0 <= C1 < n)%Z -> Rabs (e1 - mid) <= hw -> Rabs (e2 - mid) <= hw -> Rabs (e3 - mid) <= hw -> Rabs al <= / 2 ->
  let k := (IZR R0 - 3) * (IZR C1 - 3) / (IZR (n - 10) * IZR (n - 10)) in
  Rabs (drift n e1 e2 e3 (IZR R0) (IZR C1) + k * (al - drift n e1 e2 e3 (IZR (n - 7)) (IZR (n - 7)))) <= 5.
Proof.
  assert (HN : (25 <= n <= 177)%Z) by (unfold side_of; lia). assert (L : (21 <= n)%Z) by lia. intros HR HC H1 H2 H3 Hal k. rewrite !(drift_shift n e1 e2 e3) by exact L.
  set (w1 := e1 - mid) in *. set (w2 := e2 - mid) in *. set (w3 := e3 - mid) in *. clearbody w1 w2 w3. clear e1 e2 e3.
  pose proof (weight loc HV R0 C1 HR HC) as KB. fold k in KB.
  assert (N : 15 <= IZR (n - 10)) by (apply IZR_le; lia). assert (E7 : IZR (n - 7) = IZR (n - 10) + 3) by (rewrite <- plus_IZR; f_equal; lia).
  assert (ED : mid + drift n w1 w2 w3 (IZR R0) (IZR C1) + k * (al - (mid + drift n w1 w2 w3 (IZR (n - 7)) (IZR (n - 7)))) =
    (blend1 (IZR (n - 10) / (IZR (n - 10) + 3)) ((IZR R0 - 3) / IZR (n - 10)) ((IZR C1 - 3) / IZR (n - 10)) * w1 +
    blend2 (IZR (n - 10) / (IZR (n - 10) + 3)) ((IZR R0 - 3) / IZR (n - 10)) ((IZR C1 - 3) / IZR (n - 10)) * w2 +
    blend2 (IZR (n - 10) / (IZR (n - 10) + 3)) ((IZR C1 - 3) / IZR (n - 10)) ((IZR R0 - 3) / IZR (n - 10)) * w3) + (k * al + mid * (1 - k))).
  { unfold blend1, blend2, drift, k. rewrite E7. field. lra. }
  rewrite ED. clear ED.
  assert (P : forall z, (0 <= z < n)%Z -> - (2 / 10) <= (IZR z - 3) / IZR (n - 10) <= 14 / 10).
  { intros z Hz. assert (Z0 : 0 <= IZR z) by (apply IZR_le; lia). assert (Z1 : IZR z <= IZR (n - 10) + 9) by (rewrite <- plus_IZR; apply IZR_le; lia).
    split; apply Rmult_le_reg_r with (IZR (n - 10)); try lra; unfold Rdiv; rewrite (Rmult_assoc (IZR z - 3)), Rinv_l, Rmult_1_r by lra; lra. }
  pose proof (P R0 HR) as BP. pose proof (P C1 HC) as BQ.
  assert (BA : 5 / 6 <= IZR (n - 10) / (IZR (n - 10) + 3) <= 1).
  { split; apply Rmult_le_reg_r with (IZR (n - 10) + 3); try lra; unfold Rdiv; rewrite (Rmult_assoc (IZR (n - 10))), Rinv_l, Rmult_1_r by lra; lra. }
  assert (EK : k = (IZR R0 - 3) / IZR (n - 10) * ((IZR C1 - 3) / IZR (n - 10))) by (unfold k; field; lra).
  set (al0 := IZR (n - 10) / (IZR (n - 10) + 3)) in *. set (p := (IZR R0 - 3) / IZR (n - 10)) in *. set (q := (IZR C1 - 3) / IZR (n - 10)) in *. clearbody al0 p q k. clear P N E7 HR HC HN L.
  pose proof (blend_half al0 p q BA BP BQ) as BS. rewrite <- EK in BS.
  pose proof (mix_bound _ _ _ w1 w2 w3 hw _ H1 H2 H3 (Rle_refl (Rabs (blend1 al0 p q) + Rabs (blend2 al0 p q) + Rabs (blend2 al0 q p)))) as MB.
  eapply Rle_trans; [apply Rabs_triang|].
  assert (K1 : Rabs (k * al) <= Rabs k * / 2) by (rewrite Rabs_mult; apply Rmult_le_compat_l; [apply Rabs_pos|exact Hal]).
  assert (K2 : Rabs (k * al + mid * (1 - k)) <= Rabs k * / 2 + 0.43).
  { eapply Rle_trans; [apply Rabs_triang|]. assert (Rabs (mid * (1 - k)) <= 0.43); [|lra]. apply Rabs_le. clear - KB. lra. }
  pose proof (Rabs_pos k). lra.
Qed.

Lemma upright_2 : extract g loc = Ok (deliver (version loc) d).
Proof.
  assert (HN : (25 <= n <= 177)%Z) by (unfold side_of; lia). destruct TL as [F1 F2], TR as [F3 F4], BL as [F5 F6].
  pose proof (expected_rough m 1 0 ax ay loc ex1 ey1 ex2 ey2 ex3 ey3 HV) as [X1 X2].
  pose proof (rough_step_x m 1 0 ax loc ex1 ex2 ex3 HV) as [SX1 SX2]. pose proof (rough_step_y m 1 0 ay loc ey1 ey2 ey3 HV) as [SY1 SY2].
  destruct (drift_corners loc ltac:(lia) ex1 ex2 ex3) as (D1 & D2 & D3). destruct (drift_corners loc ltac:(lia) ey1 ey2 ey3) as (D4 & D5 & D6).
  assert (IN : forall row column, (3 <= row <= n - 4)%Z -> (3 <= column <= n - 4)%Z -> 0 <= mx (IZR row) (IZR column) + ex (IZR row) (IZR column) <= M22 /\ 0 <= my (IZR row) (IZR column) + ey (IZR row) (IZR column) <= M22)
    by (intros row column Hr Hc; destruct (inner_in row column Hr Hc) as ((A & B) & _); lra).
  destruct (IN 3 3 ltac:(lia) ltac:(lia))%Z as [H1 H2]. destruct (IN 3%Z (n - 4)%Z ltac:(lia) ltac:(lia)) as [H3 H4]. destruct (IN (n - 4)%Z 3%Z ltac:(lia) ltac:(lia)) as [H5 H6].
  change (IZR 3) with 3 in H1, H2, H3, H4, H5, H6. rewrite D1 in H1. rewrite D4 in H2. rewrite D2 in H3. rewrite D5 in H4. rewrite D3 in H5. rewrite D6 in H6.
  set (est := est2 n loc). pose proof (at_expected n HN loc _ _ _ _ _ _ F1 F2 F3 F4 F5 F6 H1 H2 H3 H4 H5 H6) as AT.
  pose proof (accepted_complete g HW WG HG n HN loc _ _ _ _ _ _ F1 F2 F3 F4 F5 F6 H1 H2 H3 H4 H5 H6 0 0 0 est ltac:(lia) ltac:(lia) ltac:(lia) AT upright_pattern) as IA.
  assert (EF : find_alignment g (dX2 n loc) (dY2 n loc) (search_points est (dX2 n loc) (dY2 n loc)) = Ok (Some est)).
  { change (search_points est (dX2 n loc) (dY2 n loc)) with ((scale_of 0, est) :: tl (search_points est (dX2 n loc) (dY2 n loc))). cbn [find_alignment]. rewrite IA. reflexivity. }
  destruct (est2_apx n HN loc _ _ _ _ _ _ F1 F2 F3 F4 F5 F6 H1 H2 H3 H4 H5 H6) as [E1 E2]. fold est in E1, E2. rewrite X1 in E1. rewrite X2 in E2.
  assert (U : u24 = / 16777216 /\ slack = / 64) by (split; reflexivity).
  assert (C0 : (0 <= n - 7 < n)%Z) by lia. assert (C3 : (3 <= n - 7 <= n - 4)%Z) by lia. destruct (IN (n - 7)%Z (n - 7)%Z C3 C3) as [P1 P2].
  pose proof (drift_upright_inner n ex1 ex2 ex3 (n - 7) (n - 7) ltac:(lia) C3 C3 HX1 HX2 HX3) as HX0. pose proof (drift_upright_inner n ey1 ey2 ey3 (n - 7) (n - 7) ltac:(lia) C3 C3 HY1 HY2 HY3) as HY0.
  destruct (round_holds (px est) (cx + ex0)) as [R1 R2]; [eapply apx_weaken; [exact E1|lra]|unfold M22 in *; apply Rabs_le; lra|].
  destruct (round_holds (py est) (cy + ey0)) as [R3 R4]; [eapply apx_weaken; [exact E2|lra]|unfold M22 in *; apply Rabs_le; lra|].
  set (x := round_u32 (px est)) in *. set (y := round_u32 (py est)) in *. rewrite Rmax_right in R2 by lra. rewrite Rmax_right in R4 by lra.
  assert (NX : - (m / 2) <= IZR x - cx < m / 2) by (apply Rabs_le_inv in R2; apply Rabs_le_inv in HX0; lra).
  assert (NY : - (m / 2) <= IZR y - cy < m / 2) by (apply Rabs_le_inv in R4; apply Rabs_le_inv in HY0; lra).
  destruct (middle_dark g m ax ay n dark HD HN HA x y NX NY) as (RX & RY & _).
  assert (W2 : (2 <= gw g)%Z).
  { destruct (upright_positive g m ax ay n dark HD (n - 7) (n - 7) (cx + 2) cy 2 2 C0 C0) as [[_ L1] _]; [apply Rabs_le; lra|apply Rabs_le; lra|lra|lra|].
    destruct (upright_positive g m ax ay n dark HD (n - 7) (n - 7) (cx - 2) cy 2 2 C0 C0) as [[L2 _] _]; [apply Rabs_le; lra|apply Rabs_le; lra|lra|lra|]. apply le_IZR. lra. }
  destruct (centre_total g HW WG est RX RY W2) as (al & EA).
  destruct (centre_sound g WG HG n HN _ _ _ _ _ _ H1 H2 H3 H4 H5 H6 est al RX RY EA) as (l & r & x' & t & u & CA & G1 & G2 & M1 & M2). fold x y in CA.
  destruct (upright_centre g m ax ay n dark HD HN HA ltac:(lra) x y l r x' t u NX NY CA) as [N1 N2].
  change (deliver (version loc) d) with (mkQRData (rows (fun r c => colour (d (Z.of_nat c) (Z.of_nat r))) (Z.to_nat n)) (version loc) n).
  apply (extract_complete g n HN loc _ _ _ _ _ _ F1 F2 F3 F4 F5 F6 H1 H2 H3 H4 H5 H6 ltac:(unfold side_of; lia) est al _ _ _ EF EA G1 G2 M1 M2).
  intros row column Hr Hc. unfold grid_x2, grid_y2, plane, bend. rewrite X1, X2, SX1, SX2, SY1, SY2. rewrite !INR_IZR_INZ.
  set (R0 := Z.of_nat row). set (C1 := Z.of_nat column). assert (HR : (0 <= R0 < n)%Z) by lia. assert (HC : (0 <= C1 < n)%Z) by lia.
  assert (N10 : 15 <= IZR (n - 10)) by (apply IZR_le; lia). assert (N7 : 18 <= IZR (n - 7)) by (apply IZR_le; lia).
  pose proof (upright_blend R0 C1 ex1 ex2 ex3 _ HR HC HX1 HX2 HX3 N1) as B1.
  pose proof (upright_blend R0 C1 ey1 ey2 ey3 _ HR HC HY1 HY2 HY3 N2) as B2. cbv zeta in B1, B2.
  set (k := (IZR R0 - 3) * (IZR C1 - 3) / (IZR (n - 10) * IZR (n - 10))) in *.
  refine (proj2 (proj2 (upright_near g m ax ay n dark HD R0 C1 _ _ 5 5 HR HC _ _ ltac:(lra) ltac:(lra)))).
  - match goal with |- Rabs ?z <= _ => replace z with (ex (IZR R0) (IZR C1) + k * (IZR (l + r) / 2 - cx - ex0)) end; [exact B1|]. unfold k, drift, middle_x. field. lra.
  - match goal with |- Rabs ?z <= _ => replace z with (ey (IZR R0) (IZR C1) + k * (IZR (t + u) / 2 - cy - ey0)) end; [exact B2|]. unfold k, drift, middle_y. field. lra.
Qed.
End Above.
End Read.

(** *** C84 *)
(** how many pixels a module has to have *)
Definition large_modules (m : R) (v : Z) (d : matrix) : Prop :=
  v = 1%Z /\ 16 <= m \/ (2 <= v)%Z /\ bottom_right_alignment (side_of v) (fun r c => d c r) /\ 14 <= m.

Theorem C84_sampled g m ax ay v d loc : wf_gray g -> (gw g <= 2 ^ 22)%Z -> (gh g <= 2 ^ 22)%Z -> (1 <= v <= 40)%Z -> version loc = v ->
  drawn_at_angle (pixel g) m 1 0 ax ay (side_of v) (fun r c => d c r) -> located_upright m ax ay (side_of v) loc -> large_modules m v d -> extract g loc = Ok (deliver v d).
Proof.
  intros HW WG HG Hv <- HD ((x1 & y1 & A & X1 & Y1) & (x2 & y2 & B & X2 & Y2) & (x3 & y3 & C & X3 & Y3)) HM.
  assert (E : forall a b p, point_at p (fst a) (snd a) -> point_at p (fst b + (fst a - fst b)) (snd b + (snd a - snd b))).
  { intros a b p H. replace (fst b + (fst a - fst b)) with (fst a) by ring. replace (snd b + (snd a - snd b)) with (snd a) by ring. exact H. }
  apply (E (x1, y1) (middle_x m 1 0 ax 3 3, middle_y m 1 0 ay 3 3)) in A.
  apply (E (x2, y2) (middle_x m 1 0 ax 3 (IZR (side_of (version loc) - 4)), middle_y m 1 0 ay 3 (IZR (side_of (version loc) - 4)))) in B.
  apply (E (x3, y3) (middle_x m 1 0 ax (IZR (side_of (version loc) - 4)) 3, middle_y m 1 0 ay (IZR (side_of (version loc) - 4)) 3)) in C. cbn [fst snd] in A, B, C.
  set (n4 := IZR (side_of (version loc) - 4)) in *. change (IZR 3) with 3 in *.
  set (ex1 := x1 - middle_x m 1 0 ax 3 3) in *. set (ey1 := y1 - middle_y m 1 0 ay 3 3) in *. set (ex2 := x2 - middle_x m 1 0 ax 3 n4) in *. set (ey2 := y2 - middle_y m 1 0 ay 3 n4) in *.
  set (ex3 := x3 - middle_x m 1 0 ax n4 3) in *. set (ey3 := y3 - middle_y m 1 0 ay n4 3) in *.
  assert (Q : Rabs (ex1 - mid) <= hw /\ Rabs (ex2 - mid) <= hw /\ Rabs (ex3 - mid) <= hw /\ Rabs (ey1 - mid) <= hw /\ Rabs (ey2 - mid) <= hw /\ Rabs (ey3 - mid) <= hw).
  { unfold ex1, ex2, ex3, ey1, ey2, ey3, middle_x, middle_y. clearbody n4. repeat split; apply Rabs_le; lra. }
  destruct Q as (Q1 & Q2 & Q3 & Q4 & Q5 & Q6). destruct HM as [[EV HM]|(EV & HA & HM)].
  - replace (deliver (version loc) d) with (deliver 1 d) by now rewrite EV. apply (upright_1 g m ax ay d loc ex1 ey1 ex2 ey2 ex3 ey3); auto.
  - apply (upright_2 g m ax ay d loc ex1 ey1 ex2 ey2 ex3 ey3); auto. lia.
Qed.
Theorem C84_text g m ax ay v d loc text : wf_gray g -> (gw g <= 2 ^ 22)%Z -> (gh g <= 2 ^ 22)%Z -> (1 <= v <= 40)%Z -> version loc = v ->
  drawn_at_angle (pixel g) m 1 0 ax ay (side_of v) (fun r c => d c r) -> located_upright m ax ay (side_of v) loc -> large_modules m v d ->
  holds_text v d text -> qr_decode (extract g loc) = Ok text.
Proof.
  intros HW WG HG Hv HV HD HL HM (l & mask & segs & texts & base & Hm & HS & HT & HF & HE & HC & ->).
  rewrite (C84_sampled g m ax ay v d loc) by assumption. eapply C30_roundtrip; eauto. apply deliver_shows. lia.
Qed.

Lemma at_corner_off m ax ay row column f : at_corner m ax ay row column f -> off_upright m ax ay row column (fp_location f).
Proof. intros (x & y & v & [P _] & _ & X & Y & _). cbn [vx vy] in P. exists x, y. split; [exact P|]. split; lra. Qed.

(** from the candidates to the text *)
Theorem C84_read g m ax ay v d text cs f1 f2 f3 locs : wf_gray g -> (gw g <= 2 ^ 22)%Z -> (gh g <= 2 ^ 22)%Z -> (1 <= v <= 40)%Z ->
  drawn_at_angle (pixel g) m 1 0 ax ay (side_of v) (fun r c => d c r) -> large_modules m v d -> IZR (4 * v + 10) / 5 + 4.1 <= 1.999 * m -> holds_text v d text ->
  In f1 cs -> In f2 cs -> In f3 cs ->
  at_corner m ax ay 3 3 f1 -> at_corner m ax ay 3 (side_of v - 4) f2 -> at_corner m ax ay (side_of v - 4) 3 f3 ->
  find_locations cs = Ok locs -> exists loc, In loc locs /\ version loc = v /\ qr_decode (extract g loc) = Ok text.
Proof.
  intros HW WG HG HV HD HM ST HT I1 I2 I3 N1 N2 N3 E. assert (S21 : (21 <= side_of v)%Z) by (unfold side_of; lia).
  assert (M14 : 14 <= m) by (destruct HM as [[_ H]|(_ & _ & H)]; lra).
  pose proof (drawn_small g m 1 0 ax ay _ _ HD S21 WG HG ltac:(lra)) as MB.
  destruct (C83_partial cs m ax ay v f1 f2 f3 locs ltac:(lra) HV ST I1 I2 I3 N1 N2 N3 E) as (loc & IL & K1 & K2 & K3 & K4).
  exists loc. split; [exact IL|]. split; [exact K4|]. apply (C84_text g m ax ay v d loc); auto.
  unfold located_upright. rewrite K1, K2, K3. split; [|split]; now apply at_corner_off.
Qed.

(** the finder pattern in that corner with its light ring; the uppermost row of its inner square has no run too short to
    be seen, up to the pattern *)
Definition visible_upright (g : gray) (m ax ay : R) (corner : Z * Z) : Prop :=
  let x := ax + m * IZR (snd corner) in let y := ay + m * IZR (fst corner) in
  finder_at_angle (pixel g) m 1 0 x y /\ exists j e, y - 3 / 2 * m <= IZR j <= y - 3 / 2 * m + 1 /\ x - 5 / 2 * m + 1 <= IZR e /\ steady (fun i => pix g i j) e.
(** every candidate that makes the code pass over the pattern is for the pattern *)
Definition unhidden_upright (m ax ay : R) (cs : list finder_pos) (corner : Z * Z) : Prop :=
  let x := ax + m * IZR (snd corner) in let y := ay + m * IZR (fst corner) in
  forall f, In f cs -> close_above m x y f -> found_upright m x y f.

Lemma upright_candidate g m ax ay cs corner : wf_gray g -> (gw g <= 2 ^ 22)%Z -> (gh g <= 2 ^ 22)%Z -> 7 <= m -> find_candidates g = Ok cs ->
  visible_upright g m ax ay corner -> unhidden_upright m ax ay cs corner -> exists f, In f cs /\ at_corner m ax ay (fst corner) (snd corner) f.
Proof.
  intros HW WG HG M E (HF & j & e & HJ & HE & HS) HU.
  destruct (C82_alone g m _ _ j e cs HW HF M ltac:(lia) ltac:(lia) HJ HE HS E HU) as (f & IF & x & y & v & [VX VY] & VV & X & Y & V). exists f. split; [exact IF|].
  destruct (find_candidates_ok g HW) as (cs' & E' & HC). rewrite E in E'. injection E' as <-.
  unfold cands_ok in HC. rewrite Forall_forall in HC. destruct (HC f IF) as ((v' & FV & _) & x' & y' & FX & FY & BX & BY).
  cbn [vx vy] in VX, VY. pose proof (value_inj _ _ _ FX VX) as ->. pose proof (value_inj _ _ _ FY VY) as ->. pose proof (value_inj _ _ _ FV VV) as ->.
  exists x, y, v. split; [split; [split; assumption|exact FV]|]. split; [|auto].
  assert (W1 : IZR (gw g - 1) <= 4194304) by (apply IZR_le; lia). assert (W2 : IZR (gh g - 1) <= 4194304) by (apply IZR_le; lia). split; cbn [vx vy]; lra.
Qed.

(** the whole way *)
Theorem C84_decoded {D : Type} (dec : decoder D gray (list N)) (img : D) g m ax ay v d text cs rs : usual dec -> d_prepare dec img = Ok g ->
  wf_gray g -> (gw g <= 2 ^ 22)%Z -> (gh g <= 2 ^ 22)%Z -> (1 <= v <= 40)%Z ->
  drawn_at_angle (pixel g) m 1 0 ax ay (side_of v) (fun r c => d c r) -> large_modules m v d -> IZR (4 * v + 10) / 5 + 4.1 <= 1.999 * m -> holds_text v d text ->
  Forall (visible_upright g m ax ay) (corners_of v) -> find_candidates g = Ok cs -> Forall (unhidden_upright m ax ay cs) (corners_of v) ->
  decode dec img = Ok rs -> In (inl text) rs.
Proof.
  intros (U1 & U2 & U3) HP HW WG HG HV HD HM ST HT VI E UN ER.
  assert (M7 : 7 <= m) by (destruct HM as [[_ H]|(_ & _ & H)]; lra).
  assert (K : forall corner, In corner (corners_of v) -> exists f, In f cs /\ at_corner m ax ay (fst corner) (snd corner) f).
  { rewrite Forall_forall in VI, UN. intros corner I. apply (upright_candidate g m ax ay cs corner HW WG HG M7 E); auto. }
  destruct (K (3, 3)%Z) as (f1 & I1 & N1); [cbn; tauto|]. destruct (K (3, side_of v - 4)%Z) as (f2 & I2 & N2); [cbn; tauto|]. destruct (K (side_of v - 4, 3)%Z) as (f3 & I3 & N3); [cbn; tauto|].
  cbn [fst snd] in N1, N2, N3. apply C39_one_each in ER as (g' & locs & E1 & E2 & F). rewrite HP in E1. injection E1 as <-. rewrite U1 in E2.
  unfold detect in E2. rewrite E in E2. cbn [bind] in E2.
  destruct (C84_read g m ax ay v d text cs f1 f2 f3 locs HW WG HG HV HD HM ST HT I1 I2 I3 N1 N2 N3 E2) as (loc & IL & _ & T).
  destruct (Forall2_in_left _ _ _ _ F IL) as (r & Er & (_ & R)). rewrite U2, U3, T in R. destruct r as [t'|e]; [|discriminate]. injection R as <-. exact Er.
Qed.

(** *** "HELLO" in version 1 with 16.2 pixels per module *)
Definition fifths_pixel (x y : Z) : N :=
  let c := ((5 * (x - 33)) / 81)%Z in let r := ((5 * (y - 33)) / 81)%Z in
  if ((0 <=? r) && (r <? 21) && (0 <=? c) && (c <? 21))%Z then colour (modules_1 c r) else 255%N.
Definition fifths : gray := image_of 410 410 fifths_pixel.
Lemma fifths_wf : wf_gray fifths.
Proof. apply image_of_wf; [unfold u32_max; lia..|]. intros x y. unfold fifths_pixel, colour. cbv zeta. destruct (_ && _); [destruct (modules_1 _ _)|]; lia. Qed.
Lemma fifths_drawn : drawn_at_angle (pixel fifths) 16.2 1 0 41.1 41.1 21 (fun r c => modules_1 c r).
Proof.
  split; [lra|]. split; [lra|]. intros row column i j Hr Hc [[A1 A2] [B1 B2]].
  assert (X : (81 * column <= 5 * (i - 33) < 81 * column + 81)%Z) by (split; [apply le_IZR|apply lt_IZR]; rewrite ?plus_IZR, ?mult_IZR, ?minus_IZR; lra).
  assert (Y : (81 * row <= 5 * (j - 33) < 81 * row + 81)%Z) by (split; [apply le_IZR|apply lt_IZR]; rewrite ?plus_IZR, ?mult_IZR, ?minus_IZR; lra).
  clear A1 A2 B1 B2. split; [lia|]. split; [lia|].
  unfold pixel, fifths. rewrite image_of_pixel by lia. unfold fifths_pixel. cbv zeta.
  replace (5 * (i - 33) / 81)%Z with column by (apply Z.div_unique with (5 * (i - 33) - 81 * column)%Z; lia).
  replace (5 * (j - 33) / 81)%Z with row by (apply Z.div_unique with (5 * (j - 33) - 81 * row)%Z; lia).
  destruct (Z.leb_spec 0 row); [|lia]. destruct (Z.ltb_spec row 21); [|lia]. destruct (Z.leb_spec 0 column); [|lia]. destruct (Z.ltb_spec column 21); [|lia]. reflexivity.
Qed.
Definition fifths_candidates : list finder_pos :=
  [FP (Pt (of_Z 90) (of_Z 88)) (of_Z 16) (of_Z 0); FP (Pt (of_Z 317) (of_Z 91)) (of_Z 16) (of_Z 0); FP (Pt (of_Z 20) (of_Z 200)) (of_Z 5) (of_Z 0); FP (Pt (of_Z 90) (of_Z 318)) (of_Z 16) (of_Z 0)].
Example C84_example : exists locs loc, find_locations fifths_candidates = Ok locs /\ In loc locs /\ qr_decode (extract fifths loc) = Ok [72; 69; 76; 76; 79]%N.
Proof.
  assert (E : exists locs, find_locations fifths_candidates = Ok locs) by (eexists; vm_compute; reflexivity). destruct E as (locs & E).
  assert (K : forall row column x y, (0 <= x <= 2000)%Z -> (0 <= y <= 2000)%Z -> 0 <= IZR x - (41.1 + 16.2 * IZR column) <= 1 -> - 2 <= IZR y - (41.1 + 16.2 * IZR row) <= 1.51 ->
    at_corner 16.2 41.1 41.1 row column (FP (Pt (of_Z x) (of_Z y)) (of_Z 16) (of_Z 0))).
  { intros row column x y Hx Hy EX EY. exists (IZR x), (IZR y), (IZR 16). unfold candidate_at, in_range, point_at. cbn [fp_location fp_module_size px py vx vy].
    assert (0 <= IZR x <= 2000) by (split; apply IZR_le; lia). assert (0 <= IZR y <= 2000) by (split; apply IZR_le; lia).
    split; [split; [split; apply fin_of_Z; lia|apply fin_of_Z; lia]|]. split; [lra|]. split; [lra|]. split; [lra|]. apply Rabs_le. lra. }
  destruct (C84_read fifths 16.2 41.1 41.1 1 modules_1 [72; 69; 76; 76; 79]%N fifths_candidates (FP (Pt (of_Z 90) (of_Z 88)) (of_Z 16) (of_Z 0))
    (FP (Pt (of_Z 317) (of_Z 91)) (of_Z 16) (of_Z 0)) (FP (Pt (of_Z 90) (of_Z 318)) (of_Z 16) (of_Z 0)) locs) as (loc & IL & _ & T); auto.
  - exact fifths_wf.
  - cbn [fifths image_of gw]. lia.
  - cbn [fifths image_of gh]. lia.
  - lia.
  - exact fifths_drawn.
  - left. split; [reflexivity|lra].
  - change (IZR (4 * 1 + 10)) with 14. lra.
  - exact hello_text.
  - cbn. tauto.
  - cbn. tauto.
  - cbn. tauto.
  - apply K; try lia; lra.
  - change (side_of 1 - 4)%Z with 17%Z. apply K; try lia; lra.
  - change (side_of 1 - 4)%Z with 17%Z. apply K; try lia; lra.
  - exists locs, loc. auto.
Qed.

(** *** which symbols C84 applies to *)
(** the symbol with one light module around it *)
Definition margined (n : Z) (dark : Z -> Z -> bool) (row column : Z) : bool :=
  ((1 <=? row) && (row <=? n) && (1 <=? column) && (column <=? n))%Z && dark (row - 1)%Z (column - 1)%Z.
(** in the third row, left of the upper right finder pattern, no ten modules alike *)
Definition third_row_steady (n : Z) (dark : Z -> Z -> bool) : Prop := forall c, (0 <= c)%Z -> (c + 9 <= n - 6)%Z -> exists k, (0 < k <= 9)%Z /\ dark 2%Z (c + k)%Z <> dark 2%Z c.
(** white to the left of the symbol *)
Definition white_left (pixel : Z -> Z -> option N) (m ax ay : R) (n : Z) : Prop := forall i j, (0 <= i)%Z -> IZR i < ax - m / 2 ->
  ay - m / 2 <= IZR j < ay + m * (IZR n - / 2) -> pixel i j = Some 255%N.

(** a row of modules with white before it *)
Lemma steady_row (f : Z -> N) (m ax : R) (L e : Z) (dark : Z -> bool) : 11 <= m -> (0 <= L)%Z ->
  (forall i, (0 <= i)%Z -> IZR i < ax - m / 2 -> f i = 255%N) ->
  (forall c i, (0 <= c <= L)%Z -> m * (IZR c - / 2) <= IZR i - ax < m * (IZR c + / 2) -> (0 <= i)%Z /\ f i = if dark c then 0%N else 255%N) ->
  IZR e - ax < m * (IZR L + / 2) -> (forall c, (0 <= c)%Z -> (c + 9 <= L)%Z -> exists k, (0 < k <= 9)%Z /\ dark (c + k)%Z <> dark c) -> steady f e.
Proof.
  intros M L0 HL HC HE HV.
  assert (FC : forall z, exists c, m * (IZR c - / 2) <= z < m * (IZR c + / 2)).
  { intros z. exists (Zfloor (z / m + / 2)). pose proof (Zfloor_lb (z / m + / 2)) as A. pose proof (Zfloor_ub (z / m + / 2)) as B.
    set (k := IZR (Zfloor (z / m + / 2))) in *. assert (EZ : z = m * (z / m)) by (field; lra). rewrite EZ. split; [apply Rmult_le_compat_l; lra|apply Rmult_lt_compat_l; lra]. }
  assert (LT : forall c c', m * (IZR c - / 2) < m * (IZR c' + / 2) -> (c <= c')%Z).
  { intros c c' H. apply Rmult_lt_reg_l in H; [|lra]. assert (IZR c < IZR (c' + 1)) by (rewrite plus_IZR; lra). apply lt_IZR in H0. lia. }
  assert (CH : forall i, (0 < i <= e)%Z -> f (i - 1)%Z <> f i -> exists c, (0 <= c <= L)%Z /\ m * (IZR c - / 2) <= IZR i - ax < m * (IZR c - / 2) + 1).
  { intros i Hi N. destruct (FC (IZR i - ax)) as (c & C1 & C2). assert (IE : IZR i <= IZR e) by (apply IZR_le; lia).
    assert (CL : (c <= L)%Z) by (apply LT; lra).
    assert (IM : IZR (i - 1) = IZR i - 1) by apply minus_IZR.
    destruct (Z_lt_le_dec c 0) as [G|G].
    - exfalso. apply N. assert (IZR c <= -1) by (apply IZR_le; lia). assert (m * (IZR c + / 2) <= m * (- / 2)) by (apply Rmult_le_compat_l; lra).
      rewrite !HL; try lia; lra.
    - exists c. split; [lia|]. split; [exact C1|]. destruct (Rlt_or_le (IZR i - ax) (m * (IZR c - / 2) + 1)) as [H|H]; [exact H|]. exfalso. apply N.
      rewrite (proj2 (HC c i ltac:(lia) ltac:(lra))). apply HC; [lia|lra]. }
  intros a b d HA HB CA NA NB CB ND.
  destruct (CH a ltac:(lia) NA) as (ca & A1 & A2). destruct (CH b ltac:(lia)) as (cb & B1 & B2); [rewrite (CA (b - 1)%Z) by lia; congruence|].
  destruct (CH d ltac:(lia)) as (cd & D1 & D2); [rewrite (CB (d - 1)%Z) by lia; congruence|].
  assert (AB : IZR a + 1 <= IZR b) by (rewrite <- plus_IZR; apply IZR_le; lia). assert (BD : IZR b + 1 <= IZR d) by (rewrite <- plus_IZR; apply IZR_le; lia).
  assert (CBD : (cb < cd)%Z).
  { assert (cb <= cd)%Z by (apply LT; lra). destruct (Z.eq_dec cb cd) as [->|]; [lra|lia]. }
  assert (CAB : (ca < cb)%Z).
  { assert (ca <= cb)%Z by (apply LT; lra). destruct (Z.eq_dec ca cb) as [->|]; [lra|lia]. }
  assert (C9 : (cb <= ca + 9)%Z).
  { destruct (Z_le_gt_dec cb (ca + 9)) as [G|G]; [exact G|exfalso]. destruct (HV ca ltac:(lia) ltac:(lia)) as (k & K1 & K2).
    set (i := Zceil (ax + m * (IZR (ca + k) - / 2))). pose proof (Zceil_ub (ax + m * (IZR (ca + k) - / 2))) as U1. pose proof (Zceil_lb (ax + m * (IZR (ca + k) - / 2))) as U2. fold i in U1, U2.
    assert (IC : f i = if dark (ca + k)%Z then 0%N else 255%N) by (apply HC; [lia|lra]).
    assert (IA : f a = if dark ca then 0%N else 255%N) by (apply HC; [lia|lra]).
    assert (G1 : IZR (ca + k) + 1 <= IZR cb) by (rewrite <- plus_IZR; apply IZR_le; lia). assert (G2 : IZR ca + 1 <= IZR (ca + k)) by (rewrite <- plus_IZR; apply IZR_le; lia).
    assert (G3 : m * (IZR (ca + k) + 1) <= m * IZR cb) by (apply Rmult_le_compat_l; lra). assert (G4 : m * (IZR ca + 1) <= m * IZR (ca + k)) by (apply Rmult_le_compat_l; lra).
    assert (R1 : (a <= i < b)%Z) by (split; [apply le_IZR|apply lt_IZR]; lra).
    apply K2. rewrite (CA i R1), IA in IC. destruct (dark ca), (dark (ca + k)%Z); congruence. }
  assert (G1 : IZR cb + 1 <= IZR cd) by (rewrite <- plus_IZR; apply IZR_le; lia). assert (G2 : IZR cb <= IZR ca + 9) by (rewrite <- plus_IZR; apply IZR_le; lia).
  assert (G3 : m * (IZR cb + 1) <= m * IZR cd) by (apply Rmult_le_compat_l; lra). assert (G4 : m * IZR cb <= m * (IZR ca + 9)) by (apply Rmult_le_compat_l; lra).
  apply le_IZR. rewrite mult_IZR, !minus_IZR. lra.
Qed.

Lemma nine z : (0 <= z < 9)%Z -> In z [0; 1; 2; 3; 4; 5; 6; 7; 8]%Z.
Proof. intros. cbn. lia. Qed.
Lemma corner_ring n dark row column : (17 <= n)%Z -> finder_corners n dark -> (0 <= row < 9)%Z -> (0 <= column < 9)%Z ->
  margined n dark row column = ringed_finder row column /\ margined n dark row (n - 7 + column) = ringed_finder row column /\ margined n dark (n - 7 + row) column = ringed_finder row column.
Proof.
  intros Hn HF Hr Hc. unfold margined, ringed_finder.
  assert (K : forall r c, (0 <= r < 8)%Z -> (0 <= c < 8)%Z -> dark r c = (r <? 7)%Z && (c <? 7)%Z && finder_dark r c /\ dark r (n - 1 - c)%Z = (r <? 7)%Z && (c <? 7)%Z && finder_dark r c /\ dark (n - 1 - r)%Z c = (r <? 7)%Z && (c <? 7)%Z && finder_dark r c) by exact HF.
  split; [|split].
  - destruct (Z.leb_spec 1 row); [|reflexivity]. destruct (Z.leb_spec row n); [|lia]. destruct (Z.leb_spec 1 column); [|cbn [andb]; rewrite ?andb_false_r; reflexivity]. destruct (Z.leb_spec column n); [|lia].
    rewrite (proj1 (K (row - 1) (column - 1) ltac:(lia) ltac:(lia))%Z). cbn [andb].
    destruct (Z.leb_spec row 7), (Z.leb_spec column 7), (Z.ltb_spec (row - 1) 7), (Z.ltb_spec (column - 1) 7); try lia; reflexivity.
  - destruct (Z.leb_spec 1 row); [|reflexivity]. destruct (Z.leb_spec row n); [|lia]. destruct (Z.leb_spec 1 (n - 7 + column)); [|lia]. destruct (Z.leb_spec (n - 7 + column) n) as [L|L].
    + replace (n - 7 + column - 1)%Z with (n - 1 - (7 - column))%Z by ring. rewrite (proj1 (proj2 (K (row - 1) (7 - column) ltac:(lia) ltac:(lia))%Z)). cbn [andb]. unfold finder_dark.
      replace (Z.abs (7 - column - 3)) with (Z.abs (column - 1 - 3)) by lia.
      destruct (Z.leb_spec row 7), (Z.leb_spec 1 column), (Z.leb_spec column 7), (Z.ltb_spec (row - 1) 7), (Z.ltb_spec (7 - column) 7); try lia; reflexivity.
    + destruct (Z.leb_spec column 7); [lia|]. cbn [andb]. rewrite ?andb_false_r. reflexivity.
  - destruct (Z.leb_spec 1 (n - 7 + row)); [|lia]. destruct (Z.leb_spec 1 column); [|cbn [andb]; rewrite ?andb_false_r; reflexivity]. destruct (Z.leb_spec column n); [|lia]. destruct (Z.leb_spec (n - 7 + row) n) as [L|L].
    + replace (n - 7 + row - 1)%Z with (n - 1 - (7 - row))%Z by ring. rewrite (proj2 (proj2 (K (7 - row) (column - 1) ltac:(lia) ltac:(lia))%Z)). cbn [andb]. unfold finder_dark.
      replace (Z.abs (7 - row - 3)) with (Z.abs (row - 1 - 3)) by lia.
      destruct (Z.leb_spec column 7), (Z.leb_spec 1 row), (Z.leb_spec row 7), (Z.ltb_spec (column - 1) 7), (Z.ltb_spec (7 - row) 7); try lia; reflexivity.
    + destruct (Z.leb_spec row 7); [lia|]. cbn [andb]. rewrite ?andb_false_r. reflexivity.
Qed.

Section Picture.
Context (g : gray) (m ax ay : R) (v : Z) (dark : Z -> Z -> bool) (HW : wf_gray g) (HV : (1 <= v <= 40)%Z) (M : 11 <= m).
Notation n := (side_of v).
Context (HD : drawn_at_angle (pixel g) m 1 0 (ax - m) (ay - m) (n + 2) (margined n dark)) (HF : finder_corners n dark) (HT : third_row_steady n dark) (HL : white_left (pixel g) m ax ay n).

Lemma margined_inner : drawn_at_angle (pixel g) m 1 0 ax ay n dark.
Proof.
  split; [lra|]. split; [lra|]. intros row column i j Hr Hc IM. destruct HD as (_ & _ & H).
  destruct (H (row + 1) (column + 1) i j ltac:(lia) ltac:(lia))%Z as (A & B & C); [unfold in_module in *; rewrite !plus_IZR; lra|].
  split; [exact A|]. split; [exact B|]. rewrite C. unfold margined. replace (row + 1 - 1)%Z with row by ring. replace (column + 1 - 1)%Z with column by ring.
  destruct (Z.leb_spec 1 (row + 1)); [|lia]. destruct (Z.leb_spec (row + 1) n); [|lia]. destruct (Z.leb_spec 1 (column + 1)); [|lia]. destruct (Z.leb_spec (column + 1) n); [|lia]. reflexivity.
Qed.
Lemma corner_pattern p q : (0 <= p)%Z -> (0 <= q)%Z -> (p + 9 <= n + 2)%Z -> (q + 9 <= n + 2)%Z ->
  (forall row column, (0 <= row < 9)%Z -> (0 <= column < 9)%Z -> margined n dark (p + row) (q + column) = ringed_finder row column) ->
  finder_at_angle (pixel g) m 1 0 (ax + m * IZR (q + 3)) (ay + m * IZR (p + 3)).
Proof.
  intros P0 Q0 PN QN E. apply upright_pixels; [lra|]. intros row column i j Hr Hc X Y. destruct HD as (_ & _ & H).
  rewrite <- (E row column Hr Hc). apply H; [lia|lia|]. unfold in_module. rewrite !plus_IZR in *. lra.
Qed.
Lemma corner_visible r q : (r = 3 \/ r = n - 4)%Z -> (q = 3 \/ q = n - 4 /\ r = 3)%Z -> finder_at_angle (pixel g) m 1 0 (ax + m * IZR q) (ay + m * IZR r) -> visible_upright g m ax ay (r, q).
Proof.
  intros Hr Hq FA. split; [exact FA|]. cbn [fst snd]. assert (S : (21 <= n)%Z) by (unfold side_of; lia).
  set (y := ay + m * IZR r). set (x := ax + m * IZR q).
  exists (Zceil (y - 3 / 2 * m)), (Zceil (x - 5 / 2 * m + 1)).
  pose proof (Zceil_ub (y - 3 / 2 * m)) as Y1. pose proof (Zceil_lb (y - 3 / 2 * m)) as Y2. pose proof (Zceil_ub (x - 5 / 2 * m + 1)) as X1. pose proof (Zceil_lb (x - 5 / 2 * m + 1)) as X2.
  set (j := Zceil (y - 3 / 2 * m)) in *. set (e := Zceil (x - 5 / 2 * m + 1)) in *. split; [lra|]. split; [exact X1|].
  assert (RR : m * IZR (r - 1) = m * IZR r - m) by (rewrite minus_IZR; ring).
  assert (R0 : (2 <= r - 1 <= n - 5)%Z) by lia. assert (R1 : 2 <= IZR (r - 1) <= IZR n - 5) by (split; [apply IZR_le; lia|]; rewrite <- minus_IZR; apply IZR_le; lia).
  assert (R2 : m * 2 <= m * IZR (r - 1) <= m * (IZR n - 5)) by (split; apply Rmult_le_compat_l; lra).
  destruct margined_inner as (_ & _ & HI).
  assert (J0 : (0 <= j)%Z).
  { pose proof (Zceil_ub (ax - m / 2)). pose proof (Zceil_lb (ax - m / 2)). apply (HI (r - 1)%Z 0%Z (Zceil (ax - m / 2)) j ltac:(lia) ltac:(lia)). unfold in_module, y in *. lra. }
  apply (steady_row _ m ax (q - 2) e (fun c => dark (r - 1)%Z c)); [exact M|lia| | | |].
  - intros i I0 IL. specialize (HL i j I0 IL ltac:(unfold y in *; lra)). apply pixel_get in HL. destruct (get_pixel_in _ _ _ _ HW I0 J0 HL). rewrite get_pixel_pix in HL by (auto; lia). now injection HL.
  - intros c i Hc HX. destruct (HI (r - 1) c i j ltac:(lia) ltac:(lia))%Z as (A & B & C); [unfold in_module, y in *; lra|]. split; [exact A|].
    apply pixel_get in C. destruct (get_pixel_in _ _ _ _ HW A B C). rewrite get_pixel_pix in C by (auto; lia). now injection C.
  - rewrite minus_IZR. unfold x in *. lra.
  - intros c C0 C9. assert (EQ : q = (n - 4)%Z /\ r = 3%Z) by lia. destruct EQ as [-> ->]. apply HT; lia.
Qed.
Lemma corners_visible : Forall (visible_upright g m ax ay) (corners_of v).
Proof.
  assert (S : (21 <= n)%Z) by (unfold side_of; lia). unfold corners_of. apply Forall_cons; [|apply Forall_cons; [|apply Forall_cons; [|apply Forall_nil]]].
  - apply corner_visible; [lia|lia|]. apply (corner_pattern 0 0); try lia. intros row column Hr Hc. apply (corner_ring n dark row column ltac:(lia) HF Hr Hc).
  - apply corner_visible; [lia|lia|]. replace (n - 4)%Z with (n - 7 + 3)%Z by ring. apply (corner_pattern 0 (n - 7)); try lia. intros row column Hr Hc. apply (corner_ring n dark row column ltac:(lia) HF Hr Hc).
  - apply corner_visible; [lia|lia|]. replace (n - 4)%Z with (n - 7 + 3)%Z by ring. apply (corner_pattern (n - 7) 0); try lia. intros row column Hr Hc. apply (corner_ring n dark row column ltac:(lia) HF Hr Hc).
Qed.
End Picture.

(** a candidate for one of the three patterns does not hide another one *)
Definition for_a_corner (m ax ay : R) (v : Z) (f : finder_pos) : Prop := exists corner, In corner (corners_of v) /\ found_upright m (ax + m * IZR (snd corner)) (ay + m * IZR (fst corner)) f.
Lemma norm_vx p : Rabs (vx p) <= norm p /\ Rabs (vy p) <= norm p.
Proof.
  unfold norm. rewrite <- (sqrt_Rsqr_abs (vx p)), <- (sqrt_Rsqr_abs (vy p)). pose proof (Rle_0_sqr (vx p)). pose proof (Rle_0_sqr (vy p)). unfold Rsqr in *. split; apply sqrt_le_1_alt; lra.
Qed.
Lemma corners_unhidden m ax ay v cs : 1 <= m -> (1 <= v <= 40)%Z -> Forall (for_a_corner m ax ay v) cs -> Forall (unhidden_upright m ax ay cs) (corners_of v).
Proof.
  intros M HV HF. apply Forall_forall. intros [r q] IC f IF (p & [PX PY] & CL). cbn [fst snd] in *.
  rewrite Forall_forall in HF. destruct (HF f IF) as ([r' q'] & IC' & FU). cbn [fst snd] in FU.
  assert (EQ : r = r' /\ q = q'); [|now destruct EQ as [-> ->]].
  destruct FU as (x & y & w & [VX VY] & _ & X & Y & _). cbn [vx vy] in VX, VY. assert (EX : vx p = x) by (destruct PX, VX; congruence). assert (EY : vy p = y) by (destruct PY, VY; congruence). rewrite <- EX in X. rewrite <- EY in Y.
  destruct (norm_vx (minus (Vec (ax + m * IZR q) (ay + m * IZR r - 3 / 2 * m)) p)) as [NX NY]. cbn [minus vx vy] in NX, NY. apply Rabs_le_inv in NX, NY. set (nn := norm _) in *. clearbody nn.
  assert (S : IZR (side_of v - 4) = IZR (4 * v + 10) + 3) by (rewrite <- plus_IZR; f_equal; unfold side_of; lia). assert (N0 : 14 <= IZR (4 * v + 10)) by (apply IZR_le; lia).
  assert (MN : m * 14 <= m * IZR (4 * v + 10)) by (apply Rmult_le_compat_l; lra). set (N := IZR (4 * v + 10)) in *. clearbody N.
  cbn [corners_of In] in IC, IC'. change (IZR 3) with 3 in *.
  destruct IC as [IC|[IC|[IC|[]]]], IC' as [IC'|[IC'|[IC'|[]]]]; injection IC as <- <-; injection IC' as <- <-; rewrite ?S in *; change (IZR 3) with 3 in *; (split; reflexivity) || (exfalso; lra).
Qed.

(** A symbol with one light module around it and white paper to its left, and no other candidates than for its finder patterns *)
Theorem C84_picture {D : Type} (dec : decoder D gray (list N)) (img : D) g m ax ay v d text cs rs : usual dec -> d_prepare dec img = Ok g ->
  wf_gray g -> (gw g <= 2 ^ 22)%Z -> (gh g <= 2 ^ 22)%Z -> (1 <= v <= 40)%Z ->
  drawn_at_angle (pixel g) m 1 0 (ax - m) (ay - m) (side_of v + 2) (margined (side_of v) (fun r c => d c r)) -> white_left (pixel g) m ax ay (side_of v) ->
  finder_corners (side_of v) (fun r c => d c r) -> third_row_steady (side_of v) (fun r c => d c r) ->
  large_modules m v d -> IZR (4 * v + 10) / 5 + 4.1 <= 1.999 * m -> holds_text v d text ->
  find_candidates g = Ok cs -> Forall (for_a_corner m ax ay v) cs -> decode dec img = Ok rs -> In (inl text) rs.
Proof.
  intros U HP HW WG HG HV HD HL HF HT HM ST TX E AL ER. assert (M14 : 14 <= m) by (destruct HM as [[_ H]|(_ & _ & H)]; lra).
  apply (C84_decoded dec img g m ax ay v d text cs rs U HP HW WG HG HV); auto.
  - now apply margined_inner; [lra|].
  - apply (corners_visible g m ax ay v (fun r c => d c r)); auto. lra.
  - apply corners_unhidden; auto. lra.
Qed.
(** the picture above has what the theorem asks for *)
Example C84_picture_example : drawn_at_angle (pixel fifths) 16.2 1 0 (41.1 - 16.2) (41.1 - 16.2) 23 (margined 21 (fun r c => modules_1 c r)) /\ white_left (pixel fifths) 16.2 41.1 41.1 21 /\
  finder_corners 21 (fun r c => modules_1 c r) /\ third_row_steady 21 (fun r c => modules_1 c r) /\ large_modules 16.2 1 modules_1 /\ Forall (visible_upright fifths 16.2 41.1 41.1) (corners_of 1).
Proof.
  assert (HD : drawn_at_angle (pixel fifths) 16.2 1 0 (41.1 - 16.2) (41.1 - 16.2) 23 (margined 21 (fun r c => modules_1 c r))).
  { split; [lra|]. split; [lra|]. intros row column i j Hr Hc [[A1 A2] [B1 B2]].
    assert (X : (81 * (column - 1) <= 5 * (i - 33) < 81 * (column - 1) + 81)%Z) by (split; [apply le_IZR|apply lt_IZR]; rewrite ?plus_IZR, ?mult_IZR, ?minus_IZR; lra).
    assert (Y : (81 * (row - 1) <= 5 * (j - 33) < 81 * (row - 1) + 81)%Z) by (split; [apply le_IZR|apply lt_IZR]; rewrite ?plus_IZR, ?mult_IZR, ?minus_IZR; lra).
    clear A1 A2 B1 B2. split; [lia|]. split; [lia|].
    unfold pixel, fifths. rewrite image_of_pixel by lia. unfold fifths_pixel, margined. cbv zeta.
    replace (5 * (i - 33) / 81)%Z with (column - 1)%Z by (apply Z.div_unique with (5 * (i - 33) - 81 * (column - 1))%Z; lia).
    replace (5 * (j - 33) / 81)%Z with (row - 1)%Z by (apply Z.div_unique with (5 * (j - 33) - 81 * (row - 1))%Z; lia).
    destruct (Z.leb_spec 1 row), (Z.leb_spec 0 (row - 1)); try lia; [|reflexivity]. destruct (Z.ltb_spec (row - 1) 21), (Z.leb_spec row 21); try lia; [|reflexivity].
    destruct (Z.leb_spec 0 (column - 1)), (Z.leb_spec 1 column); try lia; [|reflexivity]. destruct (Z.ltb_spec (column - 1) 21), (Z.leb_spec column 21); try lia; reflexivity. }
  assert (HL : white_left (pixel fifths) 16.2 41.1 41.1 21).
  { intros i j I0 IL J. assert (IX : (i <= 32)%Z) by (apply Z.lt_succ_r, lt_IZR; change (IZR (Z.succ 32)) with 33; lra).
    assert (JX : (33 <= j < 400)%Z) by (split; [apply le_IZR|apply lt_IZR]; lra). unfold pixel, fifths. rewrite image_of_pixel by lia. unfold fifths_pixel. cbv zeta.
    assert (5 * (i - 33) / 81 < 0)%Z by (apply Z.div_lt_upper_bound; lia). destruct (Z.leb_spec 0 (5 * (i - 33) / 81)); [lia|]. rewrite !andb_false_r. reflexivity. }
  assert (HF : finder_corners 21 (fun r c => modules_1 c r)) by (apply check_corners_ok; vm_compute; reflexivity).
  assert (HT : third_row_steady 21 (fun r c => modules_1 c r)).
  { intros c H0 H1. assert (A : In c (map Z.of_nat (seq 0 7))) by (apply in_map_iff; exists (Z.to_nat c); split; [lia|apply in_seq; lia]).
    cbn in A. repeat destruct A as [<-|A]; try contradiction; [exists 1%Z|exists 1%Z|exists 3%Z|exists 2%Z|exists 1%Z|exists 1%Z|exists 2%Z]; (split; [lia|vm_compute; discriminate]). }
  split; [exact HD|]. split; [exact HL|]. split; [exact HF|]. split; [exact HT|]. split; [left; split; [reflexivity|lra]|].
  apply (corners_visible fifths 16.2 41.1 41.1 1 (fun r c => modules_1 c r)); auto; [exact fifths_wf|lia|lra].
Qed.
