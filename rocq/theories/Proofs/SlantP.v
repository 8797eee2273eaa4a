(** Lines through a finder pattern at any angle. *)
From Coq Require Import NArith ZArith Reals List Lia Lra Bool Arith Psatz.
From Verif.Model Require Import Prepare Detect.
From Flocq Require Import Core.
From Verif.Spec Require Import Window Finder Drawing Angle Slant.
From Verif.Proofs Require Import BaseP PrepareP FloatP ApproxP DetectP ExtractP AlignP RefineP RefineF CrossP.
Import ListNotations.
Local Open Scope R_scope.

(** *** integers between two bounds *)
Lemma least (P : Z -> Prop) (DEC : forall t, P t \/ ~ P t) lo : (forall t, P t -> (lo <= t)%Z) -> forall n t, P t -> (t - lo <= Z.of_nat n)%Z ->
  exists a, P a /\ forall t', P t' -> (a <= t')%Z.
Proof.
  intros HL. induction n as [|n IH]; intros t HP HN.
  - exists t. split; [exact HP|]. intros t' HT. apply HL in HT. lia.
  - destruct (DEC (t - 1)%Z) as [Y|N]; [apply (IH _ Y); lia|].
    assert (D : (exists t', P t' /\ (t' < t)%Z) \/ forall t', P t' -> (t <= t')%Z).
    { clear IH. assert (K : forall k, (exists t', P t' /\ (t' < t)%Z) \/ forall t', P t' -> (t - Z.of_nat k <= t')%Z -> (t <= t')%Z).
      { induction k as [|k [K|K]]; [right; intros; lia|now left|]. destruct (DEC (t - Z.of_nat (S k))%Z) as [Y|Y].
        - left. exists (t - Z.of_nat (S k))%Z. split; [exact Y|lia].
        - right. intros t' HT L. destruct (Z.eq_dec t' (t - Z.of_nat (S k))) as [-> | NE]; [contradiction|]. apply K; [exact HT|lia]. }
      destruct (K (Z.to_nat (t - lo))) as [L|L]; [now left|]. right. intros t' HT. apply L; [exact HT|]. pose proof (HL t' HT). pose proof (HL t HP). lia. }
    destruct D as [(t' & HT & L)|D]; [apply (IH t' HT); lia|]. now exists t.
Qed.

Lemma between (P : Z -> Prop) (DEC : forall t, P t \/ ~ P t) lo hi t0 : (forall t, P t -> (lo <= t < hi)%Z) -> P t0 ->
  (forall t1 t t2, P t1 -> P t2 -> (t1 <= t <= t2)%Z -> P t) -> exists a b, (a <= t0 < b)%Z /\ forall t, P t <-> (a <= t < b)%Z.
Proof.
  intros HB H0 HC.
  destruct (least P DEC lo) with (n := Z.to_nat (t0 - lo)) (t := t0) as (a & HA & LA); [intros; now apply HB|exact H0|lia|].
  destruct (least (fun t => P (- t)%Z) (fun t => DEC (- t)%Z) (- hi)) with (n := Z.to_nat (hi - t0)) (t := (- t0)%Z) as (b & HB' & LB).
  { intros t Ht. apply HB in Ht. lia. } { now rewrite Z.opp_involutive. } { lia. }
  exists a, (- b + 1)%Z. split.
  - split; [now apply LA|]. specialize (LB (- t0)%Z). rewrite Z.opp_involutive in LB. specialize (LB H0). lia.
  - intros t. split.
    + intros Ht. split; [now apply LA|]. specialize (LB (- t)%Z). rewrite Z.opp_involutive in LB. specialize (LB Ht). lia.
    + intros Ht. apply (HC a t (- b)%Z HA HB'). lia.
Qed.

(** *** two perpendicular forms along a line *)
Lemma form_good p q t z : p <> 0 -> Rabs q <= Rabs p / 2 ->
  Rabs p * Rabs (t + q / p * z) <= Rmax (Rabs (p * t + q * z)) (Rabs (p * z - q * t)) <= Rmax (Rabs p * Rabs (t + q / p * z)) (5 / 2 * (Rabs p * Rabs z)).
Proof.
  intros P Q. assert (E : Rabs p * Rabs (t + q / p * z) = Rabs (p * t + q * z)) by (rewrite <- Rabs_mult; f_equal; field; exact P).
  rewrite E. split; [apply Rmax_l|]. apply Rmax_lub; [apply Rmax_l|].
  destruct (Rle_dec (Rabs (p * z - q * t)) (Rabs (p * t + q * z))) as [L|L]; [apply Rle_trans with (1 := L), Rmax_l|].
  apply Rle_trans with (2 := Rmax_r _ _).
  assert (A : Rabs (p * t) - Rabs (q * z) <= Rabs (p * t + q * z)) by (pose proof (Rabs_triang_inv (p * t) (- (q * z))) as A; rewrite Rabs_Ropp in A; unfold Rminus in A; rewrite Ropp_involutive in A; exact A).
  assert (B : Rabs (p * z - q * t) <= Rabs (p * z) + Rabs (q * t)) by (pose proof (Rabs_triang (p * z) (- (q * t))) as B; rewrite Rabs_Ropp in B; exact B).
  rewrite !Rabs_mult in A, B. set (P' := Rabs p) in *. set (Q' := Rabs q) in *.
  assert (QZ : Q' * Rabs z <= P' / 2 * Rabs z) by (apply Rmult_le_compat_r; [apply Rabs_pos|exact Q]).
  assert (QT : Q' * Rabs t <= P' / 2 * Rabs t) by (apply Rmult_le_compat_r; [apply Rabs_pos|exact Q]). lra.
Qed.
Lemma form_bad p q t z : Rabs q <= Rabs p ->
  Rabs p * (Rabs t - Rabs z) <= Rmax (Rabs (p * t + q * z)) (Rabs (p * z - q * t)) <= Rabs p * (Rabs t + Rabs z).
Proof.
  intros Q.
  assert (A : Rabs (p * t) - Rabs (q * z) <= Rabs (p * t + q * z)) by (pose proof (Rabs_triang_inv (p * t) (- (q * z))) as A; rewrite Rabs_Ropp in A; unfold Rminus in A; rewrite Ropp_involutive in A; exact A).
  assert (B : Rabs (p * z - q * t) <= Rabs (p * z) + Rabs (q * t)) by (pose proof (Rabs_triang (p * z) (- (q * t))) as B; rewrite Rabs_Ropp in B; exact B).
  assert (B' := Rabs_triang (p * t) (q * z)).
  rewrite !Rabs_mult in A, B, B'. set (P' := Rabs p) in *. set (Q' := Rabs q) in *.
  assert (QZ : Q' * Rabs z <= P' * Rabs z) by (apply Rmult_le_compat_r; [apply Rabs_pos|exact Q]).
  assert (QT : Q' * Rabs t <= P' * Rabs t) by (apply Rmult_le_compat_r; [apply Rabs_pos|exact Q]).
  split; [apply Rle_trans with (2 := Rmax_l _ _); lra|apply Rmax_lub; lra].
Qed.

Section Slant.
Context (g : gray) (m c s ax ay : R).
Context (WF : wf_gray g) (HD : finder_at_angle (pixel g) m c s ax ay).

Definition fU (x y : R) : R := c * (x - ax) + s * (y - ay).
Definition fW (x y : R) : R := c * (y - ay) - s * (x - ax).
Definition inside (r x y : R) : Prop := - (r * m) <= fU x y < r * m /\ - (r * m) <= fW x y < r * m.

Lemma m_pos : 0 < m. Proof. apply HD. Qed.
Lemma unit_cs : c * c + s * s = 1. Proof. apply HD. Qed.

Lemma in_cell u : - (9 / 2 * m) <= u < 9 / 2 * m -> exists k, (0 <= k < 9)%Z /\ m * (IZR k - 4 - / 2) <= u < m * (IZR k - 4 + / 2).
Proof.
  intros H. pose proof m_pos as P. set (z := u / m). assert (E : u = m * z) by (unfold z; field; lra). clearbody z. subst u.
  exists (Zfloor (z + 9 / 2)). pose proof (Zfloor_lb (z + 9 / 2)). pose proof (Zfloor_ub (z + 9 / 2)).
  assert (Z1 : - (9 / 2) <= z) by (apply Rmult_le_reg_l with m; [exact P|lra]). assert (Z2 : z < 9 / 2) by (apply Rmult_lt_reg_l with m; [exact P|lra]).
  split; [|split; [apply Rmult_le_compat_l; lra|apply Rmult_lt_compat_l; lra]].
  split; [apply Zfloor_lub; simpl; lra|]. apply lt_IZR. simpl. lra.
Qed.

Lemma cell_ring k u (n : Z) : m * (IZR k - 4 - / 2) <= u < m * (IZR k - 4 + / 2) ->
  (- ((IZR n + / 2) * m) <= u < (IZR n + / 2) * m <-> (4 - n <= k <= 4 + n)%Z).
Proof.
  intros H. pose proof m_pos as P. split.
  - intros [K1 K2]. split.
    + assert (L : 4 - IZR n - 1 < IZR k) by (apply Rmult_lt_reg_l with m; [exact P|nra]).
      assert (4 - n - 1 < k)%Z; [apply lt_IZR; rewrite !minus_IZR; exact L|lia].
    + assert (L : IZR k < 4 + IZR n + 1) by (apply Rmult_lt_reg_l with m; [exact P|nra]).
      assert (k < 4 + n + 1)%Z; [apply lt_IZR; rewrite !plus_IZR; exact L|lia].
  - intros [K1 K2]. apply IZR_le in K1, K2. rewrite minus_IZR in K1. rewrite plus_IZR in K2. split; nra.
Qed.

(** the pixel (i, j) lies in the module (row, column) of the pattern *)
Lemma ring_pixel i j : inside (9 / 2) (IZR i) (IZR j) -> exists row column, (0 <= row < 9)%Z /\ (0 <= column < 9)%Z /\
  (0 <= i < gw g)%Z /\ (0 <= j < gh g)%Z /\ get_pixel g i j = Ok (if ringed_finder row column then 0%N else 255%N) /\
  forall n : Z, inside (IZR n + / 2) (IZR i) (IZR j) <-> (4 - n <= row <= 4 + n)%Z /\ (4 - n <= column <= 4 + n)%Z.
Proof.
  intros [HU HW]. destruct (in_cell _ HU) as (column & RC & CC). destruct (in_cell _ HW) as (row & RR & CR).
  exists row, column. split; [exact RR|]. split; [exact RC|].
  destruct HD as (_ & _ & H). pose proof unit_cs as E.
  destruct (H row column i j RR RC) as (I0 & J0 & PX).
  { unfold in_module, middle_x, middle_y.
    replace (c * (IZR i - (ax + m * (c * -4 - s * -4))) + s * (IZR j - (ay + m * (s * -4 + c * -4)))) with (fU (IZR i) (IZR j) + 4 * m * (c * c + s * s)) by (unfold fU; ring).
    replace (c * (IZR j - (ay + m * (s * -4 + c * -4))) - s * (IZR i - (ax + m * (c * -4 - s * -4)))) with (fW (IZR i) (IZR j) + 4 * m * (c * c + s * s)) by (unfold fW; ring).
    rewrite E. lra. }
  apply pixel_get in PX. pose proof (get_pixel_in g i j _ WF I0 J0 PX) as B. split; [lia|]. split; [lia|]. split; [exact PX|].
  intros n. unfold inside. now rewrite (cell_ring column _ n CC), (cell_ring row _ n CR).
Qed.

Lemma ringed_dark row column : (3 <= row <= 5)%Z /\ (3 <= column <= 5)%Z \/
  ((1 <= row <= 7)%Z /\ (1 <= column <= 7)%Z) /\ ~ ((2 <= row <= 6)%Z /\ (2 <= column <= 6)%Z) -> ringed_finder row column = true.
Proof.
  intros H. unfold ringed_finder, finder_dark. rewrite !andb_true_iff, !Z.leb_le, negb_true_iff, Z.eqb_neq. lia.
Qed.
Lemma ringed_light row column : ((2 <= row <= 6)%Z /\ (2 <= column <= 6)%Z) /\ ~ ((3 <= row <= 5)%Z /\ (3 <= column <= 5)%Z) \/
  ~ ((1 <= row <= 7)%Z /\ (1 <= column <= 7)%Z) -> ringed_finder row column = false.
Proof.
  intros H. unfold ringed_finder, finder_dark. apply not_true_iff_false. rewrite !andb_true_iff, !Z.leb_le, negb_true_iff, Z.eqb_neq. lia.
Qed.

Lemma ring_mono r r' x y : r <= r' -> inside r x y -> inside r' x y.
Proof. intros L [A B]. pose proof m_pos. assert (r * m <= r' * m) by nra. unfold inside. lra. Qed.

(** the colours *)
Lemma ring_colour i j : inside (9 / 2) (IZR i) (IZR j) ->
  (inside (3 / 2) (IZR i) (IZR j) -> get_pixel g i j = Ok 0%N) /\
  (inside (5 / 2) (IZR i) (IZR j) -> ~ inside (3 / 2) (IZR i) (IZR j) -> get_pixel g i j = Ok 255%N) /\
  (inside (7 / 2) (IZR i) (IZR j) -> ~ inside (5 / 2) (IZR i) (IZR j) -> get_pixel g i j = Ok 0%N) /\
  (~ inside (7 / 2) (IZR i) (IZR j) -> get_pixel g i j = Ok 255%N).
Proof.
  intros H. destruct (ring_pixel i j H) as (row & column & RR & RC & _ & _ & E & K). rewrite E.
  pose proof (K 1%Z) as K1. pose proof (K 2%Z) as K2. pose proof (K 3%Z) as K3.
  replace (IZR 1 + / 2) with (3 / 2) in K1 by lra. replace (IZR 2 + / 2) with (5 / 2) in K2 by lra. replace (IZR 3 + / 2) with (7 / 2) in K3 by lra.
  split; [intros A; rewrite ringed_dark; [reflexivity|tauto]|].
  split; [intros A B; rewrite ringed_light; [reflexivity|tauto]|].
  split; [intros A B; rewrite ringed_dark; [reflexivity|tauto]|].
  intros A. rewrite ringed_light; [reflexivity|tauto].
Qed.

(** *** lines *)
Definition nrm (x y : R) : R := Rmax (Rabs (fU x y)) (Rabs (fW x y)).
Lemma nrm_inside r x y : nrm x y < r * m -> inside r x y.
Proof.
  unfold nrm, inside. intros H. pose proof (Rmax_l (Rabs (fU x y)) (Rabs (fW x y))). pose proof (Rmax_r (Rabs (fU x y)) (Rabs (fW x y))).
  pose proof (Rle_abs (fU x y)). pose proof (Rle_abs (- fU x y)). pose proof (Rle_abs (fW x y)). pose proof (Rle_abs (- fW x y)). rewrite !Rabs_Ropp in *. lra.
Qed.
Lemma inside_nrm r x y : inside r x y -> nrm x y <= r * m.
Proof. unfold nrm, inside. intros H. apply Rmax_lub; apply Rabs_le; lra. Qed.

Definition at_t (h : Z -> Z * Z) (r : R) (t : Z) : Prop := inside r (IZR (fst (h t))) (IZR (snd (h t))).
(** the distance from the centre, in terms of the squares around it, grows in proportion to the distance from [tau] *)
Definition meets (h : Z -> Z * Z) (al tau d : R) : Prop := 0 < al /\ 0 <= d /\
  (exists x0 y0 kx ky, forall t, IZR (fst (h t)) = x0 + kx * IZR t /\ IZR (snd (h t)) = y0 + ky * IZR t) /\
  forall t, al * (Rabs (IZR t - tau) - d) <= nrm (IZR (fst (h t))) (IZR (snd (h t))) <= Rmax (al * (Rabs (IZR t - tau) + d)) (7 / 5 * m).

Lemma at_t_dec h r t : at_t h r t \/ ~ at_t h r t.
Proof.
  unfold at_t, inside. set (u := fU _ _). set (w := fW _ _).
  destruct (Rle_dec (- (r * m)) u), (Rlt_dec u (r * m)), (Rle_dec (- (r * m)) w), (Rlt_dec w (r * m)); tauto.
Qed.

Lemma affine_between a b lo hi t1 t t2 : lo <= a + b * t1 < hi -> lo <= a + b * t2 < hi -> t1 <= t <= t2 -> lo <= a + b * t < hi.
Proof.
  intros H1 H2 Ht. destruct (Rle_dec 0 b) as [B|B].
  - assert (b * t1 <= b * t) by (apply Rmult_le_compat_l; lra). assert (b * t <= b * t2) by (apply Rmult_le_compat_l; lra). lra.
  - assert (b * t2 <= b * t) by (apply Rmult_le_compat_neg_l; lra). assert (b * t <= b * t1) by (apply Rmult_le_compat_neg_l; lra). lra.
Qed.

Lemma at_t_convex h al tau d r t1 t t2 : meets h al tau d -> at_t h r t1 -> at_t h r t2 -> (t1 <= t <= t2)%Z -> at_t h r t.
Proof.
  intros (_ & _ & (x0 & y0 & kx & ky & L) & _) H1 H2 [T1 T2]. apply IZR_le in T1, T2. unfold at_t, inside in *.
  destruct (L t1) as [X1 Y1]. destruct (L t2) as [X2 Y2]. destruct (L t) as [X Y]. rewrite X, Y, X1, Y1, X2, Y2 in *.
  assert (EU : forall z, fU (x0 + kx * z) (y0 + ky * z) = fU x0 y0 + (c * kx + s * ky) * z) by (intros z; unfold fU; ring).
  assert (EW : forall z, fW (x0 + kx * z) (y0 + ky * z) = fW x0 y0 + (c * ky - s * kx) * z) by (intros z; unfold fW; ring).
  rewrite !EU, !EW in *. split; apply (affine_between _ _ _ _ (IZR t1) _ (IZR t2)); lra.
Qed.

Lemma round_near x : exists t, Rabs (IZR t - x) <= / 2.
Proof.
  exists (Zfloor (x + / 2)). pose proof (Zfloor_lb (x + / 2)). pose proof (Zfloor_ub (x + / 2)). rabs; lra.
Qed.

Lemma cut h al tau d M r : meets h al tau d -> al * M = m -> 3 / 2 <= r -> d + / 2 < 7 / 5 * M -> exists a b,
  (forall t, at_t h r t <-> (a <= t < b)%Z) /\
  tau - r * M - d <= IZR a <= tau - r * M + d + 1 /\ tau + r * M - d <= IZR b <= tau + r * M + d + 1.
Proof.
  intros HM EM Hr HS. pose proof HM as (AL & D0 & _ & HN). pose proof m_pos as MP. destruct (round_near tau) as (t0 & T0).
  assert (M0 : 0 < M) by (apply Rmult_lt_reg_l with al; lra).
  assert (RM : r * m = al * (r * M)) by (rewrite <- EM; ring).
  assert (RM1 : 3 / 2 * M <= r * M) by (apply Rmult_le_compat_r; lra).
  assert (IN : forall t, at_t h r t -> Rabs (IZR t - tau) <= r * M + d).
  { intros t Ht. apply inside_nrm in Ht. destruct (HN t) as [L _]. assert (Rabs (IZR t - tau) - d <= r * M); [|lra]. apply Rmult_le_reg_l with al; [exact AL|lra]. }
  assert (OUT : forall t, ~ at_t h r t -> r * M - d <= Rabs (IZR t - tau)).
  { intros t Ht. apply Rnot_lt_le. intros L. apply Ht, nrm_inside. destruct (HN t) as [_ K]. apply Rle_lt_trans with (1 := K).
    apply Rmax_lub_lt; [rewrite RM; apply Rmult_lt_compat_l; lra|]. assert (7 / 5 * m < r * m) by (apply Rmult_lt_compat_r; lra). lra. }
  assert (I0 : at_t h r t0).
  { destruct (at_t_dec h r t0) as [Y|N]; [exact Y|]. apply OUT in N. lra. }
  destruct (between (at_t h r) (at_t_dec h r) (Zfloor (tau - (r * M + d))) (Zceil (tau + (r * M + d)) + 1) t0) as (a & b & AB & HAB).
  { intros t Ht. apply IN in Ht. split.
    - apply le_IZR. pose proof (Zfloor_lb (tau - (r * M + d))). rabs; lra.
    - apply lt_IZR. rewrite plus_IZR. pose proof (Zceil_ub (tau + (r * M + d))). rabs; lra. }
  { exact I0. }
  { intros t1 t t2. apply (at_t_convex h al tau d r t1 t t2 HM). }
  exists a, b. split; [exact HAB|].
  assert (A1 := IN a (proj2 (HAB a) ltac:(lia))). assert (B1 := IN (b - 1)%Z (proj2 (HAB (b - 1)%Z) ltac:(lia))).
  assert (A2 := OUT (a - 1)%Z ltac:(rewrite HAB; lia)). assert (B2 := OUT b ltac:(rewrite HAB; lia)).
  destruct AB as [AB1 AB2]. apply IZR_le in AB1. assert (AB3 : (t0 + 1 <= b)%Z) by lia. apply IZR_le in AB3. rewrite plus_IZR in AB3. rewrite minus_IZR in *.
  clear IN OUT HN HAB. rabs; lra.
Qed.

(** the seven borders that matter *)
Record crossed (h : Z -> Z * Z) (tau M d : R) (a4 a3 a2 a1 b1 b2 b3 : Z) : Prop := Crossed {
  cr_a4 : tau - 9 / 2 * M - d <= IZR a4 <= tau - 9 / 2 * M + d + 1;
  cr_a3 : tau - 7 / 2 * M - d <= IZR a3 <= tau - 7 / 2 * M + d + 1;
  cr_a2 : tau - 5 / 2 * M - d <= IZR a2 <= tau - 5 / 2 * M + d + 1;
  cr_a1 : tau - 3 / 2 * M - d <= IZR a1 <= tau - 3 / 2 * M + d + 1;
  cr_b1 : tau + 3 / 2 * M - d <= IZR b1 <= tau + 3 / 2 * M + d + 1;
  cr_b2 : tau + 5 / 2 * M - d <= IZR b2 <= tau + 5 / 2 * M + d + 1;
  cr_b3 : tau + 7 / 2 * M - d <= IZR b3 <= tau + 7 / 2 * M + d + 1;
  cr_s4 : shows_at g h a4 a3 255; cr_s3 : shows_at g h a3 a2 0; cr_s2 : shows_at g h a2 a1 255; cr_s1 : shows_at g h a1 b1 0;
  cr_t1 : shows_at g h b1 b2 255; cr_t2 : shows_at g h b2 b3 0; cr_t3 : shows_at g h b3 (b3 + 1) 255;
  cr_in : forall t, (a3 - 1 <= t <= b3)%Z -> (0 <= fst (h t) < gw g)%Z /\ (0 <= snd (h t) < gh g)%Z }.

Lemma crosses_pattern h al tau d M : meets h al tau d -> al * M = m -> 16 * (2 * d + 1) <= 7 * M ->
  exists a4 a3 a2 a1 b1 b2 b3, crossed h tau M d a4 a3 a2 a1 b1 b2 b3.
Proof.
  intros HM EM HS. assert (D0 : 0 <= d) by apply HM.
  destruct (cut h al tau d M (9 / 2) HM EM) as (a4 & b4 & I4 & A4 & B4); [lra|lra|].
  destruct (cut h al tau d M (7 / 2) HM EM) as (a3 & b3 & I3 & A3 & B3); [lra|lra|].
  destruct (cut h al tau d M (5 / 2) HM EM) as (a2 & b2 & I2 & A2 & B2); [lra|lra|].
  destruct (cut h al tau d M (3 / 2) HM EM) as (a1 & b1 & I1 & A1 & B1); [lra|lra|].
  assert (L1 : (a4 < a3)%Z) by (apply lt_IZR; lra). assert (L2 : (a3 < a2)%Z) by (apply lt_IZR; lra). assert (L3 : (a2 < a1)%Z) by (apply lt_IZR; lra).
  assert (L4 : (a1 < b1)%Z) by (apply lt_IZR; lra). assert (L5 : (b1 < b2)%Z) by (apply lt_IZR; lra). assert (L6 : (b2 < b3)%Z) by (apply lt_IZR; lra).
  assert (L7 : (b3 < b4)%Z) by (apply lt_IZR; lra).
  assert (COL : forall t, (a4 <= t < b4)%Z -> _) by (intros t Ht; exact (ring_colour _ _ (proj2 (I4 t) Ht))). cbv beta in COL.
  assert (C1 : forall t, (a1 <= t < b1)%Z -> get_pixel g (fst (h t)) (snd (h t)) = Ok 0%N).
  { intros t Ht. destruct (COL t ltac:(lia)) as (K & _). apply K. now apply (I1 t). }
  assert (C2 : forall t, (a2 <= t < b2)%Z -> ~ (a1 <= t < b1)%Z -> get_pixel g (fst (h t)) (snd (h t)) = Ok 255%N).
  { intros t Ht N. destruct (COL t ltac:(lia)) as (_ & K & _). apply K; [now apply (I2 t)|]. now rewrite <- I1 in N. }
  assert (C3 : forall t, (a3 <= t < b3)%Z -> ~ (a2 <= t < b2)%Z -> get_pixel g (fst (h t)) (snd (h t)) = Ok 0%N).
  { intros t Ht N. destruct (COL t ltac:(lia)) as (_ & _ & K & _). apply K; [now apply (I3 t)|]. now rewrite <- I2 in N. }
  assert (C4 : forall t, (a4 <= t < b4)%Z -> ~ (a3 <= t < b3)%Z -> get_pixel g (fst (h t)) (snd (h t)) = Ok 255%N).
  { intros t Ht N. destruct (COL t ltac:(lia)) as (_ & _ & _ & K). apply K. now rewrite <- I3 in N. }
  exists a4, a3, a2, a1, b1, b2, b3. constructor; try assumption; try (intros t Ht; first [apply C1; lia|apply C2; lia|apply C3; lia|apply C4; lia]).
  intros t Ht. destruct (ring_pixel _ _ (proj2 (I4 t) ltac:(lia))) as (row & column & _ & _ & X & Y & _). auto.
Qed.

Ltac to_R := first [apply le_IZR|apply lt_IZR]; repeat (rewrite plus_IZR || rewrite minus_IZR || rewrite mult_IZR).
Lemma crossed_right h tau M d a4 a3 a2 a1 b1 b2 b3 t0 e : crossed h tau M d a4 a3 a2 a1 b1 b2 b3 -> 0 <= d -> 16 * (2 * d + 1) <= 7 * M ->
  (t0 < a3)%Z -> (b3 < e)%Z -> tau - (27 / 2 * M - 11 * (2 * d + 1)) <= IZR t0 ->
  borders g h t0 a4 a3 a2 a1 b1 b2 b3 /\ about_right t0 e a4 a3 a2 a1 b1 b2 b3.
Proof.
  intros [A4 A3 A2 A1 B1 B2 B3 S4 S3 S2 S1 T1 T2 T3 _] D0 HK HS HE HT. split.
  - repeat split; try assumption. intros t Ht. apply S4. lia.
  - unfold about_right. split; [exact HS|].
    assert (L1 : (a4 < a3)%Z) by (apply lt_IZR; lra). assert (L2 : (a3 < a2)%Z) by (apply lt_IZR; lra). assert (L3 : (a2 < a1)%Z) by (apply lt_IZR; lra).
    assert (L4 : (a1 < b1)%Z) by (apply lt_IZR; lra). assert (L5 : (b1 < b2)%Z) by (apply lt_IZR; lra). assert (L6 : (b2 < b3)%Z) by (apply lt_IZR; lra).
    split; [lia|]. split; [lia|]. split; [lia|]. split; [exact HE|].
    split. { destruct (Z.max_spec t0 a4) as [[_ ->]|[_ ->]]; [to_R; lra|lia]. }
    split; [to_R; lra|]. split; [to_R; lra|]. split; [to_R; lra|]. split; [to_R; lra|]. split; [to_R; lra|]. split; [to_R; lra|]. split; [to_R; lra|].
    split.
    + unfold finder_runs, stands_for. cbv zeta. replace (a2 - a3 + (a1 - a2) + (b1 - a1) + (b2 - b1) + (b3 - b2))%Z with (b3 - a3)%Z by lia.
      assert (AB : forall k r, (3 * (k * (b3 - a3) - 7 * r) <= 2 * (b3 - a3))%Z -> (3 * (7 * r - k * (b3 - a3)) <= 2 * (b3 - a3))%Z ->
        (3 * Z.abs (k * (b3 - a3) - 7 * r) <= 2 * (b3 - a3))%Z) by (intros; lia).
      assert (7 <= b3 - a3)%Z by (to_R; lra).
      repeat split; try assumption; apply AB; to_R; lra.
    + apply Z.lt_neq. to_R. lra.
Qed.

(** either the borders are straight where the line meets them, or nothing is known about their direction *)
Definition mode (ka la : R) : Prop := ka = / 2 /\ la = 0 \/ ka = 0 /\ la = 1.

Lemma meets_form h p q z t1 ka la : mode ka la -> 0 < Rabs p -> Rabs q <= Rabs p -> (la = 0 -> Rabs q <= Rabs p / 2 /\ 5 / 2 * (Rabs p * Rabs z) <= 7 / 5 * m) ->
  (exists x0 y0 kx ky, forall t, IZR (fst (h t)) = x0 + kx * IZR t /\ IZR (snd (h t)) = y0 + ky * IZR t) ->
  (forall t, nrm (IZR (fst (h t))) (IZR (snd (h t))) = Rmax (Rabs (p * (IZR t - t1) + q * z)) (Rabs (p * z - q * (IZR t - t1)))) ->
  exists tau, meets h (Rabs p) tau (la * Rabs z) /\ Rabs (tau - t1) <= ka * Rabs z.
Proof.
  intros [[-> ->]|[-> ->]] P0 Q G A E.
  - destruct (G eq_refl) as [G1 G2]. assert (NP : p <> 0) by (intros ->; rewrite Rabs_R0 in P0; lra).
    exists (t1 - q / p * z). split.
    + rewrite Rmult_0_l. split; [exact P0|]. split; [lra|]. split; [exact A|]. intros t. rewrite E.
      pose proof (form_good p q (IZR t - t1) z NP G1) as [F1 F2]. replace (IZR t - (t1 - q / p * z)) with (IZR t - t1 + q / p * z) by ring.
      rewrite Rminus_0_r, Rplus_0_r. split; [exact F1|]. apply Rle_trans with (1 := F2). apply Rmax_lub; [apply Rmax_l|]. apply Rle_trans with (2 := Rmax_r _ _). exact G2.
    + replace (t1 - q / p * z - t1) with (- (q / p * z)) by ring. rewrite Rabs_Ropp, Rabs_mult. apply Rmult_le_compat_r; [apply Rabs_pos|].
      unfold Rdiv. rewrite Rabs_mult, Rabs_inv. apply Rmult_le_reg_r with (Rabs p); [exact P0|]. rewrite Rmult_assoc, Rinv_l by lra. lra.
  - exists t1. split.
    + rewrite Rmult_1_l. split; [exact P0|]. split; [apply Rabs_pos|]. split; [exact A|]. intros t. rewrite E.
      pose proof (form_bad p q (IZR t - t1) z Q) as [F1 F2]. split; [exact F1|]. apply Rle_trans with (1 := F2), Rmax_l.
    + replace (t1 - t1) with 0 by ring. rewrite Rabs_R0. pose proof (Rabs_pos z). lra.
Qed.

Definition big_cs : R := Rmax (Rabs c) (Rabs s).
Definition small_cs : R := Rmin (Rabs c) (Rabs s).
Lemma big_small : 0 < big_cs /\ 0 <= small_cs <= big_cs /\ big_cs * big_cs + small_cs * small_cs = 1.
Proof.
  pose proof unit_cs as U. pose proof (Rabs_pos c). pose proof (Rabs_pos s).
  assert (SC : Rabs c * Rabs c = c * c) by (rewrite <- Rabs_mult; apply Rabs_pos_eq; nra). assert (SS : Rabs s * Rabs s = s * s) by (rewrite <- Rabs_mult; apply Rabs_pos_eq; nra).
  unfold big_cs, small_cs, Rmax, Rmin. destruct (Rle_dec (Rabs c) (Rabs s)); (split; [nra|split; [lra|lra]]).
Qed.
Lemma forms_hv : exists p q, Rabs p = big_cs /\ Rabs q = small_cs /\ (p = c /\ q = s \/ p = - s /\ q = c).
Proof.
  unfold big_cs, small_cs, Rmax, Rmin. destruct (Rle_dec (Rabs c) (Rabs s)).
  - exists (- s), c. rewrite Rabs_Ropp. auto.
  - exists c, s. auto.
Qed.
Lemma forms_diag : exists p q, Rabs p = big_cs + small_cs /\ Rabs q = big_cs - small_cs /\ (p = c + s /\ q = c - s \/ p = c - s /\ q = - (c + s)).
Proof.
  unfold big_cs, small_cs, Rmax, Rmin. destruct (Rle_dec 0 (c * s)) as [P|P].
  - exists (c + s), (c - s). split; [|split]; [| |auto]; destruct (Rle_dec (Rabs c) (Rabs s)); unfold Rabs in *; repeat destruct (Rcase_abs _); nra.
  - exists (c - s), (- (c + s)). rewrite Rabs_Ropp. split; [|split]; [| |auto]; destruct (Rle_dec (Rabs c) (Rabs s)); unfold Rabs in *; repeat destruct (Rcase_abs _); nra.
Qed.

Lemma meets_row y ka la : mode ka la -> (la = 0 -> small_cs <= big_cs / 2 /\ 5 / 2 * (big_cs * Rabs (IZR y - ay)) <= 7 / 5 * m) ->
  exists tau, meets (fun x => (x, y)) big_cs tau (la * Rabs (IZR y - ay)) /\ Rabs (tau - ax) <= ka * Rabs (IZR y - ay).
Proof.
  intros MO G. destruct forms_hv as (p & q & P & Q & PQ). pose proof big_small as (B0 & B1 & _). rewrite <- P, <- Q in *.
  apply (meets_form (fun x => (x, y)) p q (IZR y - ay) ax ka la); auto; [lra| |].
  - exists 0, (IZR y), 1, 0. intros t. cbn [fst snd]. split; ring.
  - intros t. cbn [fst snd]. unfold nrm, fU, fW. destruct PQ as [[-> ->]|[-> ->]]; [reflexivity|]. rewrite Rmax_comm. f_equal; [f_equal; ring|]. rewrite <- Rabs_Ropp. f_equal. ring.
Qed.
Lemma meets_column x ka la : mode ka la -> (la = 0 -> small_cs <= big_cs / 2 /\ 5 / 2 * (big_cs * Rabs (IZR x - ax)) <= 7 / 5 * m) ->
  exists tau, meets (fun y => (x, y)) big_cs tau (la * Rabs (IZR x - ax)) /\ Rabs (tau - ay) <= ka * Rabs (IZR x - ax).
Proof.
  intros MO G. destruct forms_hv as (p & q & P & Q & PQ). pose proof big_small as (B0 & B1 & _). rewrite <- P, <- Q in *.
  rewrite <- (Rabs_Ropp q) in B1, G.
  apply (meets_form (fun y => (x, y)) p (- q) (IZR x - ax) ay ka la); auto; [lra| |].
  - exists (IZR x), 0, 0, 1. intros t. cbn [fst snd]. split; ring.
  - intros t. cbn [fst snd]. unfold nrm, fU, fW. destruct PQ as [[-> ->]|[-> ->]].
    + rewrite Rmax_comm. f_equal; f_equal; ring.
    + f_equal; [rewrite <- Rabs_Ropp|]; f_equal; ring.
Qed.
Lemma meets_diagonal rx ry ka la : let z := ((IZR rx - ax) - (IZR ry - ay)) / 2 in
  mode ka la -> (la = 0 -> big_cs <= 2 * small_cs /\ 5 / 2 * ((big_cs + small_cs) * Rabs z) <= 7 / 5 * m) ->
  exists tau, meets (fun t => (rx + t, ry + t)%Z) (big_cs + small_cs) tau (la * Rabs z) /\ Rabs (tau - ((ax - IZR rx) + (ay - IZR ry)) / 2) <= ka * Rabs z.
Proof.
  intros z MO G. destruct forms_diag as (p & q & P & Q & PQ). pose proof big_small as (B0 & B1 & _).
  assert (PQ1 : Rabs q <= Rabs p) by lra. rewrite <- P in *.
  apply (meets_form (fun t => (rx + t, ry + t)%Z) p q z (((ax - IZR rx) + (ay - IZR ry)) / 2) ka la); auto.
  - rewrite P. lra.
  - intros L. destruct (G L) as [G1 G2]. split; [rewrite P, Q; lra|exact G2].
  - exists (IZR rx), (IZR ry), 1, 1. intros t. cbn [fst snd]. rewrite !plus_IZR. split; ring.
  - intros t. cbn [fst snd]. rewrite !plus_IZR. unfold nrm, fU, fW, z. destruct PQ as [[-> ->]|[-> ->]].
    + f_equal; [f_equal; field|]. rewrite <- Rabs_Ropp. f_equal. field.
    + rewrite Rmax_comm. f_equal; f_equal; field.
Qed.
End Slant.
