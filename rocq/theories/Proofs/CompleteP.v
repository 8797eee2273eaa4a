(** Three points that are like the corners of a symbol are taken for the corners of a symbol. *)
From Coq Require Import NArith ZArith Reals List Lia Lra Bool Psatz.
From Verif.Model Require Import Prepare Detect.
From Flocq Require Import Core.
From Verif.Spec Require Import Finder Plane.
From Verif.Proofs Require Import BaseP PrepareP FloatP ApproxP DetectP GeometryP LocateP.
Import ListNotations.
Local Open Scope R_scope.

Lemma internal_complete one two three ms v1 v2 v3 m V (turn : bool) : at_point one v1 -> at_point two v2 -> at_point three v3 ->
  box v1 -> box v2 -> box v3 -> fin ms m -> 1 <= m <= 1073741824 -> (1 <= V <= 100000)%Z ->
  let A := norm (minus v2 v1) in let B := norm (minus v3 v1) in
  0.8501 * A <= B -> 0.8501 * B <= A -> Rabs (B / m - IZR (4 * V + 10)) <= 1.999 ->
  0.9501 * (A * B) <= (if turn then -1 else 1) * cross (minus v2 v1) (minus v3 v1) ->
  find_qr_internal one two three ms = Ok (Some (if turn then mkQRLoc one three two ms V else mkQRLoc one two three ms V)).
Proof.
  intros P1 P2 P3 B1 B2 B3 FM HM HV A B AB BA FIT RA. unfold find_qr_internal.
  change (fsqrt (fadd (fmul (fsub (px two) (px one)) (fsub (px two) (px one))) (fmul (fsub (py two) (py one)) (fsub (py two) (py one)))))
    with (dist two one).
  change (fsqrt (fadd (fmul (fsub (px three) (px one)) (fsub (px three) (px one))) (fmul (fsub (py three) (py one)) (fsub (py three) (py one)))))
    with (dist three one).
  destruct (dist_ok two one v2 v1 P2 P1 B2 B1) as (la & FA & LA & EA & SA).
  destruct (dist_ok three one v3 v1 P3 P1 B3 B1) as (lb & FB & LB & EB & SB).
  destruct (dist_ok one three v1 v3 P1 P3 B1 B3) as (ld & FD & LD & ED & SD).
  assert (SYM : norm (minus v1 v3) = norm (minus v3 v1)) by (unfold norm; cbn [minus vx vy]; f_equal; ring). rewrite SYM in *.
  fold A in EA, SA. fold B in EB, SB, ED, SD.
  assert (A0 : 0 <= A) by apply norm_pos. assert (B0 : 0 <= B) by apply norm_pos.
  rewrite plus_IZR, mult_IZR in FIT. assert (V1 : 1 <= IZR V) by (apply IZR_le; lia).
  assert (BM : 12 * m <= B).
  { assert (12 <= B / m) by (apply Rabs_le_inv in FIT; lra). apply Rmult_le_compat_r with (r := m) in H; [|lra]. unfold Rdiv in H. rewrite Rmult_assoc, Rinv_l in H by lra. lra. }
  specialize (EA ltac:(lra)). specialize (EB ltac:(lra)). specialize (ED ltac:(lra)).
  pose proof (Rabs_le_inv _ _ EA) as EA'. pose proof (Rabs_le_inv _ _ EB) as EB'.
  assert (MX : 1 <= Rmax la lb) by (apply Rle_trans with lb; [unfold u53 in *; lra|apply Rmax_r]).
  pose proof (diff_apx _ _ _ _ FA FB ltac:(lra) ltac:(lra) MX) as DA.
  assert (RD : rel_diff la lb <= 0.14999).
  { unfold rel_diff. apply le_div; [lra|]. unfold Rmax, u53 in *. destruct (Rle_dec la lb); apply Rabs_le; lra. }
  rewrite (apx_fgt_false _ _ _ _ _ _ DA (lit_apx 15 100 ltac:(lia) ltac:(lia))) by (unfold u53; lra).
  pose proof (box_norm v2 v1 B2 B1) as NA. fold A in NA. pose proof (box_norm v3 v1 B3 B1) as NB. fold B in NB.
  assert (KMAX : 1 <= Rmax A B <= 8589934592).
  { split; [apply Rle_trans with B; [lra|apply Rmax_r]|apply Rmax_lub; lra]. }
  destruct (scale_of _ KMAX) as (K & HK & KL).
  pose proof (Rmax_l A B) as ML. pose proof (Rmax_r A B) as MR.
  assert (MLE : Rmax A B <= 1.2 * A /\ Rmax A B <= 1.2 * B) by (split; apply Rmax_lub; lra).
  pose proof (cross_apx K ltac:(lia) one two three v1 v2 v3 P1 P2 P3 ltac:(fold A; lra) ltac:(fold B; lra)) as CA.
  pose proof (cross_bound (minus v2 v1) (minus v3 v1)) as CB. fold A B in CB.
  set (c := cross (minus v2 v1) (minus v3 v1)) in *.
  pose proof (perp_apx K ltac:(lia) _ _ _ _ A B la lb CA FA FB ltac:(lra) ltac:(lra) ltac:(rewrite Rabs_Ropp; exact CB) EA EB) as PA.
  set (perp := fdiv (fdiv _ _) _) in *.
  assert (ABP : 0 < A * B) by nra.
  set (s := - c / (A * B)) in *.
  assert (S1 : 0.9501 <= (if turn then s else - s) <= 1).
  { assert (CC : c = - s * (A * B)) by (unfold s; field; lra). apply Rabs_le_inv in CB. rewrite CC in RA, CB. assert (AP : 0 < / (A * B)) by (apply Rinv_0_lt_compat; lra).
    destruct turn; split; apply Rmult_le_reg_r with (A * B); lra. }
  pose proof (apx_fabs _ _ _ PA) as PB.
  assert (AS : 0.9501 <= Rabs s <= 1) by (destruct turn; unfold Rabs; destruct (Rcase_abs s); lra).
  pose proof (apx_fsub 1 _ _ _ _ _ 0 ltac:(lia) PB (apx_of_Z 1 ltac:(lia))) as PC.
  specialize (PC ltac:(change (bpow radix2 1) with 2; apply Rle_trans with (1 + (2000 * u53 + 0)); [apply Rplus_le_compat_r, Rabs_le; lra|unfold u53; lra])).
  apply apx_fabs in PC.
  rewrite (apx_fgt_false _ _ _ _ _ _ PC (lit_apx 5 100 ltac:(lia) ltac:(lia))).
  2:{ rewrite bpow_53. change (bpow radix2 1) with 2. unfold u53. rewrite (Rabs_minus_sym (Rabs s)), (Rabs_pos_eq (IZR 1 - Rabs s)) by lra. lra. }
  destruct (modules_ok _ _ _ _ FD LD FM HM) as [N1 N2].
  set (n := round_u32 _) in *. cbv zeta in N1, N2.
  assert (NV : n = (V + 4)%Z).
  { assert (Q : Rabs (ld / m - B / m) <= / 16384).
    { replace (ld / m - B / m) with ((ld - B) / m) by (field; lra). unfold Rdiv. rewrite Rabs_mult, Rabs_inv, (Rabs_pos_eq m) by lra.
      apply le_div; [lra|]. apply Rabs_le_inv in ED. unfold u53 in ED. apply Rabs_le. lra. }
    apply Rabs_le_inv in Q, FIT, N2.
    assert (L1 : (4 * n < 4 * V + 20)%Z) by (apply lt_IZR; rewrite plus_IZR, !mult_IZR; lra).
    assert (L2 : (4 * V + 12 < 4 * n)%Z) by (apply lt_IZR; rewrite plus_IZR, !mult_IZR; lra). lia. }
  rewrite NV. rewrite chk_u32_ok by (unfold u32_max; lia). cbn [bind]. rewrite chk_u32_ok by (unfold u32_max; lia). cbn [bind].
  destruct (Z.ltb_spec (4 * (V + 4) + 1) 20) as [S|S]; [lia|].
  replace ((4 * (V + 4) + 1 - 17) / 4)%Z with V by (replace (4 * (V + 4) + 1 - 17)%Z with (V * 4)%Z by lia; now rewrite Z.div_mul by lia).
  assert (Z0 : fin (of_Z 0) 0) by (apply (fin_of_Z 0); lia).
  destruct turn.
  - rewrite (apx_fgt_true _ _ _ _ _ _ PA (fin_apx _ _ Z0)) by (unfold u53; lra). reflexivity.
  - rewrite (apx_fgt_false _ _ _ _ _ _ PA (fin_apx _ _ Z0)) by (unfold u53; lra). reflexivity.
Qed.

(** *** the other two corners *)
Definition dot (a b : vec) : R := vx a * vx b + vy a * vy b.
Lemma norm_sym a b : norm (minus a b) = norm (minus b a).
Proof. unfold norm. cbn [minus vx vy]. f_equal. ring. Qed.
Lemma dot_cross a b : dot a b * dot a b + cross a b * cross a b = (norm a * norm a) * (norm b * norm b).
Proof. rewrite !norm_sq. unfold dot, cross. ring. Qed.

Lemma long_side (u w : vec) : 0.9501 * (norm u * norm w) <= cross u w -> 0.8501 * norm w <= norm u -> 0 < norm w -> 0 < norm u ->
  cross u w < 0.9499 * (norm u * norm (minus w u)).
Proof.
  intros RA L W0 U0. pose proof (dot_cross u w) as DC. pose proof (norm_sq (minus w u)) as NC.
  assert (E : norm (minus w u) * norm (minus w u) = norm u * norm u + norm w * norm w - 2 * dot u w).
  { rewrite !norm_sq. cbn [minus vx vy]. unfold dot. ring. } clear NC.
  pose proof (norm_pos (minus w u)) as C0. pose proof (cross_bound u w) as CB. apply Rabs_le_inv in CB.
  set (A := norm u) in *. set (B := norm w) in *. set (C := norm (minus w u)) in *. set (X := cross u w) in *. set (D := dot u w) in *.
  assert (AB : 0 < A * B) by now apply Rmult_lt_0_compat.
  assert (XX : (0.9501 * (A * B)) * (0.9501 * (A * B)) <= X * X) by (apply Rmult_le_compat; lra).
  assert (DB : D <= 0.3125 * (A * B)).
  { apply Rsqr_incr_0_var; [|lra]. unfold Rsqr. replace ((A * A) * (B * B)) with ((A * B) * (A * B)) in DC by ring. assert (0 < (A * B) * (A * B)) by now apply Rmult_lt_0_compat. lra. }
  assert (CC : B * B * 1.19 <= C * C).
  { rewrite E. assert (0 <= (A - 0.8501 * B) * B) by (apply Rmult_le_pos; lra). assert (0 <= (A - 0.8501 * B) * A) by (apply Rmult_le_pos; lra). lra. }
  assert (BC : 1.09 * B <= C). { apply Rsqr_incr_0_var; [|lra]. unfold Rsqr. assert (0 < B * B) by now apply Rmult_lt_0_compat. lra. }
  apply Rle_lt_trans with (A * B); [lra|]. apply Rlt_le_trans with (0.9499 * (A * (1.09 * B))); [lra|].
  apply Rmult_le_compat_l; [lra|]. apply Rmult_le_compat_l; lra.
Qed.

Lemma internal_wrong one two three ms v1 v2 v3 m : at_point one v1 -> at_point two v2 -> at_point three v3 ->
  box v1 -> box v2 -> box v3 -> fin ms m -> 1 <= m <= 1073741824 ->
  Rabs (cross (minus v2 v1) (minus v3 v1)) < 0.9499 * (norm (minus v2 v1) * norm (minus v3 v1)) -> find_qr_internal one two three ms = Ok None.
Proof.
  intros P1 P2 P3 B1 B2 B3 FM HM HX. destruct (find_qr_internal_ok one two three ms v1 v2 v3 m P1 P2 P3 B1 B2 B3 FM HM) as ([loc|] & E & C); [|exact E].
  destruct (C loc eq_refl) as (_ & _ & _ & _ & _ & _ & [(_ & _ & R)|(_ & _ & R)]); unfold right_angle in R; apply Rabs_lt_inv in HX.
  - replace (cross (minus v3 v1) (minus v2 v1)) with (- cross (minus v2 v1) (minus v3 v1)) in R by (unfold cross; ring). rewrite (Rmult_comm (norm (minus v3 v1))) in R. lra.
  - lra.
Qed.

(** The three points in the order of the candidates: [tl] is the corner, [tr] a quarter turn counter-clockwise from [bl]. *)
Lemma find_qr_complete tl tr bl a b c ms wtl wtr wbl m V : at_point tl wtl -> at_point tr wtr -> at_point bl wbl -> box wtl -> box wtr -> box wbl ->
  fin ms m -> 1 <= m <= 1073741824 -> (1 <= V <= 100000)%Z ->
  let A := norm (minus wtr wtl) in let B := norm (minus wbl wtl) in
  0.8501 * A <= B -> 0.8501 * B <= A -> Rabs (A / m - IZR (4 * V + 10)) <= 1.999 -> Rabs (B / m - IZR (4 * V + 10)) <= 1.999 ->
  0.9501 * (A * B) <= cross (minus wtr wtl) (minus wbl wtl) ->
  shuffled tl tr bl a b c -> find_qr a b c ms = Ok (Some (mkQRLoc tl tr bl ms V)).
Proof.
  intros P1 P2 P3 B1 B2 B3 FM HM HV A B AB BA FA FB RA H.
  assert (POS : forall L, Rabs (L / m - IZR (4 * V + 10)) <= 1.999 -> 0 < L).
  { intros L HL. apply Rabs_le_inv in HL. assert (V1 : 14 <= IZR (4 * V + 10)) by (apply IZR_le; lia). assert (12 <= L / m) by lra.
    apply Rmult_le_compat_r with (r := m) in H0; [|lra]. unfold Rdiv in H0. rewrite Rmult_assoc, Rinv_l in H0 by lra. lra. }
  pose proof (POS _ FA) as A0. pose proof (POS _ FB) as B0.
  assert (CA : find_qr_internal tl tr bl ms = Ok (Some (mkQRLoc tl tr bl ms V))).
  { apply (internal_complete tl tr bl ms wtl wtr wbl m V false); auto. fold A B. lra. }
  assert (CB : find_qr_internal tl bl tr ms = Ok (Some (mkQRLoc tl tr bl ms V))).
  { apply (internal_complete tl bl tr ms wtl wbl wtr m V true); auto. fold A B.
    replace (cross (minus wbl wtl) (minus wtr wtl)) with (- cross (minus wtr wtl) (minus wbl wtl)) by (unfold cross; ring). lra. }
  assert (SIGN : 0 < cross (minus wtr wtl) (minus wbl wtl)) by (assert (0 < A * B) by (now apply Rmult_lt_0_compat); lra).
  assert (LTR : cross (minus wtr wtl) (minus wbl wtl) < 0.9499 * (A * norm (minus wbl wtr))).
  { replace (norm (minus wbl wtr)) with (norm (minus (minus wbl wtl) (minus wtr wtl))) by (unfold norm; cbn [minus vx vy]; f_equal; ring).
    apply long_side; auto. }
  assert (LBL : cross (minus wtr wtl) (minus wbl wtl) < 0.9499 * (B * norm (minus wbl wtr))).
  { (* mirrored *)
    pose proof (long_side (Vec (vx (minus wbl wtl)) (- vy (minus wbl wtl))) (Vec (vx (minus wtr wtl)) (- vy (minus wtr wtl)))) as M.
    assert (N1 : forall v, norm (Vec (vx v) (- vy v)) = norm v) by (intros v; unfold norm; cbn [vx vy]; f_equal; ring). rewrite !N1 in M.
    replace (cross (Vec (vx (minus wbl wtl)) (- vy (minus wbl wtl))) (Vec (vx (minus wtr wtl)) (- vy (minus wtr wtl)))) with (cross (minus wtr wtl) (minus wbl wtl)) in M by (unfold cross; cbn [vx vy]; ring).
    replace (norm (minus (Vec (vx (minus wtr wtl)) (- vy (minus wtr wtl))) (Vec (vx (minus wbl wtl)) (- vy (minus wbl wtl))))) with (norm (minus wbl wtr)) in M by (unfold norm; cbn [minus vx vy]; f_equal; ring).
    fold A B in M. apply M; auto. rewrite (Rmult_comm B A). exact RA. }
  assert (SW : forall p q r ms' u v w, at_point p u -> at_point q v -> at_point r w -> box u -> box v -> box w -> fin ms' m ->
    Rabs (cross (minus wtr wtl) (minus wbl wtl)) < 0.9499 * (norm (minus v u) * norm (minus w u)) ->
    Rabs (cross (minus v u) (minus w u)) = Rabs (cross (minus wtr wtl) (minus wbl wtl)) -> find_qr_internal p q r ms' = Ok None).
  { intros p q r ms' u v w. intros Q1 Q2 Q3 U1 U2 U3 F L E. apply (internal_wrong p q r ms' u v w m); auto. now rewrite E. }
  assert (NEG : forall s t, s = t \/ s = - t -> Rabs s = Rabs t) by (intros s t [->| ->]; [reflexivity|apply Rabs_Ropp]).
  assert (R1 : find_qr_internal tr tl bl ms = Ok None).
  { apply (SW tr tl bl ms wtr wtl wbl); auto; [rewrite (norm_sym wtl wtr), Rabs_pos_eq by lra; exact LTR|]. apply NEG. right. unfold cross. cbn [minus vx vy]. ring. }
  assert (R2 : find_qr_internal tr bl tl ms = Ok None).
  { apply (SW tr bl tl ms wtr wbl wtl); auto; [rewrite (norm_sym wtl wtr), Rabs_pos_eq by lra; fold A; rewrite (Rmult_comm _ A); exact LTR|]. apply NEG. left. unfold cross. cbn [minus vx vy]. ring. }
  assert (R3 : find_qr_internal bl tl tr ms = Ok None).
  { apply (SW bl tl tr ms wbl wtl wtr); auto; [rewrite (norm_sym wtl wbl), (norm_sym wtr wbl), Rabs_pos_eq by lra; exact LBL|]. apply NEG. left. unfold cross. cbn [minus vx vy]. ring. }
  assert (R4 : find_qr_internal bl tr tl ms = Ok None).
  { apply (SW bl tr tl ms wbl wtr wtl); auto; [rewrite (norm_sym wtl wbl), (norm_sym wtr wbl), Rabs_pos_eq by lra; fold B; rewrite (Rmult_comm _ B); exact LBL|]. apply NEG. right. unfold cross. cbn [minus vx vy]. ring. }
  unfold find_qr. destruct H; rewrite ?R1, ?R2, ?R3, ?R4, ?CA, ?CB; cbn [bind]; rewrite ?R1, ?R2, ?R3, ?R4, ?CA, ?CB; reflexivity.
Qed.

(** *** in a list of candidates *)
Lemma alike_sizes x y a b : fin x a -> fin y b -> 1 <= a <= 1073741824 -> 1 <= b <= 1073741824 -> 0.9001 * a <= b -> 0.9001 * b <= a ->
  fgt (diff x y) (lit 1 10) = false.
Proof.
  intros X Y HA HB L1 L2. assert (MX : 1 <= Rmax a b) by (apply Rle_trans with a; [lra|apply Rmax_l]).
  pose proof (diff_apx _ _ _ _ X Y ltac:(lra) ltac:(lra) MX) as DA.
  assert (RD : rel_diff a b <= 0.0999). { unfold rel_diff. apply le_div; [lra|]. unfold Rmax. destruct (Rle_dec a b); apply Rabs_le; lra. }
  apply (apx_fgt_false _ _ _ _ _ _ DA (lit_apx 1 10 ltac:(lia) ltac:(lia))). unfold u53. lra.
Qed.

Definition has_size (ms : f64) (m A B : R) (V : Z) : Prop := fin ms m /\ 1 <= m <= 1073741824 /\ Rabs (A / m - IZR (4 * V + 10)) <= 1.999 /\ Rabs (B / m - IZR (4 * V + 10)) <= 1.999.

Lemma locations_complete cs locs f1 f2 f3 tl tr bl m1 m2 m3 V : In f1 cs -> In f2 cs -> In f3 cs ->
  at_point (fp_location f1) tl -> at_point (fp_location f2) tr -> at_point (fp_location f3) bl -> box tl -> box tr -> box bl -> (1 <= V <= 100000)%Z ->
  let A := norm (minus tr tl) in let B := norm (minus bl tl) in
  has_size (fp_module_size f1) m1 A B V -> has_size (fp_module_size f2) m2 A B V -> has_size (fp_module_size f3) m3 A B V ->
  (forall m m', In m [m1; m2; m3] -> In m' [m1; m2; m3] -> 0.9001 * m <= m') ->
  0.8501 * A <= B -> 0.8501 * B <= A -> 0.9501 * (A * B) <= cross (minus tr tl) (minus bl tl) -> find_locations cs = Ok locs ->
  exists ms, In ms [fp_module_size f1; fp_module_size f2; fp_module_size f3] /\ In (mkQRLoc (fp_location f1) (fp_location f2) (fp_location f3) ms V) locs.
Proof.
  intros I1 I2 I3 P1 P2 P3 B1 B2 B3 HV A B (F1 & M1 & G1 & K1) (F2 & M2 & G2 & K2) (F3 & M3 & G3 & K3) AL AB BA RA E.
  apply In_nth_error in I1 as (i & I1). apply In_nth_error in I2 as (j & I2). apply In_nth_error in I3 as (k & I3).
  assert (POS : 0 < A /\ 0 < B).
  { assert (V1 : 14 <= IZR (4 * V + 10)) by (apply IZR_le; lia). apply Rabs_le_inv in G1, K1.
    assert (H1 : 12 <= A / m1) by lra. assert (H2 : 12 <= B / m1) by lra.
    apply Rmult_le_compat_r with (r := m1) in H1, H2; try lra. unfold Rdiv in H1, H2. rewrite Rmult_assoc, Rinv_l in H1, H2 by lra. lra. }
  assert (Z0 : forall v w p, at_point p v -> at_point p w -> norm (minus v w) = 0).
  { intros v w p [X1 Y1] [X2 Y2]. pose proof (fin_inj _ _ _ X1 X2) as EX. pose proof (fin_inj _ _ _ Y1 Y2) as EY.
    unfold norm. cbn [minus vx vy]. rewrite EX, EY, !Rminus_diag_eq, !Rmult_0_l, Rplus_0_r by reflexivity. apply sqrt_0. }
  assert (IJ : i <> j). { intros ->. rewrite I1 in I2. injection I2 as <-. pose proof (Z0 tr tl _ P2 P1) as Z. fold A in Z. lra. }
  assert (IK : i <> k). { intros ->. rewrite I1 in I3. injection I3 as <-. pose proof (Z0 bl tl _ P3 P1) as Z. fold B in Z. lra. }
  assert (JK : j <> k).
  { intros ->. rewrite I2 in I3. injection I3 as <-. destruct P2 as [X2 Y2], P3 as [X3 Y3]. pose proof (fin_inj _ _ _ X2 X3) as EX. pose proof (fin_inj _ _ _ Y2 Y3) as EY.
    assert (C0 : cross (minus tr tl) (minus bl tl) = 0) by (unfold cross; cbn [minus vx vy]; rewrite EX, EY; ring).
    rewrite C0 in RA. assert (0 < A * B) by (apply Rmult_lt_0_compat; tauto). lra. }
  assert (S : forall x a y b, fin x a -> fin y b -> In a [m1; m2; m3] -> In b [m1; m2; m3] -> 1 <= a <= 1073741824 -> 1 <= b <= 1073741824 -> fgt (diff x y) (lit 1 10) = false).
  { intros x a y b X Y Ia Ib Ha Hb. apply (alike_sizes x y a b); auto. }
  assert (Q : forall a b c ms m, fin ms m -> 1 <= m <= 1073741824 -> Rabs (A / m - IZR (4 * V + 10)) <= 1.999 -> Rabs (B / m - IZR (4 * V + 10)) <= 1.999 ->
    shuffled (fp_location f1) (fp_location f2) (fp_location f3) a b c -> find_qr a b c ms = Ok (Some (mkQRLoc (fp_location f1) (fp_location f2) (fp_location f3) ms V))).
  { intros a b c ms m F HM GA GB SH. eapply (find_qr_complete (fp_location f1) (fp_location f2) (fp_location f3) a b c ms tl tr bl m V); eauto. }
  assert (Im1 : In m1 [m1; m2; m3]) by (cbn; tauto). assert (Im2 : In m2 [m1; m2; m3]) by (cbn; tauto). assert (Im3 : In m3 [m1; m2; m3]) by (cbn; tauto).
  destruct (Nat.lt_ge_cases i j) as [L1|L1]; [destruct (Nat.lt_ge_cases j k) as [L2|L2]; [|destruct (Nat.lt_ge_cases i k) as [L3|L3]]
    |destruct (Nat.lt_ge_cases i k) as [L2|L2]; [|destruct (Nat.lt_ge_cases j k) as [L3|L3]]].
  - exists (fp_module_size f1). split; [cbn; tauto|]. apply (locations_in cs i j k f1 f2 f3); eauto using sh1; lia.
  - exists (fp_module_size f1). split; [cbn; tauto|]. apply (locations_in cs i k j f1 f3 f2); eauto using sh2; lia.
  - exists (fp_module_size f3). split; [cbn; tauto|]. apply (locations_in cs k i j f3 f1 f2); eauto using sh5; lia.
  - exists (fp_module_size f2). split; [cbn; tauto|]. apply (locations_in cs j i k f2 f1 f3); eauto using sh3; lia.
  - exists (fp_module_size f2). split; [cbn; tauto|]. apply (locations_in cs j k i f2 f3 f1); eauto using sh4; lia.
  - exists (fp_module_size f3). split; [cbn; tauto|]. apply (locations_in cs k j i f3 f2 f1); eauto using sh6; lia.
Qed.
