(** The geometry of three finder candidates. *)
From Coq Require Import NArith ZArith Reals List Lia Lra Bool Arith Psatz.
From Flocq Require Import Core.
From Verif.Model Require Import Detect.
From Verif.Spec Require Import Plane.
From Verif.Proofs Require Import BaseP FloatP ApproxP DetectP.
Import ListNotations.
Local Open Scope R_scope.

Definition u53 : R := / 9007199254740992.
Lemma bpow_53 k : bpow radix2 (k - 53) = bpow radix2 k * u53.
Proof. unfold Z.sub. rewrite bpow_plus. reflexivity. Qed.
Lemma bpow_1 k : bpow radix2 (k + 1) = 2 * bpow radix2 k.
Proof. rewrite bpow_plus. change (bpow radix2 1) with 2. ring. Qed.
Lemma bpow_m1 k : bpow radix2 (k - 1) = bpow radix2 k / 2.
Proof. unfold Z.sub. rewrite bpow_plus. reflexivity. Qed.
Lemma bpow_double k : bpow radix2 (k + k) = bpow radix2 k * bpow radix2 k.
Proof. apply bpow_plus. Qed.

(** the finite point of the model at a point of the plane *)
Definition at_point (p : point) (v : vec) : Prop := fin (px p) (vx v) /\ fin (py p) (vy v).

Lemma sq_sum_abs x y P : 0 <= P -> x * x + y * y <= P * P -> Rabs x <= P /\ Rabs y <= P.
Proof.
  intros HP H. split; apply Rabs_le; split; nra.
Qed.

Lemma norm_pos v : 0 <= norm v.
Proof. apply sqrt_pos. Qed.
Lemma norm_sq v : norm v * norm v = vx v * vx v + vy v * vy v.
Proof. unfold norm. apply sqrt_sqrt. nra. Qed.

(** differences and products of coordinates at the scale P = 2^K *)
Section Scale.
Context (K : Z) (HK : (-100 <= K <= 100)%Z).
Let P := bpow radix2 K.

Lemma P_pos : 0 < P.
Proof. apply bpow_gt_0. Qed.

Lemma apx_coord x y a b : fin x a -> fin y b -> Rabs (a - b) <= P -> apx (fsub x y) (a - b) (P * u53).
Proof.
  intros F G H. eapply apx_weaken; [apply (apx_fsub K _ _ _ _ 0 0 ltac:(lia) (fin_apx _ _ F) (fin_apx _ _ G))|].
  - fold P. lra.
  - rewrite bpow_53. fold P. lra.
Qed.

Lemma apx_prod x y a b : Rabs a <= P -> Rabs b <= P -> apx x a (P * u53) -> apx y b (P * u53) ->
  apx (fmul x y) (a * b) (P * P * (8 * u53)).
Proof.
  intros Ha Hb F G. pose proof P_pos as HP.
  assert (U : 0 < u53 < / 1000) by (unfold u53; lra).
  pose proof (Rabs_pos a). pose proof (Rabs_pos b).
  assert (E1 : Rabs a * (P * u53) <= P * (P * u53)) by (apply Rmult_le_compat_r; [nra|lra]).
  assert (E2 : Rabs b * (P * u53) <= P * (P * u53)) by (apply Rmult_le_compat_r; [nra|lra]).
  assert (E3 : P * u53 * (P * u53) <= P * (P * u53)) by nra.
  assert (E4 : Rabs (a * b) <= P * P) by (rewrite Rabs_mult; apply Rmult_le_compat; lra).
  assert (PP : 0 < P * P) by nra.
  eapply apx_weaken; [apply (apx_fmul (K + K + 1) _ _ _ _ _ _ ltac:(lia) F G)|].
  - rewrite bpow_1, bpow_double. fold P. nra.
  - rewrite bpow_53, bpow_1, bpow_double. fold P. nra.
Qed.

Lemma apx_sum2 x y a b : 0 <= a -> 0 <= b -> a + b <= P * P -> apx x a (P * P * (8 * u53)) -> apx y b (P * P * (8 * u53)) ->
  apx (fadd x y) (a + b) (P * P * (20 * u53)).
Proof.
  intros Ha Hb L F G. pose proof P_pos as HP. assert (PP : 0 < P * P) by nra.
  eapply apx_weaken; [apply (apx_fadd (K + K + 1) _ _ _ _ _ _ ltac:(lia) F G)|].
  - rewrite bpow_1, bpow_double. fold P. rewrite Rabs_pos_eq by lra. unfold u53. lra.
  - rewrite bpow_53, bpow_1, bpow_double. fold P. unfold u53. lra.
Qed.

Lemma apx_diff2 x y a b : Rabs (a - b) <= P * P -> apx x a (P * P * (8 * u53)) -> apx y b (P * P * (8 * u53)) ->
  apx (fsub x y) (a - b) (P * P * (20 * u53)).
Proof.
  intros L F G. pose proof P_pos as HP. assert (PP : 0 < P * P) by nra.
  eapply apx_weaken; [apply (apx_fsub (K + K + 1) _ _ _ _ _ _ ltac:(lia) F G)|].
  - rewrite bpow_1, bpow_double. fold P. unfold u53. lra.
  - rewrite bpow_53, bpow_1, bpow_double. fold P. unfold u53. lra.
Qed.

Lemma big_P2 x : Rabs x <= 4 * (P * P) -> Rabs x <= big.
Proof.
  intros H. apply small_big with (K + K + 1 + 1)%Z; [lia|]. rewrite !bpow_1, bpow_double. fold P. lra.
Qed.

Lemma square_pos x a d s : fin x d -> Rabs (d - a) <= P * u53 -> Rabs a <= P -> fin (fmul x x) s ->
  Rabs (s - a * a) <= P * P * (8 * u53) -> 0 <= s <= 2 * (P * P).
Proof.
  intros F D A G E. pose proof P_pos as HP. unfold u53 in *.
  assert (B : Rabs d <= 2 * P) by (rabs; lra).
  assert (B2 : Rabs (d * d) <= 4 * (P * P)).
  { rewrite Rabs_mult. pose proof (Rabs_pos d). nra. }
  split.
  - rewrite (fin_inj _ _ _ G (fin_fmul _ _ _ _ F F (big_P2 _ B2))). rewrite <- rnd_0. apply rnd_le. nra.
  - assert (Rabs (a * a) <= P * P) by (rewrite Rabs_mult; apply Rmult_le_compat; auto using Rabs_pos).
    assert (0 < P * P) by nra. rabs; lra.
Qed.

(** the computed distance *)
Lemma dist_scale p q v w : at_point p v -> at_point q w -> norm (minus v w) <= P ->
  exists l, fin (dist p q) l /\ 0 <= l <= 2 * P /\
    (P / 2 <= norm (minus v w) -> Rabs (l - norm (minus v w)) <= 128 * u53 * norm (minus v w)).
Proof.
  intros [FX FY] [GX GY] L. pose proof P_pos as HP. set (N := norm (minus v w)) in *.
  assert (HN : 0 <= N) by apply norm_pos. pose proof (norm_sq (minus v w)) as NS. fold N in NS. cbn [minus vx vy] in NS.
  assert (NP : N * N <= P * P) by nra.
  destruct (sq_sum_abs (vx v - vx w) (vy v - vy w) P) as [AX AY]; [lra|lra|].
  pose proof (apx_coord _ _ _ _ FX GX AX) as DX. pose proof (apx_coord _ _ _ _ FY GY AY) as DY.
  pose proof (apx_prod _ _ _ _ AX AX DX DX) as PX. pose proof (apx_prod _ _ _ _ AY AY DY DY) as PY.
  assert (S : apx (fadd (fmul (fsub (px p) (px q)) (fsub (px p) (px q))) (fmul (fsub (py p) (py q)) (fsub (py p) (py q))))
     (N * N) (P * P * (20 * u53))).
  { rewrite NS. apply apx_sum2; [apply Rle_0_sqr|apply Rle_0_sqr|rewrite <- NS; exact NP|exact PX|exact PY]. }
  (* the sum is not negative *)
  assert (PP : 0 < P * P) by nra.
  destruct DX as (dx & FDX & BX). destruct DY as (dy & FDY & BY).
  destruct PX as (sx & FSX & CX). destruct PY as (sy & FSY & CY). destruct S as (s & FS & HS).
  assert (SX : 0 <= sx <= 2 * (P * P)) by (eapply square_pos; [exact FDX|exact BX|exact AX|exact FSX|exact CX]).
  assert (SY : 0 <= sy <= 2 * (P * P)) by (eapply square_pos; [exact FDY|exact BY|exact AY|exact FSY|exact CY]).
  assert (POS : 0 <= s).
  { rewrite (fin_inj _ _ _ FS (fin_fadd _ _ _ _ FSX FSY ltac:(apply big_P2; rewrite Rabs_pos_eq; lra))).
    rewrite <- rnd_0. apply rnd_le. lra. }
  unfold u53 in HS.
  assert (SB : s <= 2 * (P * P)) by (apply Rabs_le_inv in HS; lra).
  set (r := sqrt s). assert (R0 : 0 <= r) by apply sqrt_pos.
  assert (RS : r * r = s) by (apply sqrt_sqrt; exact POS).
  assert (RP : r <= 2 * P - P / 2) by nra.
  assert (RE : Rabs (rnd r - r) <= 2 * P * u53).
  { pose proof (rnd_err r (K + 1) ltac:(lia)) as X. rewrite bpow_53, bpow_1 in X. fold P in X. apply X. rewrite Rabs_pos_eq; lra. }
  exists (rnd r). split; [|split].
  - unfold dist. apply fin_fsqrt; [exact FS|exact POS].
  - split; [rewrite <- rnd_0; now apply rnd_le|]. apply Rabs_le_inv in RE. unfold u53 in RE. lra.
  - intros LN.
    assert (R1 : Rabs (r - N) * (P / 2) <= P * P * (20 * u53)).
    { apply Rle_trans with (Rabs (r - N) * (r + N)).
      - apply Rmult_le_compat_l; [apply Rabs_pos|lra].
      - rewrite <- (Rabs_pos_eq (r + N)) by lra. rewrite <- Rabs_mult.
        replace ((r - N) * (r + N)) with (s - N * N) by (rewrite <- RS; ring). exact HS. }
    assert (R2 : Rabs (r - N) <= P * (40 * u53)).
    { apply Rmult_le_reg_r with (P / 2); [lra|]. lra. }
    assert (R3 : Rabs (rnd r - N) <= P * (42 * u53)).
    { replace (rnd r - N) with ((rnd r - r) + (r - N)) by ring. eapply Rle_trans; [apply Rabs_triang|]. lra. }
    unfold u53 in *. lra.
Qed.
End Scale.

(** every length has a scale *)
Lemma scale_of x : 1 <= x <= 8589934592 -> exists K, (0 <= K <= 34)%Z /\ bpow radix2 K / 2 <= x <= bpow radix2 K.
Proof.
  intros H. destruct (mag radix2 x) as [e He]. specialize (He ltac:(lra)). cbn [proj1_sig] in He.
  rewrite Rabs_pos_eq in He by lra. exists e. rewrite <- bpow_m1. repeat split; try lra.
  - destruct (Z_le_gt_dec 0 e); [assumption|]. assert (bpow radix2 e <= bpow radix2 0) by (apply bpow_le; lia).
    change (bpow radix2 0) with 1 in *. lra.
  - destruct (Z_le_gt_dec e 34); [assumption|]. assert (bpow radix2 34 <= bpow radix2 (e - 1)) by (apply bpow_le; lia).
    change (bpow radix2 34) with 17179869184 in *. lra.
Qed.

(** a point of the quadrant that images cover *)
Definition box (v : vec) : Prop := 0 <= vx v <= 2147483648 /\ 0 <= vy v <= 2147483648.

Lemma box_norm v w : box v -> box w -> norm (minus v w) <= 3037000500.
Proof.
  intros [X1 Y1] [X2 Y2]. pose proof (norm_pos (minus v w)). pose proof (norm_sq (minus v w)) as S.
  cbn [minus vx vy] in S. set (n := norm _) in *.
  assert (X : (vx v - vx w) * (vx v - vx w) <= 2147483648 * 2147483648).
  { rewrite <- (Rabs_pos_eq ((vx v - vx w) * (vx v - vx w))) by apply Rle_0_sqr. rewrite Rabs_mult.
    apply Rmult_le_compat; try apply Rabs_pos; apply Rabs_le; lra. }
  assert (Y : (vy v - vy w) * (vy v - vy w) <= 2147483648 * 2147483648).
  { rewrite <- (Rabs_pos_eq ((vy v - vy w) * (vy v - vy w))) by apply Rle_0_sqr. rewrite Rabs_mult.
    apply Rmult_le_compat; try apply Rabs_pos; apply Rabs_le; lra. }
  apply Rnot_lt_le. intros C. assert (3037000500 * 3037000500 <= n * n) by (apply Rmult_le_compat; lra). lra.
Qed.

Theorem dist_ok p q v w : at_point p v -> at_point q w -> box v -> box w ->
  exists l, fin (dist p q) l /\ 0 <= l <= 3037000501 /\
    (1 <= norm (minus v w) -> Rabs (l - norm (minus v w)) <= 128 * u53 * norm (minus v w)) /\
    (norm (minus v w) < 1 -> l <= 2).
Proof.
  intros HP HQ BV BW. pose proof (box_norm v w BV BW). pose proof (norm_pos (minus v w)).
  destruct (Rlt_or_le (norm (minus v w)) 1) as [C|C].
  - destruct (dist_scale 0 ltac:(lia) p q v w HP HQ) as (l & F & L & _); [change (bpow radix2 0) with 1; lra|].
    change (bpow radix2 0) with 1 in L. exists l. repeat split; auto; lra.
  - destruct (scale_of (norm (minus v w)) ltac:(lra)) as (K & HK & KL).
    destruct (dist_scale K ltac:(lia) p q v w HP HQ ltac:(lra)) as (l & F & L & E). specialize (E ltac:(lra)).
    exists l. repeat split; auto; try lra. unfold u53 in E. rabs; lra.
Qed.

Lemma lit_apx n d : (0 <= n <= d)%Z -> (0 < d <= 2 ^ 20)%Z -> apx (lit n d) (IZR n / IZR d) u53.
Proof.
  intros Hn Hd. assert (D : 0 < IZR d) by (apply IZR_lt; lia).
  assert (Q : 0 <= IZR n / IZR d <= 1).
  { split.
    - apply Rmult_le_pos; [apply IZR_le; lia|apply Rlt_le, Rinv_0_lt_compat, D].
    - apply Rmult_le_reg_r with (IZR d); [exact D|]. unfold Rdiv. rewrite Rmult_assoc, Rinv_l by lra. rewrite Rmult_1_r, Rmult_1_l. apply IZR_le. lia. }
  unfold lit. eapply apx_weaken; [apply (apx_fdiv 0 _ _ _ _ 0 ltac:(lia) (apx_of_Z n ltac:(lia)) (fin_of_Z d ltac:(lia)))|].
  - lra.
  - unfold Rdiv at 2. rewrite Rmult_0_l. change (bpow radix2 0) with 1. rewrite Rabs_pos_eq; lra.
  - unfold Rdiv. rewrite Rmult_0_l. change (bpow radix2 (0 - 53)) with u53. lra.
Qed.

(** relative difference *)
Lemma diff_pos x y a b : fin x a -> fin y b -> 0 <= b < a -> 1 <= a <= 8589934592 ->
  apx (fdiv (fsub x y) x) ((a - b) / a) (4 * u53).
Proof.
  intros F G H1 H2. destruct (scale_of a H2) as (K & HK & KL). set (P := bpow radix2 K) in *.
  assert (Q : 0 <= (a - b) / a <= 1).
  { split; [apply Rmult_le_pos; [lra|apply Rlt_le, Rinv_0_lt_compat; lra]|].
    apply Rmult_le_reg_r with a; [lra|]. unfold Rdiv. rewrite Rmult_assoc, Rinv_l by lra. lra. }
  assert (PQ : P * u53 / Rabs a <= 2 * u53).
  { rewrite Rabs_pos_eq by lra. apply Rmult_le_reg_r with a; [lra|]. unfold Rdiv. rewrite Rmult_assoc, Rinv_l by lra. unfold u53. lra. }
  assert (D : apx (fsub x y) (a - b) (P * u53)) by (apply apx_coord; auto; [lia|fold P; rewrite Rabs_pos_eq; lra]).
  eapply apx_weaken; [apply (apx_fdiv 1 _ _ _ _ _ ltac:(lia) D F)|].
  - lra.
  - change (bpow radix2 1) with 2. rewrite (Rabs_pos_eq ((a - b) / a)) by lra. unfold u53 in *. lra.
  - rewrite bpow_53. change (bpow radix2 1) with 2. lra.
Qed.

Definition rel_diff (a b : R) : R := Rabs (a - b) / Rmax a b.

Lemma diff_apx x y a b : fin x a -> fin y b -> 0 <= a <= 8589934592 -> 0 <= b <= 8589934592 -> 1 <= Rmax a b ->
  apx (diff x y) (rel_diff a b) (4 * u53).
Proof.
  intros F G Ha Hb HM. unfold diff, rel_diff. rewrite (fgt_R _ _ _ _ F G). case Rlt_bool_spec; intros C.
  - rewrite Rmax_left in * by lra. rewrite Rabs_pos_eq by lra. apply diff_pos; auto; lra.
  - destruct (Rle_lt_or_eq_dec _ _ C) as [C'|C'].
    + rewrite Rmax_right in * by lra. rewrite Rabs_minus_sym, Rabs_pos_eq by lra. apply diff_pos; auto; lra.
    + subst b. rewrite Rmax_left in * by lra. replace (a - a) with 0 by ring. rewrite Rabs_R0. unfold Rdiv. rewrite Rmult_0_l.
      exists 0. split; [|unfold u53; rewrite Rminus_0_r, Rabs_R0; lra].
      assert (F0 : fin (fsub y x) 0).
      { replace 0 with (rnd (a - a)) by (replace (a - a) with 0 by ring; apply rnd_0). apply fin_fsub; auto.
        replace (a - a) with 0 by ring. rewrite Rabs_R0. apply bpow_ge_0. }
      replace 0 with (rnd (0 / a)) by (unfold Rdiv; rewrite Rmult_0_l; apply rnd_0).
      apply fin_fdiv; auto; [lra|]. unfold Rdiv. rewrite Rmult_0_l, Rabs_R0. apply bpow_ge_0.
Qed.

Lemma cross_bound a b : Rabs (cross a b) <= norm a * norm b.
Proof.
  pose proof (norm_pos a). pose proof (norm_pos b). pose proof (norm_sq a) as SA. pose proof (norm_sq b) as SB.
  apply Rabs_le. set (n := norm a) in *. set (m := norm b) in *.
  assert (NM : 0 <= n * m) by nra.
  assert (L : cross a b * cross a b <= (n * m) * (n * m)).
  { replace (n * m * (n * m)) with ((n * n) * (m * m)) by ring. rewrite SA, SB. unfold cross.
    assert (0 <= (vx a * vx b + vy a * vy b) * (vx a * vx b + vy a * vy b)) by apply Rle_0_sqr. nra. }
  split; nra.
Qed.

Lemma le_div a b c : 0 < b -> a <= c * b -> a / b <= c.
Proof. intros H L. apply Rmult_le_reg_r with b; [exact H|]. unfold Rdiv. rewrite Rmult_assoc, Rinv_l by lra. lra. Qed.
Lemma div_le a b c : 0 < b -> c * b <= a -> c <= a / b.
Proof. intros H L. apply Rmult_le_reg_r with b; [exact H|]. unfold Rdiv. rewrite Rmult_assoc, Rinv_l by lra. lra. Qed.

Section Perp.
Context (K : Z) (HK : (-90 <= K <= 90)%Z).
Let P := bpow radix2 K.

Lemma cross_apx one two three v1 v2 v3 : at_point one v1 -> at_point two v2 -> at_point three v3 ->
  norm (minus v2 v1) <= P -> norm (minus v3 v1) <= P ->
  apx (fopp (fsub (fmul (fsub (px two) (px one)) (fsub (py three) (py one)))
                  (fmul (fsub (py two) (py one)) (fsub (px three) (px one)))))
      (- cross (minus v2 v1) (minus v3 v1)) (P * P * (20 * u53)).
Proof.
  intros [X1 Y1] [X2 Y2] [X3 Y3] LA LB. pose proof (P_pos K) as HP. fold P in HP.
  pose proof (norm_pos (minus v2 v1)). pose proof (norm_pos (minus v3 v1)).
  pose proof (norm_sq (minus v2 v1)) as SA. pose proof (norm_sq (minus v3 v1)) as SB. cbn [minus vx vy] in SA, SB.
  destruct (sq_sum_abs (vx v2 - vx v1) (vy v2 - vy v1) P) as [A1 A2]; [lra|rewrite <- SA; apply Rmult_le_compat; lra|].
  destruct (sq_sum_abs (vx v3 - vx v1) (vy v3 - vy v1) P) as [B1 B2]; [lra|rewrite <- SB; apply Rmult_le_compat; lra|].
  apply apx_fopp. unfold cross. cbn [minus vx vy]. apply apx_diff2; [lia| | |].
  - pose proof (cross_bound (minus v2 v1) (minus v3 v1)) as C. unfold cross in C. cbn [minus vx vy] in C.
    apply Rle_trans with (1 := C). fold P. apply Rmult_le_compat; lra.
  - apply apx_prod; auto; try lia; apply apx_coord; auto; lia.
  - apply apx_prod; auto; try lia; apply apx_coord; auto; lia.
Qed.

Lemma perp_apx C la lb c A B x y : apx C c (P * P * (20 * u53)) -> fin la x -> fin lb y ->
  P / 4 <= A <= P -> P / 4 <= B <= P -> Rabs c <= A * B ->
  Rabs (x - A) <= 128 * u53 * A -> Rabs (y - B) <= 128 * u53 * B ->
  apx (fdiv (fdiv C la) lb) (c / (A * B)) (2000 * u53).
Proof.
  intros HC FX FY HA HB Hc EX EY. pose proof (P_pos K) as HP. fold P in HP.
  assert (X : P / 5 <= x <= 2 * P) by (apply Rabs_le_inv in EX; unfold u53 in EX; lra).
  assert (Y : P / 5 <= y <= 2 * P) by (apply Rabs_le_inv in EY; unfold u53 in EY; lra).
  assert (PP : 0 < P * P) by nra.
  assert (CP : Rabs c <= P * P) by (apply Rle_trans with (1 := Hc); apply Rmult_le_compat; lra).
  assert (Q1 : Rabs (c / x) <= 5 * P).
  { unfold Rdiv. rewrite Rabs_mult, Rabs_inv, (Rabs_pos_eq x) by lra. apply le_div; [lra|]. nra. }
  assert (E1 : P * P * (20 * u53) / x <= 100 * u53 * P).
  { apply le_div; [lra|]. unfold u53. nra. }
  assert (D1 : apx (fdiv C la) (c / x) (108 * u53 * P)).
  { eapply apx_weaken; [apply (apx_fdiv (K + 1 + 1 + 1) _ _ _ _ _ ltac:(lia) HC FX)|].
    - lra.
    - rewrite !bpow_1. fold P. rewrite (Rabs_pos_eq x) by lra. unfold u53 in *. lra.
    - rewrite bpow_53, !bpow_1. fold P. rewrite (Rabs_pos_eq x) by lra. unfold u53 in *. lra. }
  assert (Q2 : Rabs (c / x / y) <= 25).
  { unfold Rdiv at 1. rewrite Rabs_mult, Rabs_inv, (Rabs_pos_eq y) by lra. apply le_div; [lra|]. lra. }
  assert (E2 : 108 * u53 * P / y <= 540 * u53).
  { apply le_div; [lra|]. unfold u53. lra. }
  assert (D2 : apx (fdiv (fdiv C la) lb) (c / x / y) (600 * u53)).
  { eapply apx_weaken; [apply (apx_fdiv 5 _ _ _ _ _ ltac:(lia) D1 FY)|].
    - lra.
    - change (bpow radix2 5) with 32. rewrite (Rabs_pos_eq y) by lra. unfold u53 in *. lra.
    - rewrite bpow_53. change (bpow radix2 5) with 32. rewrite (Rabs_pos_eq y) by lra. unfold u53 in *. lra. }
  destruct D2 as (v & FV & HV). exists v. split; [exact FV|].
  assert (AB : 0 < A * B) by nra. assert (XY : 0 < x * y) by nra.
  assert (E3 : Rabs (c / x / y - c / (A * B)) <= 1000 * u53).
  { replace (c / x / y - c / (A * B)) with (c / (A * B) * ((A * B - x * y) / (x * y))) by (field; lra).
    rewrite Rabs_mult. 
    assert (R1 : Rabs (c / (A * B)) <= 1).
    { unfold Rdiv. rewrite Rabs_mult, Rabs_inv, (Rabs_pos_eq (A * B)) by lra. apply le_div; lra. }
    assert (R2 : Rabs ((A * B - x * y) / (x * y)) <= 1000 * u53).
    { unfold Rdiv. rewrite Rabs_mult, Rabs_inv, (Rabs_pos_eq (x * y)) by lra. apply le_div; [lra|].
      replace (A * B - x * y) with (- (x - A) * B + - (y - B) * A + - ((x - A) * (y - B))) by ring.
      assert (M1 : Rabs (- (x - A) * B) <= 128 * u53 * (A * B)).
      { rewrite Rabs_mult, Rabs_Ropp, (Rabs_pos_eq B) by lra. replace (128 * u53 * (A * B)) with (128 * u53 * A * B) by ring.
        apply Rmult_le_compat_r; lra. }
      assert (M2 : Rabs (- (y - B) * A) <= 128 * u53 * (A * B)).
      { rewrite Rabs_mult, Rabs_Ropp, (Rabs_pos_eq A) by lra. replace (128 * u53 * (A * B)) with (128 * u53 * B * A) by ring.
        apply Rmult_le_compat_r; lra. }
      assert (M3 : Rabs (- ((x - A) * (y - B))) <= 128 * u53 * A * (128 * u53 * B)).
      { rewrite Rabs_Ropp, Rabs_mult. apply Rmult_le_compat; auto using Rabs_pos. }
      assert (M4 : A * B <= 2 * (x * y)).
      { assert (A <= 1.25 * x) by (apply Rabs_le_inv in EX; unfold u53 in EX; lra). assert (B <= 1.25 * y) by (apply Rabs_le_inv in EY; unfold u53 in EY; lra).
        apply Rle_trans with (1.25 * x * (1.25 * y)); [apply Rmult_le_compat; lra|nra]. }
      eapply Rle_trans; [apply Rabs_triang|]. eapply Rle_trans; [apply Rplus_le_compat_r, Rabs_triang|].
      unfold u53 in *. nra. }
    apply Rle_trans with (1 * (1000 * u53)); [|lra]. apply Rmult_le_compat; auto using Rabs_pos. }
  replace (v - c / (A * B)) with ((v - c / x / y) + (c / x / y - c / (A * B))) by ring.
  eapply Rle_trans; [apply Rabs_triang|]. unfold u53 in *. lra.
Qed.
End Perp.

(** *** the number of modules between two finders *)
Lemma modules_ok d ms l m : fin d l -> 0 <= l <= 3037000501 -> fin ms m -> 1 <= m <= 1073741824 ->
  let n := round_u32 (fdiv (fsub (fadd (fdiv d ms) (of_Z 7)) (of_Z 1)) (of_Z 4)) in
  (0 <= n <= 800000000)%Z /\ Rabs (l / m + 6 - 4 * IZR n) <= 2 + / 65536.
Proof.
  intros F L G M n.
  assert (Q : 0 <= l / m <= 3037000501).
  { split; [apply div_le; lra|apply le_div; nra]. }
  assert (A1 : apx (fdiv d ms) (l / m) (/ 2097152)).
  { eapply apx_weaken; [apply (apx_fdiv 32 _ _ _ _ 0 ltac:(lia) (fin_apx _ _ F) G)|].
    - lra.
    - pows. rewrite (Rabs_pos_eq (l / m)) by lra. unfold Rdiv at 2. rewrite Rmult_0_l. lra.
    - pows. unfold Rdiv. rewrite Rmult_0_l. lra. }
  assert (A2 : apx (fadd (fdiv d ms) (of_Z 7)) (l / m + IZR 7) (/ 1048576)).
  { eapply apx_weaken; [apply (apx_fadd 32 _ _ _ _ _ 0 ltac:(lia) A1 (apx_of_Z 7 ltac:(lia)))|].
    - pows. rewrite Rabs_pos_eq; lra.
    - pows. lra. }
  assert (A3 : apx (fsub (fadd (fdiv d ms) (of_Z 7)) (of_Z 1)) (l / m + IZR 7 - IZR 1) (/ 524288)).
  { eapply apx_weaken; [apply (apx_fsub 32 _ _ _ _ _ 0 ltac:(lia) A2 (apx_of_Z 1 ltac:(lia)))|].
    - pows. rewrite Rabs_pos_eq; lra.
    - pows. lra. }
  assert (A4 : apx (fdiv (fsub (fadd (fdiv d ms) (of_Z 7)) (of_Z 1)) (of_Z 4)) ((l / m + IZR 7 - IZR 1) / IZR 4) (/ 524288)).
  { eapply apx_weaken; [apply (apx_fdiv 30 _ _ _ _ _ ltac:(lia) A3 (fin_of_Z 4 ltac:(lia)))|].
    - lra.
    - pows. rewrite !Rabs_pos_eq; lra.
    - pows. rewrite Rabs_pos_eq; lra. }
  destruct A4 as (v & FV & HV). apply Rabs_le_inv in HV.
  assert (V : 0 <= v <= 800000000) by lra.
  pose proof (away_le _ _ (proj1 V)) as W1. pose proof (away_le _ _ (proj2 V)) as W2.
  rewrite (away_int 0) in W1. rewrite (away_int 800000000) in W2.
  assert (N : n = away v) by (unfold n; rewrite (round_u32_R _ _ FV); unfold u32_max; lia).
  split; [lia|]. rewrite N. pose proof (away_bounds v). apply Rabs_le. lra.
Qed.

Lemma rel_diff_len a b : 0 <= a -> 0 <= b -> 1 <= Rmax a b -> rel_diff a b <= 0.1500001 -> 0.8499999 * a <= b /\ 0.8499999 * b <= a.
Proof.
  intros Ha Hb HM H. unfold rel_diff in H.
  assert (L : Rabs (a - b) <= 0.1500001 * Rmax a b).
  { apply Rmult_le_reg_r with (/ Rmax a b); [apply Rinv_0_lt_compat; lra|]. rewrite Rmult_assoc, Rinv_r by lra. unfold Rdiv in H. lra. }
  unfold Rmax in *. destruct (Rle_dec a b); apply Rabs_le_inv in L; lra.
Qed.

Theorem find_qr_internal_ok one two three ms v1 v2 v3 m : at_point one v1 -> at_point two v2 -> at_point three v3 ->
  box v1 -> box v2 -> box v3 -> fin ms m -> 1 <= m <= 1073741824 ->
  exists o, find_qr_internal one two three ms = Ok o /\
    forall loc, o = Some loc ->
      top_left loc = one /\ module_size loc = ms /\ (1 <= version loc)%Z /\
      fits_version (norm (minus v3 v1)) m (version loc) /\
      same_length (norm (minus v2 v1)) (norm (minus v3 v1)) /\
      11.99 * m <= norm (minus v3 v1) /\
      (top_right loc = three /\ bottom_left loc = two /\ right_angle v1 v3 v2 \/
       top_right loc = two /\ bottom_left loc = three /\ right_angle v1 v2 v3).
Proof.
  intros P1 P2 P3 B1 B2 B3 FM HM. unfold find_qr_internal.
  change (fsqrt (fadd (fmul (fsub (px two) (px one)) (fsub (px two) (px one))) (fmul (fsub (py two) (py one)) (fsub (py two) (py one)))))
    with (dist two one).
  change (fsqrt (fadd (fmul (fsub (px three) (px one)) (fsub (px three) (px one))) (fmul (fsub (py three) (py one)) (fsub (py three) (py one)))))
    with (dist three one).
  destruct (dist_ok two one v2 v1 P2 P1 B2 B1) as (la & FA & LA & EA & SA).
  destruct (dist_ok three one v3 v1 P3 P1 B3 B1) as (lb & FB & LB & EB & SB).
  destruct (dist_ok one three v1 v3 P1 P3 B1 B3) as (ld & FD & LD & ED & SD).
  assert (SYM : norm (minus v1 v3) = norm (minus v3 v1)) by (unfold norm; cbn [minus vx vy]; f_equal; ring). rewrite SYM in *.
  set (A := norm (minus v2 v1)) in *. set (B := norm (minus v3 v1)) in *.
  assert (A0 : 0 <= A) by apply norm_pos. assert (B0 : 0 <= B) by apply norm_pos.
  destruct (fgt (diff _ _) _) eqn:T1; [eexists; split; [reflexivity|discriminate]|].
  destruct (fgt (fabs (fsub (fabs _) _)) _) eqn:T2; [eexists; split; [reflexivity|discriminate]|].
  destruct (modules_ok _ _ _ _ FD LD FM HM) as [N1 N2].
  set (n := round_u32 _) in *. cbv zeta in N1, N2.
  rewrite chk_u32_ok by (unfold u32_max; lia). cbn [bind]. rewrite chk_u32_ok by (unfold u32_max; lia). cbn [bind].
  destruct (Z.ltb_spec (4 * n + 1) 20) as [S|S]; [eexists; split; [reflexivity|discriminate]|].
  assert (V : ((4 * n + 1 - 17) / 4 = n - 4)%Z) by (replace (4 * n + 1 - 17)%Z with ((n - 4) * 4)%Z by lia; apply Z.div_mul; lia).
  rewrite V.
  (* the sides are long *)
  assert (N5 : 5 <= IZR n) by (apply IZR_le; lia).
  apply Rabs_le_inv in N2.
  assert (LM : 11.9999 * m <= ld).
  { assert (11.9999 <= ld / m) by lra. apply Rmult_le_compat_r with (r := m) in H; [|lra]. unfold Rdiv in H. rewrite Rmult_assoc, Rinv_l in H by lra. lra. }
  assert (B1' : 1 <= B) by (destruct (Rlt_or_le B 1) as [C|C]; [specialize (SD C); lra|exact C]).
  specialize (ED B1'). specialize (EB B1'). 
  assert (BD : 11.999 * m <= B) by (apply Rabs_le_inv in ED; unfold u53 in ED; lra).
  assert (BB : 11.9 <= lb) by (apply Rabs_le_inv in EB; unfold u53 in EB; lra).
  assert (MX : 1 <= Rmax la lb) by (apply Rle_trans with lb; [lra|apply Rmax_r]).
  pose proof (diff_apx _ _ _ _ FA FB ltac:(lra) ltac:(lra) MX) as DA.
  pose proof (apx_fgt_inv' _ _ _ _ _ _ DA (lit_apx 15 100 ltac:(lia) ltac:(lia)) T1) as T1'.
  destruct (rel_diff_len la lb ltac:(lra) ltac:(lra) MX ltac:(unfold u53 in T1'; lra)) as [R1 R2].
  assert (A1' : 1 <= A) by (destruct (Rlt_or_le A 1) as [C|C]; [specialize (SA C); lra|exact C]).
  specialize (EA A1'). pose proof (Rabs_le_inv _ _ EA) as EA'. pose proof (Rabs_le_inv _ _ EB) as EB'.
  assert (SL : same_length A B) by (unfold same_length; unfold u53 in *; lra).
  (* the right angle *)
  pose proof (box_norm v2 v1 B2 B1) as NA. fold A in NA. pose proof (box_norm v3 v1 B3 B1) as NB. fold B in NB.
  assert (KMAX : 1 <= Rmax A B <= 8589934592).
  { split; [apply Rle_trans with B; [lra|apply Rmax_r]|apply Rmax_lub; lra]. }
  destruct (scale_of _ KMAX) as (K & HK & KL).
  pose proof (Rmax_l A B) as ML. pose proof (Rmax_r A B) as MR.
  assert (MLE : Rmax A B <= 1.2 * A /\ Rmax A B <= 1.2 * B) by (unfold same_length in SL; split; apply Rmax_lub; lra).
  pose proof (cross_apx K ltac:(lia) one two three v1 v2 v3 P1 P2 P3 ltac:(fold A; lra) ltac:(fold B; lra)) as CA.
  pose proof (cross_bound (minus v2 v1) (minus v3 v1)) as CB. fold A B in CB.
  set (c := cross (minus v2 v1) (minus v3 v1)) in *.
  pose proof (perp_apx K ltac:(lia) _ _ _ _ A B la lb CA FA FB ltac:(lra) ltac:(lra) ltac:(rewrite Rabs_Ropp; exact CB) EA EB) as PA.
  set (perp := fdiv (fdiv _ _) _) in *.
  assert (ABP : 0 < A * B) by nra.
  assert (S1 : Rabs (- c / (A * B)) <= 1).
  { unfold Rdiv. rewrite Rabs_mult, Rabs_Ropp, Rabs_inv, (Rabs_pos_eq (A * B)) by lra. apply le_div; lra. }
  set (s := - c / (A * B)) in *.
  assert (T2' : 1 - Rabs s <= 0.0501).
  { pose proof (apx_fabs _ _ _ PA) as PB. pose proof (Rabs_pos s).
    pose proof (apx_fsub 1 _ _ _ _ _ 0 ltac:(lia) PB (apx_of_Z 1 ltac:(lia))) as PC.
    specialize (PC ltac:(change (bpow radix2 1) with 2; apply Rle_trans with (1 + (2000 * u53 + 0)); [apply Rplus_le_compat_r, Rabs_le; lra|unfold u53; lra])).
    apply apx_fabs in PC.
    pose proof (apx_fgt_inv' _ _ _ _ _ _ PC (lit_apx 5 100 ltac:(lia) ltac:(lia)) T2) as X.
    rewrite bpow_53 in X. change (bpow radix2 1) with 2 in X. unfold u53 in X.
    rewrite Rabs_minus_sym, Rabs_pos_eq in X by lra. lra. }
  assert (C1 : c = - s * (A * B)) by (unfold s; field; lra).
  assert (FV : fits_version B m (n - 4)).
  { unfold fits_version. replace (4 * (n - 4) + 10)%Z with (4 * n - 6)%Z by lia. rewrite minus_IZR, mult_IZR.
    apply Rabs_le_inv in ED. unfold u53 in ED.
    assert (Q : Rabs (ld / m - B / m) <= / 16384).
    { replace (ld / m - B / m) with ((ld - B) / m) by (field; lra). unfold Rdiv. rewrite Rabs_mult, Rabs_inv, (Rabs_pos_eq m) by lra.
      apply le_div; [lra|]. apply Rabs_le. lra. }
    apply Rabs_le_inv in Q. apply Rabs_le. lra. }
  assert (BASE : forall tr bl, top_left (mkQRLoc one tr bl ms (n - 4)) = one /\ module_size (mkQRLoc one tr bl ms (n - 4)) = ms) by (intros; split; reflexivity).
  assert (Z0 : fin (of_Z 0) 0) by (apply (fin_of_Z 0); lia).
  destruct (fgt perp (of_Z 0)) eqn:T3; eexists; (split; [reflexivity|]); intros loc [= <-];
    cbn [top_left top_right bottom_left version module_size]; (repeat split; auto; try lia; try (unfold same_length in SL; lra)).
  - left. repeat split. unfold right_angle. fold A B.
    pose proof (apx_fgt_inv _ _ _ _ _ _ PA (fin_apx _ _ Z0) T3) as X. unfold u53 in X.
    assert (SP : 0.9499 <= s) by (unfold Rabs in T2'; destruct (Rcase_abs s); lra).
    replace (cross (minus v3 v1) (minus v2 v1)) with (- c) by (unfold c, cross; ring). rewrite C1.
    replace (- (- s * (A * B))) with (s * (A * B)) by ring. rewrite (Rmult_comm B A). apply Rmult_le_compat_r; lra.
  - right. repeat split. unfold right_angle. fold A B. fold c.
    pose proof (apx_fgt_inv' _ _ _ _ _ _ PA (fin_apx _ _ Z0) T3) as X. unfold u53 in X.
    assert (SP : 0.9499 <= - s) by (unfold Rabs in T2'; destruct (Rcase_abs s); lra).
    rewrite C1. apply Rmult_le_compat_r; lra.
Qed.

(** *** all triples of candidates *)

(** [a], [b], [c] are the real positions of the corners of a location with module size [m] *)
Definition geometry (loc : qrloc) (tl tr bl : vec) (m : R) : Prop :=
  at_point (top_left loc) tl /\ at_point (top_right loc) tr /\ at_point (bottom_left loc) bl /\
  fin (module_size loc) m /\ (1 <= version loc)%Z /\
  right_angle tl tr bl /\ same_length (norm (minus tr tl)) (norm (minus bl tl)) /\
  10 * m <= norm (minus tr tl) /\ 10 * m <= norm (minus bl tl) /\
  (fits_version (norm (minus tr tl)) m (version loc) \/ fits_version (norm (minus bl tl)) m (version loc)).

Lemma same_length_sym a b : same_length a b -> same_length b a.
Proof. unfold same_length. tauto. Qed.

(** the corners are the three points, in some order *)
Definition corners (loc : qrloc) (one two three : point) : Prop :=
  (top_left loc, top_right loc, bottom_left loc) = (one, two, three) \/ (top_left loc, top_right loc, bottom_left loc) = (one, three, two) \/
  (top_left loc, top_right loc, bottom_left loc) = (two, one, three) \/ (top_left loc, top_right loc, bottom_left loc) = (two, three, one) \/
  (top_left loc, top_right loc, bottom_left loc) = (three, one, two) \/ (top_left loc, top_right loc, bottom_left loc) = (three, two, one).

Lemma internal_geometry one two three ms v1 v2 v3 m : at_point one v1 -> at_point two v2 -> at_point three v3 ->
  box v1 -> box v2 -> box v3 -> fin ms m -> 1 <= m <= 1073741824 ->
  exists o, find_qr_internal one two three ms = Ok o /\
    forall loc, o = Some loc -> module_size loc = ms /\
      exists tr bl, geometry loc v1 tr bl m /\
        (top_left loc = one /\ top_right loc = three /\ bottom_left loc = two /\ tr = v3 /\ bl = v2 \/
         top_left loc = one /\ top_right loc = two /\ bottom_left loc = three /\ tr = v2 /\ bl = v3).
Proof.
  intros P1 P2 P3 B1 B2 B3 FM HM.
  destruct (find_qr_internal_ok one two three ms v1 v2 v3 m P1 P2 P3 B1 B2 B3 FM HM) as (o & E & C).
  exists o. split; [exact E|]. intros loc Hl. destruct (C loc Hl) as (TL & MS & VE & FV & SL & LB & D).
  split; [exact MS|].
  assert (LA : 10 * m <= norm (minus v2 v1)) by (unfold same_length in SL; lra).
  assert (LB' : 10 * m <= norm (minus v3 v1)) by lra.
  unfold geometry. rewrite TL, MS. destruct D as [(TR & BL & RA)|(TR & BL & RA)]; rewrite TR, BL.
  - exists v3, v2. pose proof (same_length_sym _ _ SL). tauto.
  - exists v2, v3. tauto.
Qed.

Theorem find_qr_ok one two three ms v1 v2 v3 m : at_point one v1 -> at_point two v2 -> at_point three v3 ->
  box v1 -> box v2 -> box v3 -> fin ms m -> 1 <= m <= 1073741824 ->
  exists o, find_qr one two three ms = Ok o /\
    forall loc, o = Some loc -> module_size loc = ms /\ corners loc one two three /\
      exists tl tr bl, geometry loc tl tr bl m /\ In tl [v1; v2; v3] /\ In tr [v1; v2; v3] /\ In bl [v1; v2; v3].
Proof.
  intros P1 P2 P3 B1 B2 B3 FM HM. unfold find_qr.
  destruct (internal_geometry one two three ms v1 v2 v3 m P1 P2 P3 B1 B2 B3 FM HM) as (o & -> & C). cbn [bind].
  destruct o as [qr|].
  { eexists. split; [reflexivity|]. intros loc [= <-]. destruct (C _ eq_refl) as (MS & tr & bl & G & D). split; [exact MS|].
    unfold corners. split; [destruct D as [(-> & -> & -> & _)|(-> & -> & -> & _)]; tauto|].
    exists v1, tr, bl. cbn [In]. destruct D as [(_ & _ & _ & -> & ->)|(_ & _ & _ & -> & ->)]; tauto. }
  destruct (internal_geometry two one three ms v2 v1 v3 m P2 P1 P3 B2 B1 B3 FM HM) as (o & -> & C'). cbn [bind].
  destruct o as [qr|].
  { eexists. split; [reflexivity|]. intros loc [= <-]. destruct (C' _ eq_refl) as (MS & tr & bl & G & D). split; [exact MS|].
    unfold corners. split; [destruct D as [(-> & -> & -> & _)|(-> & -> & -> & _)]; tauto|].
    exists v2, tr, bl. cbn [In]. destruct D as [(_ & _ & _ & -> & ->)|(_ & _ & _ & -> & ->)]; tauto. }
  destruct (internal_geometry three one two ms v3 v1 v2 m P3 P1 P2 B3 B1 B2 FM HM) as (o & -> & C2).
  eexists. split; [reflexivity|]. intros loc ->. destruct (C2 _ eq_refl) as (MS & tr & bl & G & D). split; [exact MS|].
  unfold corners. split; [destruct D as [(-> & -> & -> & _)|(-> & -> & -> & _)]; tauto|].
  exists v3, tr, bl. cbn [In]. destruct D as [(_ & _ & _ & -> & ->)|(_ & _ & _ & -> & ->)]; tauto.
Qed.

(** a location made of three different candidates of the list *)
Definition made_of (g : gray) (cs : list finder_pos) (loc : qrloc) : Prop :=
  (exists i j k a b c, (i < j < k)%nat /\ nth_error cs i = Some a /\ nth_error cs j = Some b /\ nth_error cs k = Some c /\
     module_size loc = fp_module_size a /\ corners loc (fp_location a) (fp_location b) (fp_location c)) /\
  exists tl tr bl m, geometry loc tl tr bl m /\ (1 <= m <= 1073741824) /\
    Forall (fun v => 0 <= vx v <= IZR (gw g - 1) /\ 0 <= vy v <= IZR (gh g - 1)) [tl; tr; bl].

Lemma Forall_In_3 {A} (Q : A -> Prop) a b c x y z : Q a -> Q b -> Q c -> In x [a; b; c] -> In y [a; b; c] -> In z [a; b; c] -> Forall Q [x; y; z].
Proof.
  intros HA HB HC HX HY HZ. assert (K : forall w, In w [a; b; c] -> Q w) by (intros w [<- | [<- | [<- | []]]]; auto).
  repeat constructor; auto.
Qed.

Theorem find_locations_ok g cs : (0 <= gw g <= 2 ^ 31)%Z -> (0 <= gh g <= 2 ^ 31)%Z -> cands_ok g cs ->
  exists locs, find_locations cs = Ok locs /\ Forall (made_of g cs) locs.
Proof.
  intros HX HY HC. unfold find_locations.
  assert (C : forall i, (i < length cs)%nat -> exists c, get cs i = Ok c /\ nth_error cs i = Some c /\ cand_at g (fp_location c) (fp_module_size c)).
  { intros i Hi. destruct (get_lt cs i Hi) as (c & E & N). exists c. split; [exact E|]. split; [exact N|].
    unfold cands_ok in HC. rewrite Forall_forall in HC. apply HC. eapply nth_error_In. exact N. }
  apply foldM_ok with (I := Forall (made_of g cs)); [constructor|]. intros i locs Hi HL. apply in_range_iff in Hi.
  apply foldM_ok with (I := Forall (made_of g cs)); [exact HL|]. clear locs HL. intros j locs Hj HL. apply in_range_iff in Hj.
  destruct (C i ltac:(lia)) as (a & -> & NA & SA & x1 & y1 & A1 & A2 & A3 & A4). cbn [bind].
  destruct (C j ltac:(lia)) as (b & -> & NB & SB & x2 & y2 & B1 & B2 & B3 & B4). cbn [bind].
  destruct (fgt _ _); [eauto|].
  apply foldM_ok with (I := Forall (made_of g cs)); [exact HL|]. clear locs HL. intros k locs Hk HL. apply in_range_iff in Hk.
  destruct (C k ltac:(lia)) as (c & -> & NC & SC & x3 & y3 & C1 & C2 & C3 & C4). cbn [bind].
  destruct (fgt _ _); [eauto|].
  destruct SA as (m & FM & HM).
  assert (WX : IZR (gw g - 1) <= 2147483648) by (apply IZR_le; lia). assert (WY : IZR (gh g - 1) <= 2147483648) by (apply IZR_le; lia).
  destruct (find_qr_ok (fp_location a) (fp_location b) (fp_location c) (fp_module_size a) (Vec x1 y1) (Vec x2 y2) (Vec x3 y3) m)
    as (o & -> & Q); auto; try (now split); try (split; cbn [vx vy]; lra).
  cbn [bind]. destruct o as [qr|]; [|eauto].
  eexists. split; [reflexivity|]. apply Forall_app. split; [exact HL|]. constructor; [|constructor].
  destruct (Q _ eq_refl) as (MS & CO & tl & tr & bl & G & T1 & T2 & T3). split.
  - exists i, j, k, a, b, c. repeat split; auto; lia.
  - exists tl, tr, bl, m. split; [exact G|]. split; [exact HM|]. eapply Forall_In_3; [| | |exact T1|exact T2|exact T3]; cbn [vx vy]; lra.
Qed.
