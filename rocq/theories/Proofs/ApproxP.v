(** Rounding errors, and rounding to integers. *)
From Coq Require Import ZArith Reals Lia Lra Psatz Bool Floats.SpecFloat.
From Verif.Model Require Import Float.
From Flocq Require Import Core BinarySingleNaN Relative.
From Verif.Proofs Require Import FloatP.
Local Open Scope R_scope.

Lemma pow2_plus a b : bpow radix2 (a + b) = bpow radix2 a * bpow radix2 b.
Proof. apply bpow_plus. Qed.

Lemma small_big x k : (k <= 1023)%Z -> Rabs x <= bpow radix2 k -> Rabs x <= big.
Proof. intros Hk H. apply Rle_trans with (1 := H). now apply bpow_le. Qed.

(** the error of one rounding *)
Lemma rnd_err x k : (-1021 <= k)%Z -> Rabs x <= bpow radix2 k -> Rabs (rnd x - x) <= bpow radix2 (k - 53).
Proof.
  intros Hk H.
  apply Rle_trans with (1 := error_le_half_ulp radix2 fexp64 (fun n => negb (Z.even n)) x).
  assert (U : ulp radix2 fexp64 x <= bpow radix2 (k - 52)).
  { rewrite <- (Rabs_pos_eq (bpow radix2 k)) in H by apply bpow_ge_0.
    apply Rle_trans with (1 := ulp_le radix2 fexp64 x (bpow radix2 k) H).
    rewrite ulp_bpow. apply bpow_le. unfold SpecFloat.fexp, SpecFloat.emin, prec64, emax64. lia. }
  replace (k - 52)%Z with (1 + (k - 53))%Z in U by lia. rewrite bpow_plus in U.
  change (bpow radix2 1) with 2 in U. lra.
Qed.

Lemma rnd_rel x : bpow radix2 (-1022) <= Rabs x -> Rabs (rnd x - x) <= bpow radix2 (-53) * Rabs x.
Proof.
  intros H. pose proof (relative_error_N_FLT radix2 (-1074) 53 ltac:(reflexivity) (fun n => negb (Z.even n)) x H) as E.
  change (-53)%Z with (-1 + (-53 + 1))%Z. rewrite (bpow_plus radix2 (-1)). change (bpow radix2 (-1)) with (/ 2). exact E.
Qed.

(** [x] is finite and within [d] of [r] *)
Definition apx (x : f64) (r d : R) : Prop := exists v, fin x v /\ Rabs (v - r) <= d.

Lemma fin_apx x r : fin x r -> apx x r 0.
Proof. intros H. exists r. split; [exact H|]. unfold Rminus. rewrite Rplus_opp_r, Rabs_R0. lra. Qed.

Lemma apx_weaken x r d d' : apx x r d -> d <= d' -> apx x r d'.
Proof. intros (v & F & H) L. exists v. split; [exact F|lra]. Qed.

Lemma apx_eq x r r' d : apx x r d -> r = r' -> apx x r' d.
Proof. now intros H <-. Qed.

Ltac rabs := unfold Rabs in *; repeat destruct (Rcase_abs _).

Lemma apx_round v r d k : (-1021 <= k)%Z -> Rabs (v - r) <= d -> Rabs r + d <= bpow radix2 k ->
  Rabs (rnd v - r) <= d + bpow radix2 (k - 53) /\ Rabs v <= bpow radix2 k.
Proof.
  intros Hk H B. assert (V : Rabs v <= bpow radix2 k) by (rabs; lra).
  split; [|exact V]. pose proof (rnd_err v k Hk V). rabs; lra.
Qed.

Lemma apx_fadd k x y a b d e : (-1021 <= k <= 1023)%Z -> apx x a d -> apx y b e -> Rabs (a + b) + (d + e) <= bpow radix2 k ->
  apx (fadd x y) (a + b) (d + e + bpow radix2 (k - 53)).
Proof.
  intros Hk (v & F & H) (w & G & L) B.
  destruct (apx_round (v + w) (a + b) (d + e) k) as [E1 E2]; [lia|rabs; lra|exact B|].
  exists (rnd (v + w)). split; [apply fin_fadd; auto; apply small_big with k; [lia|exact E2]|exact E1].
Qed.

Lemma apx_fsub k x y a b d e : (-1021 <= k <= 1023)%Z -> apx x a d -> apx y b e -> Rabs (a - b) + (d + e) <= bpow radix2 k ->
  apx (fsub x y) (a - b) (d + e + bpow radix2 (k - 53)).
Proof.
  intros Hk (v & F & H) (w & G & L) B.
  destruct (apx_round (v - w) (a - b) (d + e) k) as [E1 E2]; [lia|rabs; lra|exact B|].
  exists (rnd (v - w)). split; [apply fin_fsub; auto; apply small_big with k; [lia|exact E2]|exact E1].
Qed.

Lemma apx_fmul k x y a b d e : (-1021 <= k <= 1023)%Z -> apx x a d -> apx y b e ->
  Rabs (a * b) + (Rabs a * e + Rabs b * d + d * e) <= bpow radix2 k ->
  apx (fmul x y) (a * b) (Rabs a * e + Rabs b * d + d * e + bpow radix2 (k - 53)).
Proof.
  intros Hk (v & F & H) (w & G & L) B.
  destruct (apx_round (v * w) (a * b) (Rabs a * e + Rabs b * d + d * e) k) as [E1 E2]; [lia| |exact B|].
  { replace (v * w - a * b) with (a * (w - b) + b * (v - a) + (v - a) * (w - b)) by ring.
    assert (0 <= Rabs (v - a)) by apply Rabs_pos. assert (0 <= Rabs (w - b)) by apply Rabs_pos.
    eapply Rle_trans; [apply Rabs_triang|]. apply Rplus_le_compat.
    - eapply Rle_trans; [apply Rabs_triang|]. rewrite !Rabs_mult.
      apply Rplus_le_compat; apply Rmult_le_compat_l; auto; apply Rabs_pos.
    - rewrite Rabs_mult. apply Rmult_le_compat; auto. }
  exists (rnd (v * w)). split; [apply fin_fmul; auto; apply small_big with k; [lia|exact E2]|exact E1].
Qed.

(** division by an exact number *)
Lemma apx_fdiv k x y a b d : (-1021 <= k <= 1023)%Z -> apx x a d -> fin y b -> b <> 0 ->
  Rabs (a / b) + d / Rabs b <= bpow radix2 k ->
  apx (fdiv x y) (a / b) (d / Rabs b + bpow radix2 (k - 53)).
Proof.
  intros Hk (v & F & H) G NZ B.
  assert (PB : 0 < Rabs b) by now apply Rabs_pos_lt.
  destruct (apx_round (v / b) (a / b) (d / Rabs b) k) as [E1 E2]; [lia| |exact B|].
  { replace (v / b - a / b) with ((v - a) / b) by (field; exact NZ). unfold Rdiv. rewrite Rabs_mult, Rabs_inv.
    apply Rmult_le_compat_r; [|exact H]. apply Rlt_le, Rinv_0_lt_compat, PB. }
  exists (rnd (v / b)). split; [apply fin_fdiv; auto; apply small_big with k; [lia|exact E2]|exact E1].
Qed.

Lemma apx_fabs x a d : apx x a d -> apx (fabs x) (Rabs a) d.
Proof.
  intros (v & F & H). exists (Rabs v). split; [now apply fin_fabs|].
  apply Rle_trans with (2 := H). apply Rabs_triang_inv2.
Qed.

Lemma apx_fopp x a d : apx x a d -> apx (fopp x) (- a) d.
Proof. intros (v & F & H). exists (- v). split; [now apply fin_fopp|]. rabs; lra. Qed.

Lemma apx_flt_true x y a b d e : apx x a d -> apx y b e -> a + d < b - e -> flt x y = true.
Proof. intros (v & F & H) (w & G & L) B. rewrite (flt_R _ _ _ _ F G). apply Rlt_bool_true. rabs; lra. Qed.
Lemma apx_flt_false x y a b d e : apx x a d -> apx y b e -> b + e <= a - d -> flt x y = false.
Proof. intros (v & F & H) (w & G & L) B. rewrite (flt_R _ _ _ _ F G). apply Rlt_bool_false. rabs; lra. Qed.
Lemma apx_fgt_true x y a b d e : apx x a d -> apx y b e -> b + e < a - d -> fgt x y = true.
Proof. intros A B L. exact (apx_flt_true y x b a e d B A L). Qed.
Lemma apx_fgt_false x y a b d e : apx x a d -> apx y b e -> a + d <= b - e -> fgt x y = false.
Proof. intros A B L. exact (apx_flt_false y x b a e d B A L). Qed.
(** what a comparison tells *)
Lemma apx_fgt_inv x y a b d e : apx x a d -> apx y b e -> fgt x y = true -> b - e < a + d.
Proof.
  intros (v & F & H) (w & G & L) B. rewrite (fgt_R _ _ _ _ F G) in B. revert B. case Rlt_bool_spec; [|discriminate].
  intros B _. rabs; lra.
Qed.
Lemma apx_fgt_inv' x y a b d e : apx x a d -> apx y b e -> fgt x y = false -> a - d <= b + e.
Proof.
  intros (v & F & H) (w & G & L) B. rewrite (fgt_R _ _ _ _ F G) in B. revert B. case Rlt_bool_spec; [discriminate|].
  intros B _. rabs; lra.
Qed.
Lemma apx_flt_inv x y a b d e : apx x a d -> apx y b e -> flt x y = true -> a - d < b + e.
Proof. intros A B H. pose proof (apx_fgt_inv y x b a e d B A H). lra. Qed.
Lemma apx_flt_inv' x y a b d e : apx x a d -> apx y b e -> flt x y = false -> b - e <= a + d.
Proof. intros A B H. exact (apx_fgt_inv' y x b a e d B A H). Qed.

(** *** rounding to integers *)

(** nearest integer, ties away from zero *)
Definition away (r : R) : Z := if Rle_bool 0 r then Zfloor (r + /2) else (- Zfloor (- r + /2))%Z.

Lemma away_pos r : 0 <= r -> away r = Zfloor (r + /2).
Proof. intros H. unfold away. now rewrite Rle_bool_true. Qed.
Lemma away_neg r : r < 0 -> (away r <= 0)%Z.
Proof.
  intros H. unfold away. rewrite Rle_bool_false by lra.
  assert (0 <= Zfloor (- r + /2))%Z by (apply Zfloor_lub; simpl; lra). lia.
Qed.
Lemma away_bounds r : IZR (away r) - /2 <= r <= IZR (away r) + /2.
Proof.
  unfold away. case Rle_bool_spec; intros H.
  - pose proof (Zfloor_lb (r + /2)). pose proof (Zfloor_ub (r + /2)). lra.
  - rewrite opp_IZR. pose proof (Zfloor_lb (- r + /2)). pose proof (Zfloor_ub (- r + /2)). lra.
Qed.
Lemma away_int n : away (IZR n) = n.
Proof.
  unfold away. case Rle_bool_spec; intros H.
  - apply Zfloor_imp. rewrite plus_IZR. lra.
  - rewrite <- opp_IZR. rewrite (Zfloor_imp (- n)); [lia|]. rewrite plus_IZR. lra.
Qed.
Lemma away_le r s : r <= s -> (away r <= away s)%Z.
Proof.
  intros H. unfold away. case Rle_bool_spec; intros H1; case Rle_bool_spec; intros H2; try lra.
  - apply Zfloor_le. lra.
  - assert (0 <= Zfloor (- r + /2))%Z by (apply Zfloor_lub; simpl; lra).
    assert (0 <= Zfloor (s + /2))%Z by (apply Zfloor_lub; simpl; lra). lia.
  - apply Z.opp_le_mono. rewrite !Z.opp_involutive. apply Zfloor_le. lra.
Qed.
(** strictly closer than half *)
Lemma away_near r n : Rabs (r - IZR n) < /2 -> away r = n.
Proof.
  intros H. unfold away. case Rle_bool_spec; intros H1.
  - apply Zfloor_imp. rewrite plus_IZR. rabs; lra.
  - rewrite (Zfloor_imp (- n)); [lia|]. rewrite plus_IZR, opp_IZR. rabs; lra.
Qed.

Lemma pow_neg e : (e < 0)%Z -> bpow radix2 e = / IZR (2 ^ (- e)).
Proof.
  intros H. replace e with (- (- e))%Z by lia. rewrite bpow_opp, Z.opp_involutive.
  f_equal. change 2%Z with (radix_val radix2). rewrite IZR_Zpower by lia. reflexivity.
Qed.

Lemma floor_shift m e : (e < 0)%Z -> Zfloor (IZR m * bpow radix2 e) = Z.shiftr m (- e).
Proof.
  intros H. rewrite pow_neg by exact H. rewrite Z.shiftr_div_pow2 by lia.
  apply Zfloor_div. assert (0 < 2 ^ (- e))%Z by (apply Z.pow_pos_nonneg; lia). lia.
Qed.

Lemma floor_shift_half m e : (e < 0)%Z -> Zfloor (IZR m * bpow radix2 e + /2) = Z.shiftr (m + Z.shiftl 1 (- e - 1)) (- e).
Proof.
  intros H. rewrite <- floor_shift by exact H. f_equal. rewrite plus_IZR, Z.shiftl_mul_pow2 by lia.
  rewrite Rmult_plus_distr_r. f_equal. rewrite Z.mul_1_l.
  change 2%Z with (radix_val radix2). rewrite IZR_Zpower by lia. rewrite <- bpow_plus.
  replace (- e - 1 + e)%Z with (-1)%Z by lia. reflexivity.
Qed.

Lemma fin_finite s m e : forall r, fin (S754_finite s m e) r ->
  r = IZR (cond_Zopp s (Zpos m)) * bpow radix2 e /\ (Zpos m < 2 ^ 53)%Z.
Proof.
  intros r (b & E & _ & <-). destruct b as [s'|s'| |s' m' e' B]; try discriminate E.
  injection E as -> -> ->. split; [reflexivity|].
  unfold SpecFloat.bounded in B. apply andb_prop in B. destruct B as [B _].
  unfold SpecFloat.canonical_mantissa in B. apply Zeq_bool_eq in B.
  assert (Zpos (digits2_pos m) <= 53)%Z.
  { revert B. unfold SpecFloat.fexp, SpecFloat.emin, prec64, emax64. lia. }
  rewrite Digits.Zpos_digits2_pos in H.
  pose proof (Zdigits_correct radix2 (Zpos m)) as [_ D]. simpl Z.abs in D.
  apply Z.lt_le_trans with (1 := D). change (radix2 : Z) with 2%Z. apply Z.pow_le_mono_r; lia.
Qed.

Lemma fin_normalize q s : (Z.abs q <= 2 ^ 53)%Z -> fin (SpecFloat.binary_normalize prec64 emax64 q 0 s) (IZR q).
Proof.
  intros H. destruct q as [|p|p].
  - exists (B754_zero s). repeat split.
  - exact (fin_of_Z (Zpos p) H).
  - exact (fin_of_Z (Zneg p) H).
Qed.

Lemma fin_fround x r : fin x r -> fin (fround x) (IZR (away r)).
Proof.
  intros F. destruct x as [s|s| |s m e].
  - assert (r = 0) as -> by (destruct F as (b & E & _ & <-); destruct b; try discriminate E; reflexivity).
    change 0 with (IZR 0). rewrite away_int. simpl. exists (B754_zero s). repeat split.
  - exfalso. destruct F as (b & E & G & _). destruct b; try discriminate E. discriminate G.
  - exfalso. destruct F as (b & E & G & _). destruct b; try discriminate E. discriminate G.
  - destruct (fin_finite s m e r F) as [-> Hm]. cbn [fround]. destruct (Z.leb_spec 0 e) as [He|He].
    + replace (IZR (cond_Zopp s (Zpos m)) * bpow radix2 e) with (IZR (cond_Zopp s (Zpos m) * 2 ^ e)) in *.
      * now rewrite away_int.
      * rewrite mult_IZR. f_equal. change 2%Z with (radix_val radix2). now rewrite IZR_Zpower by lia.
    + pose proof (floor_shift_half (Zpos m) e He) as Q. set (q := Z.shiftr _ (- e)) in *.
      assert (P : 0 < bpow radix2 e) by apply bpow_gt_0.
      assert (P1 : bpow radix2 e <= /2) by (change (/2) with (bpow radix2 (-1)); apply bpow_le; lia).
      assert (M : 1 <= IZR (Zpos m)) by (apply IZR_le; lia).
      assert (Hq : (0 <= q <= 2 ^ 53)%Z).
      { rewrite <- Q. split.
        - apply Zfloor_lub. simpl. nra.
        - apply le_IZR. apply Rle_trans with (1 := Zfloor_lb _). apply (IZR_lt _ _) in Hm. 
          assert (IZR (Zpos m) * bpow radix2 e <= IZR (2 ^ 53) * /2) by (apply Rmult_le_compat; lra).
          assert (IZR (2 ^ 53) >= 2) by (apply Rle_ge, IZR_le; lia). lra. }
      assert (A : away (IZR (cond_Zopp s (Zpos m)) * bpow radix2 e) = if s then (- q)%Z else q).
      { destruct s; simpl cond_Zopp.
        - unfold away. rewrite Rle_bool_false; [f_equal; rewrite <- Q; do 2 f_equal; change (Zneg m) with (- Zpos m)%Z; rewrite opp_IZR; ring|].
          change (Zneg m) with (- Zpos m)%Z. rewrite opp_IZR. nra.
        - rewrite away_pos by nra. exact Q. }
      rewrite A. destruct (Z.eqb_spec q 0) as [-> | NZ].
      * replace (if s then (- 0)%Z else 0%Z) with 0%Z by now destruct s. exists (B754_zero s). repeat split.
      * apply fin_normalize. destruct s; lia.
Qed.

Lemma to_u32_R x r : fin x r -> to_u32 x = Z.min u32_max (Z.max 0 (Zfloor r)).
Proof.
  intros F. destruct x as [s|s| |s m e].
  - assert (r = 0) as -> by (destruct F as (b & E & _ & <-); destruct b; try discriminate E; reflexivity).
    change 0 with (IZR 0). now rewrite Zfloor_IZR.
  - exfalso. destruct F as (b & E & G & _). destruct b; try discriminate E. discriminate G.
  - exfalso. destruct F as (b & E & G & _). destruct b; try discriminate E. discriminate G.
  - destruct (fin_finite s m e r F) as [-> Hm]. assert (P : 0 < bpow radix2 e) by apply bpow_gt_0.
    assert (M : 1 <= IZR (Zpos m)) by (apply IZR_le; lia). destruct s; simpl cond_Zopp.
    + cbn [to_u32]. change (Zneg m) with (- Zpos m)%Z. rewrite opp_IZR.
      assert (Zfloor (- IZR (Z.pos m) * bpow radix2 e) < 0)%Z.
      { apply lt_IZR. apply Rle_lt_trans with (1 := Zfloor_lb _). nra. }
      unfold u32_max. lia.
    + cbn [to_u32]. destruct (Z.leb_spec 0 e) as [He|He].
      * replace (IZR (Zpos m) * bpow radix2 e) with (IZR (Z.shiftl (Zpos m) e)).
        -- rewrite Zfloor_IZR. rewrite Z.shiftl_mul_pow2 by lia. assert (0 < 2 ^ e)%Z by (apply Z.pow_pos_nonneg; lia). nia.
        -- rewrite Z.shiftl_mul_pow2, mult_IZR by lia. f_equal. change 2%Z with (radix_val radix2). now rewrite IZR_Zpower by lia.
      * rewrite floor_shift by exact He. 
        assert (0 <= Z.shiftr (Zpos m) (- e))%Z by (apply Z.shiftr_nonneg; lia). lia.
Qed.

Theorem round_u32_R x r : fin x r -> round_u32 x = Z.min u32_max (Z.max 0 (away r)).
Proof. intros F. unfold round_u32. rewrite (to_u32_R _ _ (fin_fround x r F)). now rewrite Zfloor_IZR. Qed.

Lemma round_u32_of_Z n : (0 <= n <= u32_max)%Z -> round_u32 (of_Z n) = n.
Proof.
  intros H. unfold u32_max in *. rewrite (round_u32_R (of_Z n) (IZR n)) by (apply fin_of_Z; lia).
  rewrite away_int. unfold u32_max. lia.
Qed.

Lemma fin_fmax0 x r : fin x r -> fin (fmax0 x) (Rmax r 0).
Proof.
  intros F. assert (Z0 : fin (of_Z 0) 0) by (apply (fin_of_Z 0); lia).
  unfold fmax0. destruct x; try (rewrite (flt_R _ _ _ _ F Z0); case Rlt_bool_spec; intros H;
    [rewrite Rmax_right by lra; exact Z0|rewrite Rmax_left by lra; exact F]).
  exfalso. destruct F as (b & E & G & _). destruct b; try discriminate E. discriminate G.
Qed.
