(** The floating point operations of the model are those of Flocq: real arithmetic
    followed by one rounding. *)
From Coq Require Import ZArith Reals Lia Lra Psatz Floats.SpecFloat.
From Verif.Model Require Import Float.
From Flocq Require Import Core BinarySingleNaN.
Local Open Scope R_scope.

Local Instance Hprec : FLX.Prec_gt_0 prec64 := eq_refl _.
Local Instance Hmax : Prec_lt_emax prec64 emax64 := eq_refl _.

Notation b64 := (binary_float prec64 emax64).
Notation fexp64 := (SpecFloat.fexp prec64 emax64).

Global Instance fexp64_valid : Valid_exp fexp64 := fexp_correct prec64 emax64 Hprec.
Global Instance fexp64_mono : Monotone_exp fexp64.
Proof. change fexp64 with (FLT_exp (-1074) 53). apply FLT_exp_monotone. Qed.

(** rounding to the nearest double *)
Definition rnd (x : R) : R := round radix2 fexp64 ZnearestE x.

Lemma nearest_even_equiv s m l : SpecFloat.round_nearest_even m l = choice_mode mode_NE s m l.
Proof. destruct l as [|[]]; try reflexivity. simpl. unfold Round.cond_incr. now destruct (Z.even m). Qed.

Lemma round_aux_equiv sx mx ex lx :
  SpecFloat.binary_round_aux prec64 emax64 sx mx ex lx = binary_round_aux prec64 emax64 mode_NE sx mx ex lx.
Proof.
  unfold SpecFloat.binary_round_aux, binary_round_aux. destruct (shr_fexp _ _ _ _ _) as [mrs' e'].
  cbv beta iota zeta. now rewrite (nearest_even_equiv sx).
Qed.

Lemma round_equiv s m e :
  SpecFloat.binary_round prec64 emax64 s m e = binary_round prec64 emax64 mode_NE s m e.
Proof.
  unfold SpecFloat.binary_round, binary_round, shl_align_fexp.
  destruct (shl_align _ _ _) as [mz ez]. apply round_aux_equiv.
Qed.

Lemma normalize_equiv m e z :
  SpecFloat.binary_normalize prec64 emax64 m e z = B2SF (binary_normalize prec64 emax64 Hprec Hmax mode_NE m e z).
Proof. destruct m as [|p|p]; [reflexivity| |]; simpl; rewrite B2SF_SF2B; apply round_equiv. Qed.

Lemma fmul_equiv (x y : b64) : fmul (B2SF x) (B2SF y) = B2SF (Bmult mode_NE x y).
Proof.
  destruct x as [sx|sx| |sx mx ex Bx], y as [sy|sy| |sy my ey By]; try reflexivity.
  simpl. rewrite B2SF_SF2B. apply round_aux_equiv.
Qed.

Lemma fadd_equiv (x y : b64) : fadd (B2SF x) (B2SF y) = B2SF (Bplus mode_NE x y).
Proof.
  destruct x as [sx|sx| |sx mx ex Bx], y as [sy|sy| |sy my ey By]; try reflexivity;
    try (simpl; now destruct (Bool.eqb sx sy)). apply normalize_equiv.
Qed.

Lemma fsub_equiv (x y : b64) : fsub (B2SF x) (B2SF y) = B2SF (Bminus mode_NE x y).
Proof.
  destruct x as [sx|sx| |sx mx ex Bx], y as [sy|sy| |sy my ey By]; try reflexivity;
    try (simpl; now destruct (Bool.eqb sx (negb sy))).
  unfold fsub. simpl. unfold Zminus. rewrite <- cond_Zopp_negb. apply normalize_equiv.
Qed.

Lemma fdiv_equiv (x y : b64) : fdiv (B2SF x) (B2SF y) = B2SF (Bdiv mode_NE x y).
Proof.
  destruct x as [sx|sx| |sx mx ex Bx], y as [sy|sy| |sy my ey By]; try reflexivity.
  unfold fdiv. simpl. rewrite B2SF_SF2B. destruct (SFdiv_core_binary _ _ _ _ _ _) as [[mz ez] lz]. apply round_aux_equiv.
Qed.

Lemma fsqrt_equiv (x : b64) : fsqrt (B2SF x) = B2SF (Bsqrt mode_NE x).
Proof.
  destruct x as [sx|sx| |sx mx ex Bx]; try reflexivity; try (now destruct sx).
  destruct sx; [reflexivity|]. unfold fsqrt. simpl. rewrite B2SF_SF2B.
  destruct (SFsqrt_core_binary _ _ _ _) as [[mz ez] lz]. apply round_aux_equiv.
Qed.

Lemma fabs_equiv (x : b64) : fabs (B2SF x) = B2SF (Babs x).
Proof. now destruct x. Qed.
Lemma fopp_equiv (x : b64) : fopp (B2SF x) = B2SF (Bopp x).
Proof. now destruct x. Qed.

(** [x] is the finite double of real value [r] *)
Definition fin (x : f64) (r : R) : Prop := exists b : b64, B2SF b = x /\ is_finite b = true /\ B2R b = r.

(** below this bound nothing overflows *)
Definition big : R := bpow radix2 1023.

Lemma rnd_small x : Rabs x <= big -> Rlt_bool (Rabs (rnd x)) (bpow radix2 emax64) = true.
Proof.
  intros H. apply Rlt_bool_true. apply Rle_lt_trans with big; [|apply bpow_lt; reflexivity].
  unfold rnd. apply abs_round_le_generic; auto with typeclass_instances.
  apply generic_format_bpow. unfold SpecFloat.fexp, SpecFloat.emin, prec64, emax64. lia.
Qed.

Lemma fin_fmul x y a b : fin x a -> fin y b -> Rabs (a * b) <= big -> fin (fmul x y) (rnd (a * b)).
Proof.
  intros (bx & <- & Fx & <-) (by_ & <- & Fy & <-) H. rewrite fmul_equiv.
  pose proof (Bmult_correct prec64 emax64 _ _ mode_NE bx by_) as C. fold (rnd (B2R bx * B2R by_)) in C.
  change (round radix2 fexp64 (round_mode mode_NE) (B2R bx * B2R by_)) with (rnd (B2R bx * B2R by_)) in C.
  rewrite rnd_small in C by exact H. destruct C as (C1 & C2 & _).
  eexists. split; [reflexivity|]. split; [now rewrite C2, Fx, Fy|exact C1].
Qed.

Lemma fin_fadd x y a b : fin x a -> fin y b -> Rabs (a + b) <= big -> fin (fadd x y) (rnd (a + b)).
Proof.
  intros (bx & <- & Fx & <-) (by_ & <- & Fy & <-) H. rewrite fadd_equiv.
  pose proof (Bplus_correct prec64 emax64 _ _ mode_NE bx by_ Fx Fy) as C.
  change (round radix2 fexp64 (round_mode mode_NE) (B2R bx + B2R by_)) with (rnd (B2R bx + B2R by_)) in C.
  rewrite rnd_small in C by exact H. destruct C as (C1 & C2 & _).
  eexists. split; [reflexivity|]. auto.
Qed.

Lemma fin_fsub x y a b : fin x a -> fin y b -> Rabs (a - b) <= big -> fin (fsub x y) (rnd (a - b)).
Proof.
  intros (bx & <- & Fx & <-) (by_ & <- & Fy & <-) H. rewrite fsub_equiv.
  pose proof (Bminus_correct prec64 emax64 _ _ mode_NE bx by_ Fx Fy) as C.
  change (round radix2 fexp64 (round_mode mode_NE) (B2R bx - B2R by_)) with (rnd (B2R bx - B2R by_)) in C.
  rewrite rnd_small in C by exact H. destruct C as (C1 & C2 & _).
  eexists. split; [reflexivity|]. auto.
Qed.

Lemma fin_fdiv x y a b : fin x a -> fin y b -> b <> 0 -> Rabs (a / b) <= big -> fin (fdiv x y) (rnd (a / b)).
Proof.
  intros (bx & <- & Fx & <-) (by_ & <- & Fy & <-) HN H. rewrite fdiv_equiv.
  pose proof (Bdiv_correct prec64 emax64 _ _ mode_NE bx by_ HN) as C.
  change (round radix2 fexp64 (round_mode mode_NE) (B2R bx / B2R by_)) with (rnd (B2R bx / B2R by_)) in C.
  rewrite rnd_small in C by exact H. destruct C as (C1 & C2 & _).
  eexists. split; [reflexivity|]. split; [now rewrite C2|exact C1].
Qed.

Lemma fin_fsqrt x a : fin x a -> 0 <= a -> fin (fsqrt x) (rnd (sqrt a)).
Proof.
  intros (bx & <- & Fx & <-) H. rewrite fsqrt_equiv.
  destruct (Bsqrt_correct prec64 emax64 _ _ mode_NE bx) as (C1 & C2 & _).
  eexists. split; [reflexivity|]. split; [|exact C1]. rewrite C2.
  destruct bx as [s|s| |[] m e B]; try reflexivity; try discriminate. exfalso. revert H. simpl.
  intros H. pose proof (F2R_lt_0 radix2 (Float radix2 (Zneg m) e) ltac:(reflexivity)). simpl in *. lra.
Qed.

Lemma fin_fabs x a : fin x a -> fin (fabs x) (Rabs a).
Proof.
  intros (bx & <- & Fx & <-). rewrite fabs_equiv. eexists. split; [reflexivity|].
  split; [now rewrite is_finite_Babs|apply B2R_Babs].
Qed.

Lemma fin_fopp x a : fin x a -> fin (fopp x) (- a).
Proof.
  intros (bx & <- & Fx & <-). rewrite fopp_equiv. eexists. split; [reflexivity|].
  split; [now rewrite is_finite_Bopp|apply B2R_Bopp].
Qed.

Lemma flt_R x y a b : fin x a -> fin y b -> flt x y = Rlt_bool a b.
Proof. intros (bx & <- & Fx & <-) (by_ & <- & Fy & <-). now apply (Bltb_correct prec64 emax64 bx by_). Qed.

Lemma fgt_R x y a b : fin x a -> fin y b -> fgt x y = Rlt_bool b a.
Proof. intros H1 H2. now apply (flt_R y x b a). Qed.

Lemma fge_R x y a b : fin x a -> fin y b -> fge x y = Rle_bool b a.
Proof. intros (bx & <- & Fx & <-) (by_ & <- & Fy & <-). now apply (Bleb_correct prec64 emax64 by_ bx). Qed.

(** doubles are fixed by rounding *)
Lemma rnd_fin x a : fin x a -> rnd a = a.
Proof.
  intros (bx & _ & _ & <-). unfold rnd. apply round_generic; [auto with typeclass_instances|apply generic_format_B2R].
Qed.

Lemma rnd_int n : (Z.abs n <= 2 ^ 53)%Z -> rnd (IZR n) = IZR n.
Proof.
  intros H. unfold rnd. apply round_generic; [auto with typeclass_instances|].
  change fexp64 with (FLT_exp (-1074) 53). apply generic_format_FLT. 
  destruct (Z.eq_dec (Z.abs n) (2 ^ 53)) as [E|E].
  - assert (exists m, n = 2 * m /\ Z.abs m < 2 ^ 53)%Z as (m & -> & Hm).
    { exists (n / 2)%Z. assert (n = 2 ^ 53 \/ n = - 2 ^ 53)%Z as [-> | ->] by lia; now vm_compute. }
    exists (Float radix2 m 1); [|exact Hm|simpl; lia].
    rewrite mult_IZR. unfold F2R, Fnum, Fexp. change (bpow radix2 1) with 2. lra.
  - exists (Float radix2 n 0); simpl; [|lia|lia]. unfold F2R. simpl. lra.
Qed.

Lemma fin_of_Z_rnd n : (Z.abs n <= 2 ^ 1000)%Z -> fin (of_Z n) (rnd (IZR n)).
Proof.
  intros H. unfold of_Z. rewrite normalize_equiv.
  pose proof (binary_normalize_correct prec64 emax64 _ _ mode_NE n 0 false) as C. cbv zeta in C.
  assert (E : F2R (Float radix2 n 0) = IZR n) by (unfold F2R; simpl; lra). rewrite E in C.
  change (round radix2 fexp64 (round_mode mode_NE) (IZR n)) with (rnd (IZR n)) in C.
  rewrite rnd_small in C.
  - destruct C as (C1 & C2 & _). eexists. split; [reflexivity|]. auto.
  - rewrite <- abs_IZR. apply Rle_trans with (IZR (2 ^ 1000)); [now apply IZR_le|].
    change (IZR (2 ^ 1000)) with (IZR (Zpower radix2 1000)). rewrite IZR_Zpower by lia. apply bpow_le. lia.
Qed.

Lemma fin_of_Z n : (Z.abs n <= 2 ^ 53)%Z -> fin (of_Z n) (IZR n).
Proof.
  intros H. rewrite <- (rnd_int n) by exact H. apply fin_of_Z_rnd.
  apply Z.le_trans with (1 := H). now vm_compute.
Qed.

Lemma rnd_le a b : a <= b -> rnd a <= rnd b.
Proof. intros. apply round_le; auto with typeclass_instances. Qed.

Lemma rnd_0 : rnd 0 = 0.
Proof. apply round_0. auto with typeclass_instances. Qed.

Lemma fin_inj x a b : fin x a -> fin x b -> a = b.
Proof. intros (p & <- & _ & <-) (q & E & _ & <-). apply B2SF_inj in E. now subst. Qed.

Lemma rnd_dyadic m e : (Z.abs m < 2 ^ 53)%Z -> (-1074 <= e)%Z -> rnd (IZR m * bpow radix2 e) = IZR m * bpow radix2 e.
Proof.
  intros H He. unfold rnd. apply round_generic; [auto with typeclass_instances|].
  change fexp64 with (FLT_exp (-1074) 53). apply generic_format_FLT.
  exists (Float radix2 m e); [reflexivity|exact H|exact He].
Qed.

(** a quotient of moderate integers compares with a byte like the exact fraction *)
Lemma quotient_byte T C k : (0 < C <= 2 ^ 45)%Z -> (0 <= T <= 2 ^ 53)%Z -> (0 <= k <= 255)%Z ->
  exists q, fin (fdiv (of_Z T) (of_Z C)) q /\ (q < IZR k <-> (T < k * C)%Z) /\ (IZR k < q <-> (k * C < T)%Z).
Proof.
  intros HC HT Hk.
  assert (PC : 0 < IZR C) by (apply IZR_lt; lia).
  assert (EX : forall z, IZR T / IZR C < IZR z <-> (T < z * C)%Z).
  { intros z. split; intros H.
    - apply lt_IZR. rewrite mult_IZR. apply Rmult_lt_reg_r with (/ IZR C); [now apply Rinv_0_lt_compat|].
      replace (IZR z * IZR C * / IZR C) with (IZR z) by (field; lra). exact H.
    - apply Rmult_lt_reg_r with (IZR C); [exact PC|]. unfold Rdiv. rewrite Rmult_assoc, Rinv_l, Rmult_1_r by lra.
      rewrite <- mult_IZR. now apply IZR_lt. }
  exists (rnd (IZR T / IZR C)). split; [|split].
  - apply fin_fdiv; [apply fin_of_Z; lia|apply fin_of_Z; lia|lra|].
    assert (H1 : 0 <= IZR T / IZR C).
    { apply Rmult_le_pos; [apply IZR_le; lia|apply Rlt_le, Rinv_0_lt_compat, PC]. }
    rewrite Rabs_pos_eq by exact H1. apply Rle_trans with (IZR (2 ^ 53 + 1)).
    + apply Rlt_le, EX. nia.
    + unfold big. change 1023%Z with (54 + 969)%Z. rewrite bpow_plus. 
      assert (1 <= bpow radix2 969) by (change 1 with (bpow radix2 0); apply bpow_le; lia).
      assert (IZR (2 ^ 53 + 1) <= bpow radix2 54) by (change (bpow radix2 54) with (IZR (2 ^ 54)); apply IZR_le; lia).
      assert (0 < bpow radix2 54) by apply bpow_gt_0. nra.
  - assert (P45 : bpow radix2 (-45) * IZR (2 ^ 45) = 1).
    { change (IZR (2 ^ 45)) with (bpow radix2 45). rewrite <- bpow_plus. reflexivity. }
    split; intros H.
    + apply EX. apply Rnot_le_lt. intros HN. apply rnd_le in HN. rewrite rnd_int in HN by lia. lra.
    + apply Rle_lt_trans with (IZR (k * 2 ^ 45 - 1) * bpow radix2 (-45)).
      * rewrite <- (rnd_dyadic (k * 2 ^ 45 - 1) (-45)) by lia. apply rnd_le.
        rewrite minus_IZR, mult_IZR, Rmult_minus_distr_r, Rmult_assoc, (Rmult_comm (IZR (2 ^ 45))), P45, Rmult_1_r, Rmult_1_l.
        assert (H1 : IZR T / IZR C <= IZR k - / IZR C).
        { apply Rmult_le_reg_r with (IZR C); [exact PC|]. unfold Rdiv.
          rewrite Rmult_minus_distr_r, Rmult_assoc, Rinv_l, Rmult_1_r by lra.
          rewrite <- mult_IZR, <- minus_IZR. apply IZR_le. lia. }
        apply Rle_trans with (1 := H1). apply Rplus_le_compat_l, Ropp_le_contravar.
        apply Rmult_le_reg_r with (IZR (2 ^ 45)); [apply IZR_lt; lia|]. rewrite P45.
        apply Rmult_le_reg_l with (IZR C); [exact PC|]. rewrite <- Rmult_assoc, Rinv_r, Rmult_1_l, Rmult_1_r by lra.
        apply IZR_le. lia.
      * rewrite minus_IZR, mult_IZR, Rmult_minus_distr_r, Rmult_assoc, (Rmult_comm (IZR (2 ^ 45))), P45.
        pose proof (bpow_gt_0 radix2 (-45)). lra.
  - assert (P45 : bpow radix2 (-45) * IZR (2 ^ 45) = 1).
    { change (IZR (2 ^ 45)) with (bpow radix2 45). rewrite <- bpow_plus. reflexivity. }
    split; intros H.
    + apply Z.nle_gt. intros HN.
      assert (HX : IZR T / IZR C <= IZR k).
      { apply Rnot_lt_le. intros HX. apply Rmult_lt_compat_r with (r := IZR C) in HX; [|exact PC].
        unfold Rdiv in HX. rewrite Rmult_assoc, Rinv_l, Rmult_1_r, <- mult_IZR in HX by lra. apply lt_IZR in HX. lia. }
      apply rnd_le in HX. rewrite rnd_int in HX by lia. lra.
    + apply Rlt_le_trans with (IZR (k * 2 ^ 45 + 1) * bpow radix2 (-45)).
      * rewrite plus_IZR, mult_IZR, Rmult_plus_distr_r, Rmult_assoc, (Rmult_comm (IZR (2 ^ 45))), P45.
        pose proof (bpow_gt_0 radix2 (-45)). lra.
      * rewrite <- (rnd_dyadic (k * 2 ^ 45 + 1) (-45)) by lia. apply rnd_le.
        rewrite plus_IZR, mult_IZR, Rmult_plus_distr_r, Rmult_assoc, (Rmult_comm (IZR (2 ^ 45))), P45, Rmult_1_r, Rmult_1_l.
        assert (H1 : IZR k + / IZR C <= IZR T / IZR C).
        { apply Rmult_le_reg_r with (IZR C); [exact PC|]. unfold Rdiv.
          rewrite Rmult_plus_distr_r, Rmult_assoc, Rinv_l, Rmult_1_r by lra.
          rewrite <- mult_IZR, <- plus_IZR. apply IZR_le. lia. }
        apply Rle_trans with (2 := H1). apply Rplus_le_compat_l.
        apply Rmult_le_reg_r with (IZR (2 ^ 45)); [apply IZR_lt; lia|]. rewrite P45.
        apply Rmult_le_reg_l with (IZR C); [exact PC|]. rewrite <- Rmult_assoc, Rinv_r, Rmult_1_l, Rmult_1_r by lra.
        apply IZR_le. lia.
Qed.
