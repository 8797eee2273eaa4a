(** Detection: run patterns, refinement, the scan. *)
From Coq Require Import NArith ZArith Reals List Lia Lra Bool Arith Psatz.
From Flocq Require Import Core.
From Verif.Model Require Import Prepare Detect.
From Verif.Spec Require Import Window Finder.
From Verif.Proofs Require Import BaseP PrepareP FloatP ApproxP.
Import ListNotations.
Local Open Scope Z_scope.

(** *** run patterns *)

Definition pat_sum (p : pattern) : Z := p0 p + p1 p + p2 p + p3 p + p4 p + p5 p + p6 p.
Definition pat_total (p : pattern) : Z := p2 p + p3 p + p4 p + p5 p + p6 p.
(** all runs, at most [n] pixels together *)
Definition pat_ok (n : Z) (p : pattern) : Prop :=
  0 <= p0 p /\ 0 <= p1 p /\ 0 <= p2 p /\ 0 <= p3 p /\ 0 <= p4 p /\ 0 <= p5 p /\ 0 <= p6 p /\ pat_sum p <= n.

Lemma pat_new n : 0 <= n -> pat_ok n pattern_new.
Proof. unfold pat_ok, pat_sum, pattern_new. cbn [p0 p1 p2 p3 p4 p5 p6]. lia. Qed.

Lemma pat_weaken n n' p : pat_ok n p -> n <= n' -> pat_ok n' p.
Proof. unfold pat_ok. lia. Qed.

Lemma pattern_inc_ok n p : pat_ok n p -> n + 1 <= u32_max -> exists p', pattern_inc p = Ok p' /\ pat_ok (n + 1) p'.
Proof.
  unfold pat_ok, pat_sum. intros H L. unfold pattern_inc. rewrite chk_u32_ok by lia. cbn [bind].
  eexists. split; [reflexivity|]. cbn [p0 p1 p2 p3 p4 p5 p6]. lia.
Qed.

Lemma slide_ok n p : pat_ok n p -> n <= u32_max -> exists p', slide p = Ok p' /\ pat_ok (n + 1) p'.
Proof.
  unfold pat_ok, pat_sum. intros H L. unfold slide. destruct (flt _ _ && _).
  - rewrite chk_u32_ok by lia. cbn [bind]. eexists. split; [reflexivity|]. cbn [p0 p1 p2 p3 p4 p5 p6]. lia.
  - eexists. split; [reflexivity|]. cbn [p0 p1 p2 p3 p4 p5 p6]. lia.
Qed.

Lemma total_size_ok n p : pat_ok n p -> n <= u32_max -> total_size p = Ok (pat_total p) /\ 0 <= pat_total p <= n.
Proof.
  unfold pat_ok, pat_sum, pat_total. intros H L. unfold total_size.
  rewrite chk_u32_ok by lia. cbn [bind]. rewrite chk_u32_ok by lia. cbn [bind].
  rewrite chk_u32_ok by lia. cbn [bind]. rewrite chk_u32_ok by lia. split; [f_equal; lia|lia].
Qed.

(** *** the finder test, in integers *)
Lemma fin_3_2 : fin (lit 3 2) (3 / 2).
Proof.
  unfold lit. replace (3 / 2)%R with (rnd (IZR 3 / IZR 2)).
  - apply fin_fdiv; try (apply fin_of_Z; lia); [lra|]. apply small_big with 1; [lia|].
    change (bpow radix2 1) with 2%R. rabs; lra.
  - replace (IZR 3 / IZR 2)%R with (IZR 3 * bpow radix2 (-1))%R by (simpl; lra). rewrite rnd_dyadic by lia. simpl. lra.
Qed.

Lemma apx_of_Z n : Z.abs n <= 2 ^ 53 -> apx (of_Z n) (IZR n) 0.
Proof. intros H. now apply fin_apx, fin_of_Z. Qed.

Definition p2_32 : R := IZR (2 ^ 32).
Lemma IZR_32 n : 0 <= n <= u32_max -> (0 <= IZR n <= 4294967296)%R.
Proof. intros H. unfold u32_max in H. split; apply IZR_le; lia. Qed.

Ltac pows := change (bpow radix2 (30 - 53)) with (/ IZR 8388608)%R in *;
  change (bpow radix2 (31 - 53)) with (/ IZR 4194304)%R in *;
  change (bpow radix2 (32 - 53)) with (/ IZR 2097152)%R in *;
  change (bpow radix2 (33 - 53)) with (/ IZR 1048576)%R in *;
  change (bpow radix2 (34 - 53)) with (/ IZR 524288)%R in *;
  change (bpow radix2 30) with 1073741824%R in *; change (bpow radix2 31) with 2147483648%R in *;
  change (bpow radix2 32) with 4294967296%R in *; change (bpow radix2 33) with 8589934592%R in *;
  change (bpow radix2 34) with 17179869184%R in *.

Lemma module_apx T : 0 <= T <= u32_max -> apx (fdiv (of_Z T) (of_Z 7)) (IZR T / 7) (/ 8388608).
Proof.
  intros H. pose proof (IZR_32 T H).
  apply apx_weaken with (0 / Rabs 7 + bpow radix2 (30 - 53))%R.
  - apply (apx_fdiv 30 _ _ (IZR T) 7 0); [lia|apply apx_of_Z; unfold u32_max in H; lia|apply fin_of_Z; lia|lra|].
    rewrite (Rabs_pos_eq 7) by lra. rewrite Rabs_pos_eq by lra. pows. lra.
  - rewrite (Rabs_pos_eq 7) by lra. pows. lra.
Qed.

Lemma variance_apx T : 0 <= T <= u32_max ->
  apx (fdiv (fdiv (of_Z T) (of_Z 7)) (lit 3 2)) (2 * IZR T / 21) (/ 4194304).
Proof.
  intros H. pose proof (IZR_32 T H).
  apply apx_eq with (IZR T / 7 / (3 / 2))%R; [|lra].
  apply apx_weaken with (/ 8388608 / Rabs (3 / 2) + bpow radix2 (30 - 53))%R.
  - apply apx_fdiv; [lia|now apply module_apx|apply fin_3_2|lra|].
    rewrite (Rabs_pos_eq (3 / 2)) by lra. rewrite Rabs_pos_eq by lra. pows. lra.
  - rewrite (Rabs_pos_eq (3 / 2)) by lra. pows. lra.
Qed.

Lemma off_exact k T r : (k = 1 \/ k = 3 /\ T <> 3 * r) -> 0 <= T <= u32_max -> 0 <= r <= u32_max ->
  off (if k =? 1 then fdiv (of_Z T) (of_Z 7) else fmul (fdiv (of_Z T) (of_Z 7)) (of_Z 3)) r
      (fdiv (fdiv (of_Z T) (of_Z 7)) (lit 3 2))
  = negb (3 * Z.abs (k * T - 7 * r) <=? 2 * T).
Proof.
  intros Hk HT Hr. pose proof (IZR_32 T HT) as RT. pose proof (IZR_32 r Hr) as RR. unfold off.
  destruct (Z.eq_dec (3 * Z.abs (k * T - 7 * r)) (2 * T)) as [E|NE].
  - (* a tie: everything is an integer *)
    assert (exists t, T = 21 * t) as (t & ->).
    { assert (exists u, T = 3 * u) as (u & ->) by (exists (T - Z.abs (k * T - 7 * r)); lia).
      assert (exists v, u = 7 * v) as (v & ->).
      { destruct Hk as [-> | [-> NT]].
        - destruct (Z.abs_spec (1 * (3 * u) - 7 * r)) as [[_ X]|[_ X]]; rewrite X in E.
          + exists r. lia.
          + exists (3 * r - 2 * u). lia.
        - destruct (Z.abs_spec (3 * (3 * u) - 7 * r)) as [[_ X]|[_ X]]; rewrite X in E.
          + lia.
          + exists (2 * r - 3 * u). lia. }
      exists v. lia. }
    assert (F1 : fin (fdiv (of_Z (21 * t)) (of_Z 7)) (IZR (3 * t))).
    { rewrite <- (rnd_int (3 * t)) by (unfold u32_max in *; lia).
      replace (IZR (3 * t)) with (IZR (21 * t) / IZR 7)%R by (rewrite !mult_IZR; field).
      apply fin_fdiv; [apply fin_of_Z; unfold u32_max in *; lia|apply fin_of_Z; lia|lra|].
      apply small_big with 32; [lia|]. pows. rewrite Rabs_pos_eq by lra. lra. }
    assert (F2 : fin (fdiv (fdiv (of_Z (21 * t)) (of_Z 7)) (lit 3 2)) (IZR (2 * t))).
    { rewrite <- (rnd_int (2 * t)) by (unfold u32_max in *; lia).
      replace (IZR (2 * t)) with (IZR (3 * t) / (3 / 2))%R by (rewrite !mult_IZR; field).
      apply fin_fdiv; [exact F1|apply fin_3_2|lra|].
      apply small_big with 32; [lia|]. pows. rewrite mult_IZR in *. rewrite Rabs_pos_eq by lra. lra. }
    assert (F3 : fin (if k =? 1 then fdiv (of_Z (21 * t)) (of_Z 7) else fmul (fdiv (of_Z (21 * t)) (of_Z 7)) (of_Z 3)) (IZR (k * (3 * t)))).
    { destruct Hk as [-> | [-> NT]]; [rewrite Z.mul_1_l; exact F1|]. cbn [Z.eqb Pos.eqb].
      rewrite <- (rnd_int (3 * (3 * t))) by (unfold u32_max in *; lia).
      replace (IZR (3 * (3 * t))) with (IZR (3 * t) * IZR 3)%R by (rewrite !mult_IZR; ring). apply fin_fmul; [exact F1|apply fin_of_Z; lia|].
      apply small_big with 33; [lia|]. pows. rewrite !mult_IZR in *. rewrite Rabs_pos_eq by lra. lra. }
    assert (F4 : fin (fabs (fsub (if k =? 1 then fdiv (of_Z (21 * t)) (of_Z 7) else fmul (fdiv (of_Z (21 * t)) (of_Z 7)) (of_Z 3)) (of_Z r)))
                     (IZR (2 * t))).
    { replace (IZR (2 * t)) with (Rabs (rnd (IZR (k * (3 * t)) - IZR r))).
      - apply fin_fabs, fin_fsub; [exact F3|apply fin_of_Z; unfold u32_max in *; lia|].
        apply small_big with 34; [lia|]. rewrite <- minus_IZR, <- abs_IZR. pows. apply IZR_le. unfold u32_max in *. lia.
      - rewrite <- minus_IZR. rewrite rnd_int by (unfold u32_max in *; lia). rewrite <- abs_IZR. f_equal. lia. }
    rewrite (fgt_R _ _ _ _ F4 F2). rewrite Rlt_bool_false by lra.
    destruct (Z.leb_spec (3 * Z.abs (k * (21 * t) - 7 * r)) (2 * (21 * t))); [reflexivity|lia].
  - assert (M : apx (if k =? 1 then fdiv (of_Z T) (of_Z 7) else fmul (fdiv (of_Z T) (of_Z 7)) (of_Z 3)) (IZR k * IZR T / 7) (/ 1048576)).
    { pose proof (module_apx T HT) as M. destruct Hk as [-> | [-> NT]]; cbn [Z.eqb Pos.eqb].
      - apply apx_eq with (IZR T / 7)%R; [|lra]. eapply apx_weaken; [exact M|lra].
      - apply apx_eq with (IZR T / 7 * IZR 3)%R; [|lra].
        eapply apx_weaken; [apply (apx_fmul 32 _ _ _ _ _ _ ltac:(lia) M (apx_of_Z 3 ltac:(lia)))|].
        + rewrite !Rabs_pos_eq by lra. pows. lra.
        + rewrite !Rabs_pos_eq by lra. pows. lra. }
    assert (KT : (1 <= IZR k <= 3)%R) by (destruct Hk as [-> | [-> NT]]; lra).
    assert (KM : (0 <= IZR k * IZR T / 7 <= 2147483648)%R) by nra.
    pose proof (apx_fabs _ _ _ (apx_fsub 33 _ _ _ _ _ _ ltac:(lia) M (apx_of_Z r ltac:(unfold u32_max in *; lia)) ltac:(pows; rabs; lra))) as A.
    pows. pose proof (variance_apx T HT) as V.
    assert (X : (IZR (3 * Z.abs (k * T - 7 * r)) = 21 * Rabs (IZR k * IZR T / 7 - IZR r))%R).
    { rewrite mult_IZR, abs_IZR, minus_IZR, !mult_IZR.
      replace (IZR k * IZR T - IZR 7 * IZR r)%R with (7 * (IZR k * IZR T / 7 - IZR r))%R by field.
      rewrite Rabs_mult, (Rabs_pos_eq 7) by lra. lra. }
    assert (Y : (IZR (2 * T) = 21 * (2 * IZR T / 21))%R) by (rewrite mult_IZR; field).
    destruct (Z.leb_spec (3 * Z.abs (k * T - 7 * r)) (2 * T)) as [L|L]; cbn [negb].
    + assert (L' : (IZR (3 * Z.abs (k * T - 7 * r)) + 1 <= IZR (2 * T))%R) by (rewrite <- plus_IZR; apply IZR_le; lia).
      eapply apx_fgt_false; [exact A|exact V|]. lra.
    + assert (L' : (IZR (2 * T) + 1 <= IZR (3 * Z.abs (k * T - 7 * r)))%R) by (rewrite <- plus_IZR; apply IZR_le; lia).
      eapply apx_fgt_true; [exact A|exact V|]. lra.
Qed.

(** the test agrees with [finder_runs], except that the result is left open when the
    middle run is exactly a third of the total: that case is decided by rounding errors *)
Theorem looks_like_finder_exact n p : pat_ok n p -> n <= u32_max ->
  exists b, looks_like_finder p = Ok b /\
    (b = true -> finder_runs (p2 p) (p3 p) (p4 p) (p5 p) (p6 p)) /\
    (finder_runs (p2 p) (p3 p) (p4 p) (p5 p) (p6 p) -> pat_total p <> 3 * p4 p -> b = true).
Proof.
  intros H L. destruct (total_size_ok n p H L) as [E B]. unfold looks_like_finder. rewrite E. cbn [bind].
  unfold finder_runs, stands_for. fold (pat_total p). cbv zeta. unfold pat_ok, pat_sum in H.
  destruct (Z.ltb_spec (pat_total p) 7) as [S|S].
  { exists false. split; [reflexivity|]. split; [discriminate|lia]. }
  eexists. split; [reflexivity|].
  set (T := pat_total p) in *.
  pose proof (fun r => off_exact 1 T r (or_introl eq_refl) ltac:(lia)) as O1. cbn [Z.eqb Pos.eqb] in O1.
  rewrite !O1 by lia. destruct (Z.eq_dec T (3 * p4 p)) as [TIE|NT].
  - rewrite negb_true_iff, !orb_false_iff, !negb_false_iff, !Z.leb_le. split; [|contradiction].
    intros ((((H2 & H3) & _) & H5) & H6). repeat split; auto. lia.
  - pose proof (fun r N => off_exact 3 T r (or_intror (conj eq_refl N)) ltac:(lia)) as O3. cbn [Z.eqb Pos.eqb] in O3.
    rewrite O3 by (auto; lia). rewrite negb_true_iff, !orb_false_iff, !negb_false_iff, !Z.leb_le. tauto.
Qed.

(** *** module sizes *)
Definition est_of (T : Z) : f64 := fdiv (of_Z T) (of_Z 7).

Lemma est_ok n p : pat_ok n p -> n <= u32_max -> est_mod_size p = Ok (est_of (pat_total p)).
Proof. intros H L. unfold est_mod_size. now rewrite (proj1 (total_size_ok n p H L)). Qed.

(** a module size: at least one pixel *)
Definition size_ok (m : f64) : Prop := exists v, fin m v /\ (1 <= v <= 1073741824)%R.

Lemma rnd_between a b x : Z.abs a <= 2 ^ 53 -> Z.abs b <= 2 ^ 53 -> (IZR a <= x <= IZR b)%R -> (IZR a <= rnd x <= IZR b)%R.
Proof.
  intros Ha Hb [H1 H2]. rewrite <- (rnd_int a Ha) at 1. rewrite <- (rnd_int b Hb). split; now apply rnd_le.
Qed.

Lemma est_fin T : 0 <= T <= u32_max -> fin (est_of T) (rnd (IZR T / 7)).
Proof.
  intros H. pose proof (IZR_32 T H). apply fin_fdiv; [apply fin_of_Z; unfold u32_max in H; lia|apply fin_of_Z; lia|lra|].
  apply small_big with 30; [lia|]. pows. rewrite Rabs_pos_eq; lra.
Qed.

Lemma est_size T : 7 <= T <= u32_max -> size_ok (est_of T).
Proof.
  intros H. exists (rnd (IZR T / 7)). split; [apply est_fin; lia|]. pose proof (IZR_32 T ltac:(lia)).
  assert (7 <= IZR T)%R by (apply IZR_le; lia). apply (rnd_between 1 1073741824); [lia|lia|lra].
Qed.

Lemma avg_size m e : size_ok m -> size_ok e -> size_ok (fdiv (fadd m e) (of_Z 2)).
Proof.
  intros (v & F & V) (w & G & W).
  assert (S : (2 <= rnd (v + w) <= 2147483648)%R) by (apply (rnd_between 2 2147483648); [lia|lia|lra]).
  exists (rnd (rnd (v + w) / 2)). split.
  - apply fin_fdiv; [apply fin_fadd; auto|apply fin_of_Z; lia|lra|]; apply small_big with 32; try lia; pows; rewrite Rabs_pos_eq; lra.
  - apply (rnd_between 1 1073741824); [lia|lia|lra].
Qed.

Lemma fin_7_2 : fin (lit 7 2) (7 / 2).
Proof.
  unfold lit. replace (7 / 2)%R with (rnd (IZR 7 / IZR 2)).
  - apply fin_fdiv; try (apply fin_of_Z; lia); [lra|]. apply small_big with 30; [lia|]. pows. rewrite Rabs_pos_eq; lra.
  - replace (IZR 7 / IZR 2)%R with (IZR 7 * bpow radix2 (-1))%R by (simpl; lra). rewrite rnd_dyadic by lia. simpl. lra.
Qed.

(** half a finder pattern: between 3 pixels and T/2, almost *)
Lemma half_finder T : 7 <= T <= u32_max -> exists h, fin (fmul (lit 7 2) (est_of T)) h /\ fin (fmul (est_of T) (lit 7 2)) h /\
  (3 <= h <= IZR T / 2 + /2)%R.
Proof.
  intros H. pose proof (IZR_32 T ltac:(lia)) as RT. assert (R7 : (7 <= IZR T)%R) by (apply IZR_le; lia).
  pose proof (est_fin T ltac:(lia)) as F.
  pose proof (rnd_err (IZR T / 7) 30 ltac:(lia) ltac:(pows; rewrite Rabs_pos_eq; lra)) as E1. pows.
  set (e := rnd (IZR T / 7)) in *.
  assert (E : (1 <= e <= IZR T / 7 + / 8388608)%R).
  { split; [|rabs; lra]. apply (rnd_between 1 1073741824); [lia|lia|lra]. }
  exists (rnd (7 / 2 * e)). split; [|split].
  - apply fin_fmul; [apply fin_7_2|exact F|]. apply small_big with 33; [lia|]. pows. rewrite Rabs_pos_eq; lra.
  - rewrite Rmult_comm. apply fin_fmul; [exact F|apply fin_7_2|]. apply small_big with 33; [lia|]. pows. rewrite Rabs_pos_eq; lra.
  - pose proof (rnd_err (7 / 2 * e) 33 ltac:(lia) ltac:(pows; rewrite Rabs_pos_eq; lra)) as E2. pows.
    split; [|rabs; lra]. apply (rnd_between 3 8589934592); [lia|lia|lra].
Qed.

(** *** refinement *)
Definition in_image (g : gray) (c : Z * Z) : Prop := 0 <= fst c < gw g /\ 0 <= snd c < gh g.

(** what a refinement along [path] reports: a pixel of the path behind [T] pixels *)
Definition found_at (path : list (Z * Z)) (module_size : f64) (f : finder_pos) : Prop :=
  exists x y i T, fp_location f = Pt (of_Z x) (of_Z y) /\ 7 <= T <= Z.of_nat i /\
    (nth_error path i = Some (x, y) \/ i = length path /\ nth_error path (i - 1) = Some (x, y)) /\
    fp_last f = est_of T /\ fp_module_size f = fdiv (fadd module_size (est_of T)) (of_Z 2).

Lemma confirm_ok n p ms x y diag : pat_ok n p -> n <= u32_max ->
  exists o, confirm ms p x y diag = Ok o /\
    forall f, o = Some f -> exists T, fp_location f = Pt (of_Z x) (of_Z y) /\ 7 <= T <= n /\
      fp_last f = est_of T /\ fp_module_size f = fdiv (fadd ms (est_of T)) (of_Z 2).
Proof.
  intros H L. unfold confirm. destruct (looks_like_finder_exact n p H L) as (b & -> & B & _). cbn [bind].
  destruct b; [|eexists; split; [reflexivity|discriminate]].
  rewrite (est_ok n p H L). cbn [bind]. destruct (_ || _); [|eexists; split; [reflexivity|discriminate]].
  eexists. split; [reflexivity|]. intros f [= <-]. exists (pat_total p). cbn [fp_location fp_last fp_module_size].
  destruct (B eq_refl) as [B7 _]. fold (pat_total p) in B7. destruct (total_size_ok n p H L). repeat split; lia || auto.
Qed.

Lemma refine_loop_ok g ms diag whole : wf_gray g -> Forall (in_image g) whole -> Z.of_nat (length whole) <= u32_max ->
  forall path pre last p lx ly, pre ++ path = whole -> pat_ok (Z.of_nat (length pre)) p ->
  (pre <> [] -> nth_error pre (length pre - 1) = Some (lx, ly)) ->
  exists o, refine_loop g ms diag path last p lx ly = Ok o /\ forall f, o = Some f -> found_at whole ms f.
Proof.
  intros HW HF HL. induction path as [|[x y] path IH]; intros pre last p lx ly E HP HN; cbn [refine_loop].
  - rewrite app_nil_r in E. subst pre.
    destruct (confirm_ok _ p ms lx ly diag HP HL) as (o & -> & C). exists o. split; [reflexivity|].
    intros f Hf. destruct (C f Hf) as (T & C1 & C2 & C3 & C4). exists lx, ly, (length whole), T.
    repeat split; auto; try lia. right. split; [reflexivity|]. apply HN. intros ->. cbn [length] in C2. lia.
  - assert (LEN : length whole = (length pre + S (length path))%nat) by (rewrite <- E, app_length; reflexivity).
    assert (HI : in_image g (x, y)).
    { rewrite Forall_forall in HF. apply HF. rewrite <- E. apply in_or_app. right. now left. }
    unfold in_image in HI. cbn [fst snd] in HI. rewrite get_pixel_pix by (auto; lia). cbn [bind].
    assert (NEXT : forall p', pat_ok (Z.of_nat (length pre) + 1) p' -> forall last',
      exists o, refine_loop g ms diag path last' p' x y = Ok o /\ forall f, o = Some f -> found_at whole ms f).
    { intros p' HP' last'. apply (IH (pre ++ [(x, y)])).
      - rewrite <- app_assoc. exact E.
      - rewrite app_length. cbn [length]. rewrite Nat2Z.inj_add. exact HP'.
      - intros _. rewrite app_length. cbn [length]. replace (length pre + 1 - 1)%nat with (length pre) by lia.
        rewrite nth_error_app2 by lia. now rewrite Nat.sub_diag. }
    destruct (N.eqb _ last).
    + destruct (pattern_inc_ok _ p HP ltac:(lia)) as (p' & -> & HP'). cbn [bind]. now apply NEXT.
    + destruct (confirm_ok _ p ms x y diag HP ltac:(lia)) as (o & -> & C). cbn [bind]. destruct o as [f|].
      * eexists. split; [reflexivity|]. intros f' Hf. destruct (C f' Hf) as (T & C1 & C2 & C3 & C4).
        exists x, y, (length pre), T. repeat split; auto; try lia. left. rewrite <- E. rewrite nth_error_app2 by lia.
        now rewrite Nat.sub_diag.
      * destruct (slide_ok _ p HP ltac:(lia)) as (p' & -> & HP'). cbn [bind]. now apply NEXT.
Qed.

Lemma refine_ok g ms diag path : wf_gray g -> Forall (in_image g) path -> Z.of_nat (length path) <= u32_max ->
  exists o, refine g ms path diag = Ok o /\ forall f, o = Some f -> found_at path ms f.
Proof.
  intros HW HF HL. apply (refine_loop_ok g ms diag path HW HF HL path []); [reflexivity|apply pat_new; cbn; lia|congruence].
Qed.

Lemma round_u32_range x : 0 <= round_u32 x <= u32_max.
Proof.
  unfold round_u32. generalize (fround x). intros y. unfold to_u32, u32_max.
  destruct y as [s|[]| |[] m e]; try lia.
  destruct (Z.leb 0 e); [|assert (0 <= Z.shiftr (Zpos m) (- e)) by (apply Z.shiftr_nonneg; lia); lia].
  assert (0 <= Z.shiftl (Zpos m) e) by (apply Z.shiftl_nonneg; lia). lia.
Qed.

Lemma nth_error_zrange a b i x : nth_error (zrange a b) i = Some x -> x = a + Z.of_nat i /\ a <= x < b.
Proof.
  intros H. assert (L : (i < length (zrange a b))%nat) by (apply nth_error_Some; congruence).
  rewrite zrange_length in L. apply nth_error_nth with (d := 0) in H. rewrite nth_zrange in H by lia. lia.
Qed.

(** the position and the length along a straight line of pixels *)
Lemma line_found (h : Z -> Z * Z) a b ms f : 0 <= a -> b <= u32_max -> found_at (map h (zrange a b)) ms f ->
  exists z T, fp_location f = Pt (of_Z (fst (h z))) (of_Z (snd (h z))) /\ a <= z < b /\ 7 <= T <= z + 1 /\ T <= u32_max /\
    fp_last f = est_of T /\ fp_module_size f = fdiv (fadd ms (est_of T)) (of_Z 2).
Proof.
  intros Ha Hb (x & y & i & T & E1 & HT & P & E2 & E3).
  assert (K : forall j, nth_error (map h (zrange a b)) j = Some (x, y) -> exists z, h z = (x, y) /\ z = a + Z.of_nat j /\ a <= z < b).
  { intros j Hj. rewrite nth_error_map in Hj. destruct (nth_error (zrange a b) j) as [z|] eqn:EZ; [|discriminate].
    injection Hj as Hj. apply nth_error_zrange in EZ. exists z. tauto. }
  assert (exists z, h z = (x, y) /\ Z.of_nat i <= z + 1 /\ a <= z < b) as (z & Hz & Hi & Hr).
  { destruct P as [P|[-> P]].
    - destruct (K i P) as (z & Hz & -> & Hr). exists (a + Z.of_nat i). repeat split; auto; lia.
    - destruct (K _ P) as (z & Hz & -> & Hr). eexists. split; [exact Hz|]. lia. }
  exists z, T. rewrite Hz. cbn [fst snd]. repeat split; auto; lia.
Qed.

(** a coordinate at most [x] rounds to a pixel at most [x] *)
Lemma round_below x v n : fin x v -> (v <= IZR n)%R -> 0 <= n -> 0 <= round_u32 x <= n.
Proof.
  intros F H Hn. rewrite (round_u32_R x v F). apply away_le in H. rewrite away_int in H. unfold u32_max. lia.
Qed.

Lemma fin_sub_int x n h : fin h x -> (0 <= x <= 4294967296)%R -> 0 <= n <= u32_max -> fin (fsub (of_Z n) h) (rnd (IZR n - x)).
Proof.
  intros F H Hn. pose proof (IZR_32 n Hn). apply fin_fsub; [apply fin_of_Z; unfold u32_max in Hn; lia|exact F|].
  apply small_big with 33; [lia|]. pows. rabs; lra.
Qed.

Lemma fin_1_mul h x : fin h x -> (0 <= x <= 4294967296)%R -> fin (fmul (of_Z 1) h) x.
Proof.
  intros F H. replace x with (rnd (IZR 1 * x)).
  - apply fin_fmul; [apply fin_of_Z; lia|exact F|]. apply small_big with 33; [lia|]. pows. rabs; lra.
  - rewrite Rmult_1_l. exact (rnd_fin h x F).
Qed.

Lemma fin_0_sub n h x : fin h x -> 0 <= n <= u32_max -> fin (fsub (of_Z n) (fmul (of_Z 0) h)) (IZR n).
Proof.
  intros F Hn. pose proof (IZR_32 n Hn).
  assert (F0 : fin (fmul (of_Z 0) h) 0).
  { replace 0%R with (rnd (IZR 0 * x)) by (rewrite Rmult_0_l; apply rnd_0).
    apply fin_fmul; [apply fin_of_Z; lia|exact F|]. rewrite Rmult_0_l, Rabs_R0. apply bpow_ge_0. }
  replace (IZR n) with (rnd (IZR n - 0)).
  - now apply fin_sub_int; [|lra|].
  - rewrite Rminus_0_r. apply rnd_int. unfold u32_max in Hn. lia.
Qed.

(** where a centre lies: an integer coordinate and one that is half a finder before a pixel *)
Lemma centre_ok T z n : 7 <= T <= z + 1 -> T <= u32_max -> z < n -> n <= u32_max ->
  exists v, fin (fsub (of_Z z) (fmul (of_Z 1) (fmul (lit 7 2) (est_of T)))) v /\ (0 <= v <= IZR z - 3)%R.
Proof.
  intros H1 H2 H3 H4. destruct (half_finder T ltac:(lia)) as (h & F & _ & Hh).
  pose proof (IZR_32 T ltac:(lia)). pose proof (IZR_32 z ltac:(lia)).
  assert (IZR T <= IZR z + 1)%R by (rewrite <- plus_IZR; apply IZR_le; lia).
  assert (7 <= IZR T)%R by (apply IZR_le; lia).
  exists (rnd (IZR z - h)). split.
  - apply fin_sub_int; [apply fin_1_mul; [exact F|lra]|lra|lia].
  - assert (E : (IZR (z - 3) = IZR z - 3)%R) by apply minus_IZR. rewrite <- E.
    apply (rnd_between 0 (z - 3)); [lia|unfold u32_max in *; lia|]. rewrite E. lra.
Qed.

(** a candidate: a centre inside the image and a module size *)
Definition cand_at (g : gray) (loc : point) (ms : f64) : Prop :=
  size_ok ms /\ exists vx vy, fin (px loc) vx /\ fin (py loc) vy /\ (0 <= vx <= IZR (gw g - 1))%R /\ (0 <= vy <= IZR (gh g - 1))%R.

Lemma refine_all_ok g finder ms x y : wf_gray g -> 0 <= x < gw g -> 0 <= y < gh g -> size_ok ms ->
  (exists vx, fin (px finder) vx /\ (vx <= IZR x)%R) -> 
  exists o, refine_all g finder ms = Ok o /\ forall loc ms', o = Some (loc, ms') -> cand_at g loc ms'.
Proof.
  intros HW Hx Hy HS (vx & FX & LX). pose proof HW as (W1 & W2 & _).
  pose proof (round_below _ _ x FX LX ltac:(lia)) as RX.
  unfold refine_all.
  (* vertical *)
  destruct (refine_ok g ms false (map (fun y => (round_u32 (px finder), y))
     (zrange (round_u32 (fmax0 (fsub (py finder) (fmul (of_Z 5) ms)))) (Z.min (round_u32 (fadd (py finder) (fmul (of_Z 5) ms))) (gh g))))) as (ov & EV & V).
  { exact HW. }
  { apply Forall_forall. intros c Hc. apply in_map_iff in Hc. destruct Hc as (z & <- & Hz). apply in_zrange in Hz.
    unfold in_image. cbn [fst snd]. pose proof (round_u32_range (fmax0 (fsub (py finder) (fmul (of_Z 5) ms)))). lia. }
  { rewrite map_length, zrange_length. pose proof (round_u32_range (fmax0 (fsub (py finder) (fmul (of_Z 5) ms)))). lia. }
  unfold refine_vertical. rewrite EV. cbn [bind]. destruct ov as [v|]; [|eexists; split; [reflexivity|discriminate]].
  specialize (V _ eq_refl). apply line_found in V; [|apply round_u32_range|lia]. destruct V as (z & T & L1 & Hz & HT & HTM & L2 & L3). cbn [fst snd] in L1.
  pose proof (round_u32_range (fmax0 (fsub (py finder) (fmul (of_Z 5) ms)))) as R0.
  unfold adjust. rewrite L1, L2, L3. cbn [px py].
  destruct (centre_ok T z (gh g) HT HTM ltac:(lia) ltac:(lia)) as (vy & FY & LY).
  destruct (half_finder T ltac:(lia)) as (h & FH & _ & _).
  pose proof (fin_0_sub (round_u32 (px finder)) _ h FH ltac:(lia)) as FX'.
  set (py' := fsub (of_Z z) _) in *. set (px' := fsub (of_Z (round_u32 _)) _) in *.
  set (ms1 := fdiv (fadd ms (est_of T)) (of_Z 2)).
  assert (S1 : size_ok ms1) by (apply avg_size; [exact HS|apply est_size; lia]).
  pose proof (round_below _ _ z FY ltac:(lra) ltac:(lia)) as RY. clear EV.
  (* horizontal *)
  destruct (refine_ok g ms1 false (map (fun x => (x, round_u32 (py (Pt px' py'))))
     (zrange (round_u32 (fmax0 (fsub (px (Pt px' py')) (fmul (of_Z 5) ms1)))) (Z.min (round_u32 (fadd (px (Pt px' py')) (fmul (of_Z 5) ms1))) (gw g))))) as (oh & EH & V).
  { exact HW. }
  { apply Forall_forall. intros c Hc. apply in_map_iff in Hc. destruct Hc as (z' & <- & Hz'). apply in_zrange in Hz'.
    unfold in_image. cbn [fst snd px py] in *. pose proof (round_u32_range (fmax0 (fsub px' (fmul (of_Z 5) ms1)))). lia. }
  { rewrite map_length, zrange_length. cbn [px py]. pose proof (round_u32_range (fmax0 (fsub px' (fmul (of_Z 5) ms1)))). lia. }
  unfold refine_horizontal. rewrite EH. cbn [bind]. destruct oh as [v'|]; [|eexists; split; [reflexivity|discriminate]].
  specialize (V _ eq_refl). apply line_found in V; [|apply round_u32_range|lia]. destruct V as (z' & T' & L1' & Hz' & HT' & HTM' & L2' & L3'). cbn [fst snd] in L1'.
  cbn [px py] in L1', Hz'. pose proof (round_u32_range (fmax0 (fsub px' (fmul (of_Z 5) ms1)))) as R0'.
  rewrite L1', L2', L3'. cbn [px py].
  destruct (centre_ok T' z' (gw g) HT' HTM' ltac:(lia) ltac:(lia)) as (vx2 & FX2 & LX2).
  destruct (half_finder T' ltac:(lia)) as (h' & FH' & _ & _).
  pose proof (fin_0_sub (round_u32 py') _ h' FH' ltac:(lia)) as FY2.
  set (px2 := fsub (of_Z z') _) in *. set (py2 := fsub (of_Z (round_u32 py')) _) in *.
  set (ms2 := fdiv (fadd ms1 (est_of T')) (of_Z 2)).
  assert (S2 : size_ok ms2) by (apply avg_size; [exact S1|apply est_size; lia]). clear EH.
  (* diagonal *)
  unfold refine_diagonal. destruct (diagonal_start _ _) as [sx sy]. cbn [px py].
  match goal with |- context [refine g ms2 ?pa true] => destruct (refine_ok g ms2 true pa) as (od & ED & _) end.
  { exact HW. }
  { apply Forall_forall. intros [cx cy] Hc. pose proof (in_combine_l _ _ _ _ Hc) as H1. pose proof (in_combine_r _ _ _ _ Hc) as H2.
    apply in_zrange in H1, H2. unfold in_image. cbn [fst snd].
    pose proof (round_u32_range sx). pose proof (round_u32_range sy). lia. }
  { rewrite combine_length, !zrange_length. pose proof (round_u32_range sx). pose proof (round_u32_range sy). lia. }
  rewrite ED. cbn [bind]. destruct od; [|eexists; split; [reflexivity|discriminate]].
  eexists. split; [reflexivity|]. intros loc ms' [= <- <-]. split; [exact S2|].
  exists vx2, (IZR (round_u32 py')). cbn [px py]. repeat split; auto; try lra.
  - rewrite minus_IZR. apply Rle_trans with (IZR z' - 3)%R; [lra|]. assert (IZR z' <= IZR (gw g))%R by (apply IZR_le; lia). lra.
  - apply IZR_le. lia.
  - apply IZR_le. lia.
Qed.

(** *** the scan *)
Definition cands_ok (g : gray) (cs : list finder_pos) : Prop :=
  Forall (fun c => cand_at g (fp_location c) (fp_module_size c)) cs.

Lemma scan_found_ok g cs n p x y : wf_gray g -> cands_ok g cs -> pat_ok n p -> n <= u32_max -> 0 <= x < gw g -> 0 <= y < gh g ->
  7 <= pat_total p ->
  exists cs', scan_found g cs p x y = Ok cs' /\ cands_ok g cs'.
Proof.
  intros HW HC HP HN Hx Hy H7. pose proof HW as (W1 & W2 & _). unfold scan_found. rewrite (est_ok n p HP HN). cbn [bind].
  destruct (total_size_ok n p HP HN) as [_ HT].
  destruct (half_finder (pat_total p) ltac:(lia)) as (h & _ & FH & Hh).
  pose proof (IZR_32 (pat_total p) ltac:(lia)).
  destruct (existsb _ cs); [eexists; split; [reflexivity|exact HC]|].
  destruct (refine_all_ok g (Pt (fsub (of_Z x) (fmul (est_of (pat_total p)) (lit 7 2))) (of_Z y)) (est_of (pat_total p)) x y HW Hx Hy)
    as (o & -> & C).
  { apply est_size. lia. }
  { cbn [px]. eexists. split; [apply fin_sub_int; [exact FH|lra|lia]|].
    rewrite <- (rnd_int x) at 2 by (unfold u32_max in *; lia). apply rnd_le. lra. }
  cbn [bind]. destruct o as [[loc ms]|]; [|eexists; split; [reflexivity|exact HC]].
  eexists. split; [reflexivity|]. apply Forall_app. split; [exact HC|]. constructor; [|constructor].
  cbn [fp_location fp_module_size]. now apply C.
Qed.

(** the state before pixel [x] of a row *)
Definition scan_ok (g : gray) (x : Z) (s : scan_state) : Prop :=
  cands_ok g (sc_candidates s) /\ (0 < x < gw g -> pat_ok x (sc_pattern s)).

Lemma scan_pixel_ok g s x y v : wf_gray g -> 0 <= x < gw g -> 0 <= y < gh g -> scan_ok g x s ->
  exists s', scan_pixel g s (x, y, v) = Ok s' /\ scan_ok g (x + 1) s'.
Proof.
  intros HW Hx Hy [HC HP]. pose proof HW as (W1 & W2 & _). unfold scan_pixel.
  assert (exists last p, (if x =? 0 then (127%N, pattern_new) else (sc_last s, sc_pattern s)) = (last, p) /\ pat_ok x p) as (last & p & -> & HP').
  { destruct (Z.eqb_spec x 0) as [-> | N]; [exists 127%N, pattern_new|exists (sc_last s), (sc_pattern s)]; split; auto.
    - apply pat_new. lia.
    - apply HP. lia. }
  assert (KEY : forall p, pat_ok (x + 1) p -> (x + 1 < gw g -> pat_ok x p) ->
    exists s', (l <- looks_like_finder p ;;
      candidates <- (if (l : bool) then scan_found g (sc_candidates s) p x y else Ok (sc_candidates s)) ;;
      p <- slide p ;; Ok (Scan candidates v p)) = Ok s' /\ scan_ok g (x + 1) s').
  { intros q H1 H2. destruct (looks_like_finder_exact (x + 1) q H1 ltac:(lia)) as (b & -> & B & _). cbn [bind].
    assert (exists cs', (if b then scan_found g (sc_candidates s) q x y else Ok (sc_candidates s)) = Ok cs' /\ cands_ok g cs') as (cs' & -> & C).
    { destruct b; [|eauto]. apply (scan_found_ok g _ (x + 1)); auto; [lia|]. exact (proj1 (B eq_refl)). }
    cbn [bind]. destruct (slide_ok (x + 1) q H1 ltac:(lia)) as (q' & Eq & Q'). rewrite Eq. cbn [bind].
    eexists. split; [reflexivity|]. split; [exact C|]. cbn [sc_pattern]. intros Hn.
    destruct (slide_ok x q (H2 ltac:(lia)) ltac:(lia)) as (q2 & Eq2 & Q2). congruence. }
  destruct (N.eqb v last).
  - destruct (pattern_inc_ok x p HP' ltac:(lia)) as (p' & -> & HP2). cbn [bind].
    rewrite sub_Z_ok by lia. cbn [bind]. destruct (Z.eqb_spec x (gw g - 1)) as [E|N]; cbn [andb negb].
    + apply KEY; [exact HP2|lia].
    + eexists. split; [reflexivity|]. split; [exact HC|]. auto.
  - cbn [bind andb]. apply KEY; auto. now apply pat_weaken with x; [|lia].
Qed.

Lemma scan_row_ok g y n : wf_gray g -> 0 <= y < gh g -> forall a s, 0 <= a -> a + Z.of_nat n = gw g -> scan_ok g a s ->
  exists s', foldM (fun s x => scan_pixel g s (x, y, pix g x y)) (zrange a (gw g)) s = Ok s' /\ scan_ok g (gw g) s'.
Proof.
  intros HW Hy. induction n as [|n IH]; intros a s Ha Hn HS.
  - rewrite zrange_nil by lia. cbn [foldM]. exists s. split; [reflexivity|]. now replace (gw g) with a by lia.
  - rewrite zrange_cons by lia. cbn [foldM]. destruct (scan_pixel_ok g s a y (pix g a y) HW ltac:(lia) Hy HS) as (s1 & -> & H1).
    cbn [bind]. apply IH; auto; lia.
Qed.

Theorem find_candidates_ok g : wf_gray g -> exists cs, find_candidates g = Ok cs /\ cands_ok g cs.
Proof.
  intros HW. pose proof HW as (W1 & W2 & _). unfold find_candidates. rewrite enumerate_pix by exact HW.
  rewrite foldM_map. unfold coords. rewrite <- foldM_flat_map.
  assert (exists s', foldM (fun s y => foldM (fun s xy => scan_pixel g s (let '(x, y) := xy in (x, y, pix g x y)))
      (map (fun x => (x, y)) (zrange 0 (gw g))) s) (zrange 0 (gh g)) (Scan [] 127%N pattern_new) = Ok s' /\ scan_ok g 0 s') as (s & E & S & _).
  { apply foldM_ok with (I := scan_ok g 0).
    - split; [constructor|lia].
    - intros y s Hy HS. apply in_zrange in Hy. rewrite foldM_map.
      destruct (scan_row_ok g y (Z.to_nat (gw g)) HW Hy 0 s ltac:(lia) ltac:(lia) HS) as (s' & -> & H1 & H2).
      exists s'. split; [reflexivity|]. split; [exact H1|lia]. }
  cbv beta in E |- *. rewrite E. cbn [bind]. eauto.
Qed.
