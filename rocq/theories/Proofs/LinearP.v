(** What the solver of correct.rs computes: its quotients with a zero dividend are
    wrong, so it solves a system exactly as long as no such quotient is met. *)
From Coq Require Import Lia Ring Field Arith Bool List.
From Verif.Proofs Require Import GaloisP PolyP SolveP.
Import ListNotations.
Local Open Scope nat_scope.

Lemma dv_self a : dv a a = g1.
Proof.
  destruct (gf_eq_dec a g0) as [->|H]; [apply dv_0_0|]. rewrite dv_ok by auto. field. exact H.
Qed.

(** *** The shape after k pivots *)
Definition lower (r k : nat) (M : mat) : Prop :=
  forall a b, b < k -> a < r -> (b < a -> M a b = g0) /\ (b = a -> M a b = g1).

Lemma lower_step r k M : lower r k M -> lower r (S k) (step k M).
Proof.
  intros H a b Hb Ha. unfold step.
  destruct (Nat.leb_spec k b) as [Hkb|Hkb].
  - assert (b = k) by lia. subst b. split; intros Hab.
    + destruct (Nat.eqb_spec a k); [lia|]. destruct (Nat.ltb_spec k a); [|lia].
      rewrite dv_self. ring.
    + subst a. rewrite Nat.eqb_refl. apply dv_self.
  - apply H; auto.
Qed.

Lemma lower_steps r k M : lower r k (steps k M).
Proof.
  induction k as [|k IH]; [intros a b Hb; lia|]. cbn [steps]. now apply lower_step.
Qed.

(** *** Residuals *)
Definition residual (M : mat) (r : nat) (x : nat -> gf) (a : nat) : gf :=
  (gsum r (fun j => M a j * x j) + M a r)%G.

Definition solves (M : mat) (r : nat) (x : nat -> gf) : Prop :=
  forall a, a < r -> residual M r x a = g0.

Lemma residual_ext M M' r x a : (forall b, b <= r -> M a b = M' a b) -> residual M r x a = residual M' r x a.
Proof.
  intros H. unfold residual. rewrite (H r) by lia. f_equal. apply gsum_ext. intros j Hj. now rewrite H by lia.
Qed.

Lemma row_ok_residual M r x i : lower r r M -> i < r -> (row_ok M r x i <-> residual M r x i = g0).
Proof.
  intros HL Hi. unfold row_ok, residual.
  assert (E : gsum r (fun j => M i j * x j)%G
              = (x i + gsum (r - (i + 1)) (fun t => M i (i + 1 + t)%nat * x (i + 1 + t)%nat))%G).
  { replace r with (i + (1 + (r - (i + 1)))) at 1 by lia. rewrite gsum_split.
    rewrite gsum_0.
    - rewrite gsum_split. simpl gsum at 1. rewrite Nat.add_0_r.
      destruct (HL i i Hi Hi) as [_ H1]. rewrite H1 by auto.
      rewrite (gsum_ext _ (fun i0 => M i (i + (1 + i0))%nat * x (i + (1 + i0))%nat)%G
                          (fun t => M i (i + 1 + t)%nat * x (i + 1 + t)%nat)%G).
      + ring.
      + intros t Ht. now rewrite Nat.add_assoc.
    - intros j Hj. destruct (HL i j ltac:(lia) Hi) as [H0 _]. rewrite H0 by auto. ring. }
  rewrite E. split; intros H.
  - rewrite H. ring.
  - apply gadd_0_eq. rewrite <- H. ring.
Qed.

(** residuals of the other rows, whatever the pivot row *)
Lemma residual_step_above M r k x a : a < k -> residual (step k M) r x a = residual M r x a.
Proof.
  intros Ha. apply residual_ext. intros b _. unfold step.
  destruct (Nat.leb_spec k b); [|reflexivity].
  destruct (Nat.eqb_spec a k); [lia|]. destruct (Nat.ltb_spec k a); [lia|reflexivity].
Qed.

Lemma residual_step_below M r k x a : lower r k M -> k < a -> a < r ->
  residual (step k M) r x a = (residual M r x a + M a k * residual (step k M) r x k)%G.
Proof.
  intros HL Ha Hr. unfold residual.
  assert (E : forall b, b <= r -> step k M a b = (M a b + M a k * step k M k b)%G).
  { intros b Hb. unfold step. destruct (Nat.leb_spec k b) as [Hk|Hk].
    - destruct (Nat.eqb_spec a k); [lia|]. destruct (Nat.ltb_spec k a); [|lia].
      rewrite Nat.eqb_refl. reflexivity.
    - destruct (HL k b Hk ltac:(lia)) as [H0 _]. rewrite H0 by lia. ring. }
  rewrite (E r) by lia.
  rewrite (gsum_ext r _ (fun j => M a j * x j + M a k * (step k M k j * x j))%G).
  - rewrite gsum_add, gsum_mul. ring.
  - intros j Hj. rewrite E by lia. ring.
Qed.

(** the pivot row, when its quotients are right *)
Definition exact_row (M : mat) (r k : nat) : Prop :=
  M k k <> g0 /\ forall b, k <= b <= r -> dv (M k b) (M k k) = (M k b / M k k)%G.

Lemma residual_step_pivot M r k x : lower r k M -> k < r -> exact_row M r k ->
  residual (step k M) r x k = (residual M r x k / M k k)%G.
Proof.
  intros HL Hk [Hp HE]. unfold residual.
  assert (E : forall b, b <= r -> step k M k b = (M k b / M k k)%G).
  { intros b Hb. unfold step. rewrite Nat.eqb_refl. destruct (Nat.leb_spec k b) as [Hkb|Hkb].
    - apply HE. lia.
    - destruct (HL k b Hkb Hk) as [H0 _]. rewrite H0 by lia. field. exact Hp. }
  rewrite (E r) by lia.
  rewrite (gsum_ext r _ (fun j => (g1 / M k k) * (M k j * x j))%G).
  - rewrite gsum_mul. field. exact Hp.
  - intros j Hj. rewrite E by lia. field. exact Hp.
Qed.

Lemma step_solves M r k x : lower r k M -> k < r -> exact_row M r k ->
  (solves (step k M) r x <-> solves M r x).
Proof.
  intros HL Hk HE. pose proof (residual_step_pivot M r k x HL Hk HE) as EP. destruct HE as [Hp _].
  split; intros H a Ha.
  - assert (HK : residual M r x k = g0).
    { rewrite (H k Hk) in EP. symmetry in EP. unfold gdiv in EP. apply gmul_0 in EP. destruct EP as [EP|EP]; auto.
      exfalso. assert (E1 : (M k k * ginv (M k k))%G = g1) by (field; exact Hp).
      rewrite EP in E1. assert (E2 : (M k k * g0)%G = g0) by ring. rewrite E2 in E1. discriminate. }
    destruct (lt_eq_lt_dec a k) as [[Hl| ->]|Hl].
    + rewrite <- (residual_step_above M r k x a Hl). auto.
    + exact HK.
    + pose proof (residual_step_below M r k x a HL Hl Ha) as EB. rewrite (H a Ha), (H k Hk) in EB.
      symmetry in EB. rewrite <- EB. ring.
  - rewrite (H k Hk) in EP. assert (EP' : residual (step k M) r x k = g0) by (rewrite EP; field; exact Hp).
    destruct (lt_eq_lt_dec a k) as [[Hl| ->]|Hl].
    + rewrite residual_step_above by auto. auto.
    + exact EP'.
    + rewrite residual_step_below by auto. rewrite EP', H by auto. ring.
Qed.

Definition exact_steps (M : mat) (r v : nat) : Prop :=
  forall k, k < v -> exact_row (steps k M) r k.

Lemma steps_solves M r v x : v <= r -> exact_steps M r v -> (solves (steps v M) r x <-> solves M r x).
Proof.
  induction v as [|v IH]; intros Hv HE; [reflexivity|].
  cbn [steps]. rewrite step_solves.
  - apply IH; [lia|]. intros k Hk. apply HE. lia.
  - apply lower_steps.
  - lia.
  - apply HE. lia.
Qed.

(** *** A system whose rank is used up after v exact pivots *)
Lemma steps_zero M r v : (forall a b, v <= a < r -> b <= r -> steps v M a b = g0) ->
  forall k a b, v + k <= r -> a < r -> b <= r ->
    steps (v + k) M a b =
    (if (v <=? a) then (if (a <? v + k) && (a <=? b) then g1 else g0) else steps v M a b).
Proof.
  intros HZ k. induction k as [|k IH]; intros a b Hk Ha Hb.
  - rewrite Nat.add_0_r. destruct (Nat.leb_spec v a); [|reflexivity].
    destruct (Nat.ltb_spec a v); [lia|]. cbn [andb]. apply HZ; lia.
  - rewrite Nat.add_succ_r. cbn [steps]. unfold step.
    destruct (Nat.leb_spec (v + k) b) as [Hkb|Hkb].
    + destruct (Nat.eqb_spec a (v + k)) as [->|Hn].
      * rewrite !IH by lia. destruct (Nat.leb_spec v (v + k)); [|lia].
        destruct (Nat.ltb_spec (v + k) (v + k)); [lia|]. cbn [andb]. rewrite dv_0_0.
        destruct (Nat.ltb_spec (v + k) (S (v + k))); [|lia]. destruct (Nat.leb_spec (v + k) b); [reflexivity|lia].
      * destruct (Nat.ltb_spec (v + k) a) as [Hl|Hl].
        -- rewrite !IH by lia. destruct (Nat.leb_spec v a); [|lia].
           destruct (Nat.ltb_spec a (v + k)); [lia|]. destruct (Nat.ltb_spec a (S (v + k))); [lia|]. cbn [andb]. ring.
        -- rewrite IH by lia. destruct (Nat.leb_spec v a); [|reflexivity].
           destruct (Nat.ltb_spec a (v + k)), (Nat.ltb_spec a (S (v + k))); try lia. reflexivity.
    + rewrite IH by lia. destruct (Nat.leb_spec v a); [|reflexivity].
      destruct (Nat.ltb_spec a (v + k)), (Nat.ltb_spec a (S (v + k))); cbn [andb]; try lia; try reflexivity.
      destruct (Nat.leb_spec a b); [lia|reflexivity].
Qed.

Lemma solve_exact M r v x : v <= r -> exact_steps M r v ->
  (forall a b, v <= a < r -> b <= r -> steps v M a b = g0) ->
  (forall i, i < r -> row_ok (steps r M) r x i) ->
  solves M r x /\ (v < r -> x (r - 1) = g1 /\ forall i, v <= i < r - 1 -> x i = g0).
Proof.
  intros Hv HE HZ HO.
  assert (HU : forall a b, a < r -> b <= r -> steps r M a b =
    (if (v <=? a) then (if a <=? b then g1 else g0) else steps v M a b)).
  { intros a b Ha Hb. replace r with (v + (r - v)) at 1 by lia.
    rewrite (steps_zero M r v HZ) by lia. destruct (Nat.leb_spec v a); [|reflexivity].
    destruct (Nat.ltb_spec a (v + (r - v))); [reflexivity|lia]. }
  assert (HS : solves (steps r M) r x).
  { intros a Ha. apply row_ok_residual; auto. apply lower_steps. }
  split.
  - apply (steps_solves M r v x Hv HE). intros a Ha.
    destruct (le_lt_dec v a) as [Hva|Hva].
    + unfold residual. rewrite HZ by lia. rewrite gsum_0; [ring|]. intros j Hj. rewrite HZ by lia. ring.
    + rewrite <- (HS a Ha). apply residual_ext. intros b Hb. rewrite HU by lia.
      destruct (Nat.leb_spec v a); [lia|reflexivity].
  - intros Hvr.
    assert (HL : x (r - 1) = g1).
    { rewrite (HO (r - 1)) by lia. rewrite HU by lia. destruct (Nat.leb_spec v (r - 1)); [|lia].
      destruct (Nat.leb_spec (r - 1) r); [|lia]. replace (r - (r - 1 + 1)) with 0 by lia. simpl. ring. }
    split; [exact HL|].
    assert (HI : forall d i, d = r - 1 - i -> v <= i < r - 1 -> x i = g0).
    { induction d as [d IH] using lt_wf_ind. intros i Hd Hi.
      rewrite (HO i) by lia. rewrite HU by lia. destruct (Nat.leb_spec v i); [|lia].
      destruct (Nat.leb_spec i r); [|lia].
      replace (r - (i + 1)) with ((r - i - 2) + 1) by lia. rewrite gsum_split. rewrite gsum_0.
      - simpl. replace (i + 1 + (r - i - 2 + 0)) with (r - 1) by lia.
        rewrite HU by lia. destruct (Nat.leb_spec v i); [|lia]. destruct (Nat.leb_spec i (r - 1)); [|lia].
        rewrite HL. ring.
      - intros t Ht. rewrite (IH (r - 1 - (i + 1 + t))); [ring|lia|reflexivity|lia]. }
    intros i Hi. eapply HI; eauto.
Qed.
