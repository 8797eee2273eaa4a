(** When the error correction of correct.rs restores a damaged code word. *)
From Coq Require Import Lia Ring Field Arith Bool List NArith.
From Verif.Model Require Import Correct.
From Verif.Spec Require Import GF256 RS.
From Verif.Proofs Require Import BaseP GaloisP PolyP SolveP LinearP NewtonP HankelP CorrectP.
Import ListNotations.
Local Open Scope nat_scope.

Lemma at_loc_none locs : forall xs l, ~ In l locs -> at_loc (combine locs xs) l = g0.
Proof.
  induction locs as [|k locs IH]; intros [|x xs] l HN; cbn [combine at_loc]; auto.
  destruct (Nat.eqb_spec k l) as [->|]; [exfalso; apply HN; now left|].
  rewrite IH; [ring|]. intros HI. apply HN. now right.
Qed.
Lemma at_loc_nth locs : forall xs j, NoDup locs -> length xs = length locs -> j < length locs ->
  at_loc (combine locs xs) (nth j locs 0) = nth j xs g0.
Proof.
  induction locs as [|k locs IH]; intros [|x xs] j HN HL Hj; cbn [length] in *; try lia.
  inversion HN; subst. cbn [combine at_loc]. destruct j as [|j]; cbn [nth].
  - rewrite Nat.eqb_refl, at_loc_none by auto. ring.
  - destruct (Nat.eqb_spec k (nth j locs 0)) as [E|E].
    + exfalso. subst k. match goal with H : ~ In _ _ |- _ => apply H end. apply nth_In. lia.
    + rewrite IH by (auto; lia). ring.
Qed.

(** the locator polynomial the solver ends up with for v errors *)
Definition shape (v z : nat) (P : gf -> gf) : Prop :=
  exists Q, low v Q /\ forall x, P x = (gpow x z + (if v <? z then gpow x (z - 1) else g0) + Q x)%G.

Lemma shape_unique v z P P' rs : shape v z P -> shape v z P' -> NoDup rs -> length rs = v ->
  (forall r, In r rs -> P r = g0) -> (forall r, In r rs -> P' r = g0) -> forall x, P x = P' x.
Proof.
  intros (Q & (q & HQ & EQ) & HP) (Q' & (q' & HQ' & EQ') & HP') HN HL HR HR' x.
  assert (HZ : Forall (eq g0) (padd q q')).
  { apply (roots_bound rs); auto.
    - rewrite padd_length. lia.
    - intros r Hr. rewrite padd_eval. pose proof (HR r Hr) as E1. pose proof (HR' r Hr) as E2.
      rewrite HP, EQ in E1. rewrite HP', EQ' in E2.
      set (t := (gpow r z + (if v <? z then gpow r (z - 1) else g0))%G) in *.
      replace (peval q r + peval q' r)%G with ((t + peval q r) + (t + peval q' r))%G by ring.
      rewrite E1, E2. ring. }
  rewrite HP, HP', EQ, EQ'. f_equal. apply gadd_0_eq. rewrite <- padd_eval. now apply peval_zero.
Qed.

Lemma sigma_shape v z s : v <= z -> (v < z -> s (z - 1) = g1 /\ forall i, v <= i < z - 1 -> s i = g0) ->
  shape v z (sigma z s).
Proof.
  intros Hv H. exists (fun x => gsum v (fun j => s j * gpow x j)%G). split.
  - exists (map s (seq 0 v)). split; [now rewrite map_length, seq_length|].
    intros x. rewrite peval_gsum, map_length, seq_length. apply gsum_ext. intros i Hi. f_equal.
    rewrite (nth_indep _ g0 (s 0)) by (now rewrite map_length, seq_length). now rewrite map_nth, seq_nth.
  - intros x. unfold sigma. destruct (Nat.ltb_spec v z) as [Hvz|Hvz].
    + destruct (H Hvz) as [H1 H0].
      replace z with (v + ((z - 1 - v) + 1)) at 1 by lia. rewrite !gsum_split.
      rewrite (gsum_0 (z - 1 - v)) by (intros i Hi; rewrite H0 by lia; ring).
      cbn [gsum]. replace (v + (z - 1 - v + 0)) with (z - 1) by lia. rewrite H1. ring.
    + assert (v = z) by lia. subst v. ring.
Qed.

Lemma loc_list_ext t P Q : (forall x, P x = Q x) -> loc_list t P = loc_list t Q.
Proof.
  intros H. unfold loc_list. apply filter_ext. intros i. unfold is_root. now rewrite H.
Qed.

Lemma damage_nonempty c b : length c = length b -> c <> b -> length (damage c b) <> 0.
Proof.
  intros HL HN E. rewrite <- distance_damage in E by auto. apply HN. clear HN.
  revert b HL E. induction c as [|x c IH]; intros [|y b] HL E; cbn [length] in HL; try discriminate; auto.
  cbn [map distance] in E. destruct (N.eqb_spec (gv x) (gv y)) as [E1|E1]; [|discriminate].
  apply gv_inj in E1. subst. f_equal. apply IH; auto; lia.
Qed.

Lemma list_eq_nth_rev (a b : list gf) t : length a = t -> length b = t ->
  (forall i, i < t -> nth (t - 1 - i) a g0 = nth (t - 1 - i) b g0) -> a = b.
Proof.
  intros Ha Hb H. apply (nth_ext a b g0 g0); [congruence|]. intros i Hi.
  specialize (H (t - 1 - i) ltac:(lia)). now replace (t - 1 - (t - 1 - i)) with i in H by lia.
Qed.

Lemma restore_iff bi c b P : table_like bi -> length c = total_per bi -> length b = total_per bi ->
  (forall i, i < 2 * ec_cap bi -> synd_at c i = g0) -> c <> b ->
  length (damage c b) <= ec_cap bi ->
  exact_steps (hmat (damage c b)) (ec_cap bi) (length (damage c b)) ->
  shape (length (damage c b)) (ec_cap bi) P ->
  (forall x e, In (x, e) (damage c b) -> P x = g0) ->
  let locs := loc_list (total_per bi) P in
  (forall k, k < length locs -> psum (damage c b) (newton (fun j => alpha (nth j locs 0)) k) <> g0) <->
  correct_with_error_count (map gv b) bi = Ok (map gv c, bit_distance (map gv b) (map gv c)).
Proof.
  intros HT HLc HLb HC HNE HV HEX HSH HR locs.
  pose proof HT as (Hz & Hz2 & Ht).
  set (l := damage c b) in *. set (z := ec_cap bi) in *.
  assert (HLcb : length c = length b) by congruence.
  assert (HD : length (rev (diff c b)) = total_per bi) by (rewrite rev_length, diff_length; auto).
  assert (HN : NoDup (map fst l)) by (apply err_list_nodup; lia).
  assert (HNZ : forall x e, In (x, e) l -> e <> g0).
  { intros x e HI. apply err_list_in in HI. destruct HI as (i & _ & _ & _ & HI). exact HI. }
  assert (HSY : forall i, i < 2 * z -> synd_at b i = synd l i) by (intros i Hi; now apply (damage_synd c b (2 * z))).
  pose proof (correct_run bi b HT HLb) as HRUN.
  assert (HNOZ : ~ forall i, i < 2 * z -> synd_at b i = g0).
  { intros HZ. pose proof (damage_nonempty c b HLcb HNE) as HE. fold l in HE.
    destruct l as [|[x e] l'] eqn:EL; [now apply HE|].
    apply (HNZ x e (or_introl eq_refl)). apply (vandermonde l (2 * z)) with (x := x); subst l.
    - now rewrite EL in *.
    - rewrite EL in *. lia.
    - intros j Hj. rewrite EL. specialize (HSY j Hj). unfold synd in HSY. rewrite <- HSY. auto.
    - rewrite EL. now left. }
  assert (HPOLY : forall s, (forall M, (forall i j, i < z -> j <= z -> M i j = synd_at b (i + j)) ->
       forall i, i < z -> row_ok (steps z M) z s i) ->
     (forall x e, In (x, e) l -> sigma z s x = g0) /\ forall x, sigma z s x = P x).
  { intros s HS.
    assert (HM : forall i, i < z -> row_ok (steps z (hmat l)) z s i).
    { apply HS. intros i j Hi Hj. unfold hmat. symmetry. apply HSY. lia. }
    destruct (hankel_solution l z HN HNZ HV s HEX HM) as [HR1 HR2].
    split; auto. apply (shape_unique (length l) z _ _ (map fst l)); auto.
    - now apply sigma_shape.
    - now rewrite map_length.
    - intros r Hr. apply in_map_iff in Hr. destruct Hr as ([y e] & <- & Hr). eauto.
    - intros r Hr. apply in_map_iff in Hr. destruct Hr as ([y e] & <- & Hr). eauto. }
  assert (HIN : forall x e, In (x, e) l -> exists j, j < length locs /\ alpha (nth j locs 0) = x).
  { intros x e HI. pose proof (HR x e HI) as HRx. apply err_list_in in HI. destruct HI as (i & Hi & -> & -> & HE).
    assert (HIL : In i locs) by (apply loc_list_in; split; [congruence|auto]).
    apply (In_nth locs i 0) in HIL. destruct HIL as (j & Hj & <-). eauto. }
  destruct HRUN as [HZ|s HZ HS HL|s x locs' cc b' HZ HS HL HL0 HVV HCC HB'].
  - now apply HNOZ in HZ.
  - exfalso. destruct (HPOLY s HS) as [_ HP]. rewrite (loc_list_ext _ _ P HP) in HL. fold locs in HL.
    pose proof (damage_nonempty c b HLcb HNE) as HE. fold l in HE.
    destruct l as [|[y e] l'] eqn:EL; [now apply HE|].
    destruct (HIN y e (or_introl eq_refl)) as (j & Hj & _). rewrite HL in Hj. simpl in Hj. lia.
  - destruct (HPOLY s HS) as [_ HP]. rewrite (loc_list_ext _ _ P HP) in HL. fold locs in HL.
    subst locs'. set (n := length locs) in *. set (xs := fun j => alpha (nth j locs 0)).
    assert (HLn : n <= z).
    { unfold n, locs. rewrite <- (loc_list_ext _ _ P HP). apply loc_list_length; auto. apply sigma_monic. }
    assert (HX : forall i j, i < n -> j < n -> xs i = xs j -> i = j).
    { intros i j Hi Hj E. unfold xs in E.
      assert (HB : forall k, k < n -> nth k locs 0 < 255).
      { intros k Hk. pose proof (nth_In locs 0 Hk) as HI. apply loc_list_in in HI. lia. }
      apply alpha_inj in E; auto. apply (NoDup_nth locs 0); auto. apply loc_list_nodup. }
    assert (HO : forall i, i < n -> row_ok (steps n (vmat xs n l)) n x i).
    { apply HVV.
      - intros i j Hi Hj. unfold vmat. destruct (Nat.ltb_spec j n); [reflexivity|lia].
      - intros i Hi. unfold vmat. destruct (Nat.ltb_spec n n); [lia|].
        symmetry. apply HSY. lia. }
    pose proof (vander_solve xs n l HX x HO) as HVS. fold xs.
    (* the values are right exactly when the patched block is the code word *)
    assert (HPB : b' = c <-> forall j, j < n -> x j = psum l (fun y => if gf_eq_dec y (xs j) then g1 else g0)).
    { assert (HVAL : forall j, j < n -> psum l (fun y => if gf_eq_dec y (xs j) then g1 else g0)
                     = nth (nth j locs 0) (rev (diff c b)) g0).
      { intros j Hj. unfold l, damage. rewrite psum_err_list, HD.
        pose proof (nth_In locs 0 Hj) as HI. apply loc_list_in in HI. destruct HI as [HI _].
        set (i0 := nth j locs 0) in *.
        replace (total_per bi) with (i0 + (1 + (total_per bi - i0 - 1))) by lia. rewrite !gsum_split.
        assert (HNE' : forall i, i < total_per bi -> i <> i0 ->
                  (if gf_eq_dec (alpha i) (xs j) then g1 else g0) = g0).
        { intros i Hi Hne. unfold xs. fold i0. destruct (gf_eq_dec (alpha i) (alpha i0)) as [E|E]; auto.
          apply alpha_inj in E; lia. }
        rewrite gsum_0 by (intros i Hi; rewrite HNE' by lia; ring).
        rewrite (gsum_0 (total_per bi - i0 - 1)) by (intros i Hi; rewrite HNE' by lia; ring).
        cbn [gsum]. rewrite Nat.add_0_r. unfold xs. fold i0. destruct (gf_eq_dec (alpha i0) (alpha i0)); [|congruence]. ring. }
      assert (HDI : forall i, i < total_per bi -> nth i (rev (diff c b)) g0
                    = (nth (total_per bi - 1 - i) c g0 + nth (total_per bi - 1 - i) b g0)%G).
      { intros i Hi. rewrite rev_nth by (rewrite diff_length; lia). rewrite diff_length by auto.
        replace (length c - S i) with (total_per bi - 1 - i) by lia. apply diff_nth. auto. }
      assert (HCL : forall k d, In (k, d) cc -> k < total_per bi).
      { intros k d HI. subst cc. apply in_combine_l in HI. now apply loc_list_in in HI. }
      assert (HLX : length (map x (seq 0 n)) = length locs) by (now rewrite map_length, seq_length).
      split.
      - intros E j Hj. rewrite HVAL by auto.
        pose proof (nth_In locs 0 Hj) as HI. apply loc_list_in in HI. destruct HI as [HI _].
        rewrite HDI by auto. rewrite <- E, HB', (patch_nth (total_per bi) cc b) by auto.
        rewrite HCC. rewrite at_loc_nth by (auto; apply loc_list_nodup).
        rewrite (nth_indep (map x (seq 0 n)) g0 (x 0)) by (now rewrite HLX). rewrite map_nth, seq_nth by auto. cbn [plus]. ring.
      - intros E. apply (list_eq_nth_rev _ _ (total_per bi)); auto.
        + rewrite HB', patch_length. auto.
        + intros i Hi. rewrite HB', (patch_nth (total_per bi) cc b) by auto.
          destruct (in_dec Nat.eq_dec i locs) as [HI|HI].
          * apply (In_nth locs i 0) in HI. destruct HI as (j & Hj & Ej). subst i.
            rewrite HCC. rewrite at_loc_nth by (auto; apply loc_list_nodup).
            rewrite (nth_indep (map x (seq 0 n)) g0 (x 0)) by (now rewrite HLX). rewrite map_nth, seq_nth by auto. cbn [plus].
            rewrite E, HVAL, HDI by auto. ring.
          * rewrite HCC, at_loc_none by auto.
            assert (E0 : nth i (rev (diff c b)) g0 = g0).
            { destruct (gf_eq_dec (nth i (rev (diff c b)) g0) g0) as [|HE]; auto. exfalso.
              destruct (HIN (alpha i) (nth i (rev (diff c b)) g0)) as (j & Hj & Ej).
              - apply err_list_in. exists i. split; [lia|auto].
              - apply HI. apply alpha_inj in Ej; [rewrite <- Ej; now apply nth_In| |lia].
                pose proof (nth_In locs 0 Hj) as HI'. apply loc_list_in in HI'. lia. }
            rewrite HDI in E0 by auto. apply gadd_0_eq in E0. rewrite E0. ring. }
    assert (HEQ : b' = c <-> forall k, k < n -> psum l (newton xs k) <> g0).
    { rewrite <- HVS, HPB. split; intros H.
      - apply vander_true_solves; auto.
      - intros j Hj. now apply (vander_unique xs n l HX x HN HIN H). }
    assert (HCNT : weight cc = bit_distance (map gv b) (map gv b')).
    { rewrite HB', (patch_bits (total_per bi) cc b b); auto.
      - rewrite bit_distance_self. lia.
      - rewrite HCC, combine_fst by (now rewrite map_length, seq_length). apply loc_list_nodup.
      - intros k d HI. split; auto. rewrite HCC in HI. apply in_combine_l in HI. now apply loc_list_in in HI. }
    rewrite <- HEQ. split.
    + intros E. rewrite E in *. destruct (gf_eq_dec (synd_at c 0) g0) as [_|E0].
      * now rewrite HCNT.
      * exfalso. apply E0. apply HC. lia.
    + intros E. destruct (gf_eq_dec (synd_at b' 0) g0); [|discriminate].
      apply (f_equal (fun r => match r with Ok (u, _) => u | _ => [] end)) in E. cbv beta iota in E.
      clear - E. revert c E. induction b' as [|u b' IH]; intros [|w c] E; cbn [map] in E; try discriminate; auto.
      injection E as E1 E2. apply gv_inj in E1. subst. f_equal. auto.
Qed.

(** *** The check at the end of the correction *)
Fixpoint lsum (l : list gf) : gf := match l with [] => g0 | a :: l => (a + lsum l)%G end.
Lemma lsum_app a b : lsum (a ++ b) = (lsum a + lsum b)%G.
Proof. induction a as [|x a IH]; cbn [app lsum]; [ring|]. rewrite IH. ring. Qed.
Lemma lsum_rev a : lsum (rev a) = lsum a.
Proof. induction a as [|x a IH]; auto. cbn [rev lsum]. rewrite lsum_app, IH. cbn [lsum]. ring. Qed.
Lemma peval_g1 l : peval l g1 = lsum l.
Proof. induction l as [|a l IH]; auto. cbn [peval lsum]. rewrite IH. ring. Qed.
Lemma synd_0 b : synd_at b 0 = lsum b.
Proof. unfold synd_at. now rewrite alpha_0, peval_g1, lsum_rev. Qed.
Lemma lsum_update b : forall i d, i < length b -> lsum (update b i (nth i b g0 + d)%G) = (lsum b + d)%G.
Proof.
  induction b as [|x b IH]; intros [|i] d Hi; cbn [length] in Hi; try lia; cbn [update nth lsum].
  - ring.
  - rewrite IH by lia. ring.
Qed.
Lemma lsum_patch t c : forall b, length b = t -> (forall l d, In (l, d) c -> l < t) ->
  lsum (patch t b c) = (lsum b + lsum (map snd c))%G.
Proof.
  induction c as [|[l d] c IH]; intros b HB HI; cbn [patch map snd lsum]; [ring|].
  rewrite IH; [|now rewrite update_length|intros; eapply HI; right; eauto].
  rewrite lsum_update; [ring|]. specialize (HI l d (or_introl eq_refl)). lia.
Qed.
Lemma combine_snd {A B} (l : list A) (m : list B) : length l = length m -> map snd (combine l m) = m.
Proof. revert m. induction l as [|a l IH]; intros [|b m] H; cbn in *; try discriminate; auto. f_equal. auto. Qed.
Lemma lsum_gsum x n : lsum (map x (seq 0 n)) = gsum n x.
Proof. induction n as [|n IH]; auto. rewrite seq_S, map_app, lsum_app, IH. cbn [map lsum gsum plus]. ring. Qed.

Lemma g1_neq_g0 : g1 <> g0.
Proof. discriminate. Qed.

(** the values found always add up to the first syndrome, unless that is zero *)
Lemma first_row b x locs : locs <> [] ->
  (forall V, (forall i j, i < length locs -> j < length locs -> V i j = gpow (alpha (nth j locs 0)) i) ->
       (forall i, i < length locs -> V i (length locs) = synd_at b i) ->
       forall i, i < length locs -> row_ok (steps (length locs) V) (length locs) x i) ->
  gsum (length locs) x = dv (synd_at b 0) g1.
Proof.
  intros HL HV. set (n := length locs) in *.
  assert (Hn : 0 < n) by (unfold n; destruct locs; [congruence|simpl; lia]).
  set (V := fun i j => if j =? n then synd_at b i else gpow (alpha (nth j locs 0)) i).
  assert (HO : row_ok (steps n V) n x 0).
  { apply HV; auto.
    - intros i j Hi Hj. unfold V. destruct (Nat.eqb_spec j n); [lia|reflexivity].
    - intros i Hi. unfold V. now rewrite Nat.eqb_refl. }
  assert (HR0 : forall b', b' <= n -> steps n V 0 b' = dv (V 0 b') g1).
  { intros b' Hb'. rewrite (steps_stable V 0 b' n 1) by lia. cbn [steps]. unfold step. cbn [Nat.leb Nat.eqb].
    f_equal. unfold V. destruct (Nat.eqb_spec 0 n); [lia|reflexivity]. }
  unfold row_ok in HO. rewrite HR0 in HO by lia. unfold V at 1 in HO. rewrite Nat.eqb_refl in HO.
  rewrite (gsum_ext _ _ (fun t => x (0 + 1 + t)%nat)) in HO.
  - replace n with (S (n - 1)) by lia. rewrite gsum_first, HO.
    replace (n - (0 + 1)) with (n - 1) by lia. cbn [plus]. ring.
  - intros t Ht. rewrite HR0 by lia. unfold V. destruct (Nat.eqb_spec (0 + 1 + t) n); [lia|].
    cbn [gpow]. rewrite dv_self. ring.
Qed.

(** a block whose syndromes are not all zero is accepted exactly when locations are found
    and its first syndrome is not zero *)
Lemma run_decides bi b r : length b = total_per bi -> run bi b r ->
  (exists i, i < 2 * ec_cap bi /\ synd_at b i <> g0) ->
  match r with
  | Ok _ => synd_at b 0 <> g0
  | Err e => e = EDistances \/ (e = ENotFixed /\ synd_at b 0 = g0)
  | Panic _ => False
  end.
Proof.
  intros HB HR (i & Hi & HZ). destruct HR as [HZ'|s _ HS HL|s x locs c b2 _ HS HL HL0 HV HC HB2].
  - now rewrite HZ' in HZ by auto.
  - auto.
  - pose proof (first_row b x locs HL0 HV) as HF.
    assert (E : synd_at b2 0 = (synd_at b 0 + dv (synd_at b 0) g1)%G).
    { rewrite !synd_0. rewrite HB2, lsum_patch; auto.
      - rewrite HC, combine_snd by (now rewrite map_length, seq_length). rewrite lsum_gsum, HF, synd_0. reflexivity.
      - intros l d HI. subst c locs. apply in_combine_l in HI. now apply loc_list_in in HI. }
    destruct (gf_eq_dec (synd_at b 0) g0) as [E0|E0].
    + rewrite E0, dv_0_l in E by apply g1_neq_g0.
      destruct (gf_eq_dec (synd_at b2 0) g0) as [E2|E2]; [|auto].
      exfalso. rewrite E2 in E. apply g1_neq_g0. rewrite E at 1.
      transitivity (g1 / g1)%G; field; apply g1_neq_g0.
    + rewrite dv_ok in E by (auto using g1_neq_g0).
      assert (E2 : synd_at b2 0 = g0) by (rewrite E; field; apply g1_neq_g0).
      destruct (gf_eq_dec (synd_at b2 0) g0); [auto|congruence].
Qed.
