(** From the specification of damage on bytes to the field. *)
From Coq Require Import Lia Ring Field Arith Bool List NArith.
From Verif.Model Require Import Correct.
From Verif.Spec Require Import GF256 RS.
From Verif.Proofs Require Import BaseP GaloisP PolyP SolveP LinearP NewtonP HankelP CorrectP RestoreP.
Import ListNotations.
Local Open Scope nat_scope.

(** *** Exact elimination from orthogonal polynomials *)
Definition orth (l : errs) (z k : nat) (Q : gf -> gf) : Prop :=
  monic k Q /\ (forall b, b < k -> psum l (fun x => Q x * gpow x b)%G = g0) /\
  (forall b, k <= b <= z -> psum l (fun x => Q x * gpow x b)%G <> g0).

Lemma orth_span l z Q k : k <= z -> (forall i, i < k -> orth l z i (Q i)) ->
  forall D, low k D -> (forall b, b < k -> psum l (fun x => D x * gpow x b)%G = g0) -> forall x, D x = g0.
Proof.
  induction k as [|k IH]; intros Hk HQ D (p & HL & HD) HB x.
  - destruct p; [|simpl in HL; lia]. rewrite HD. reflexivity.
  - destruct (HQ k ltac:(lia)) as ((q & HLq & Hq) & HO & HNZ).
    set (d := nth k p g0).
    set (D' := fun x => (D x + d * Q k x)%G).
    assert (HDx : forall x, D x = (peval (firstn k p) x + d * gpow x k)%G).
    { intros y. rewrite HD. unfold d. clear - HL. rewrite (peval_gsum (firstn k p)), peval_gsum.
      destruct (le_lt_dec (length p) k) as [Hle|Hgt].
      - rewrite firstn_all2 by auto. rewrite nth_overflow by auto. ring.
      - assert (length p = S k) by lia. rewrite firstn_length, H. replace (Nat.min k (S k)) with k by lia.
        cbn [gsum]. f_equal. apply gsum_ext. intros i Hi. f_equal.
        rewrite <- (firstn_skipn k p) at 1. rewrite app_nth1; auto. rewrite firstn_length. lia. }
    assert (HD'0 : forall y, D' y = g0).
    { apply IH; [lia|intros; apply HQ; lia| |].
      - exists (padd (firstn k p) (map (gmul d) q)). split.
        + rewrite padd_length, map_length, firstn_length. lia.
        + intros y. unfold D'. rewrite padd_eval, pscale_eval, HDx, Hq. ring.
      - intros b Hb. unfold D'.
        rewrite (psum_ext l _ (fun y => D y * gpow y b + d * (Q k y * gpow y b))%G) by (intros; ring).
        rewrite psum_add, psum_mul, HB, HO by lia. ring. }
    assert (HDQ : forall y, D y = (d * Q k y)%G).
    { intros y. apply gadd_0_eq. rewrite <- (HD'0 y). reflexivity. }
    assert (Hd : d = g0).
    { specialize (HB k ltac:(lia)).
      rewrite (psum_ext l _ (fun y => d * (Q k y * gpow y k))%G) in HB by (intros; rewrite HDQ; ring).
      rewrite psum_mul in HB. apply gmul_0 in HB. destruct HB as [|HB]; auto.
      exfalso. revert HB. apply HNZ. lia. }
    rewrite HDQ, Hd. ring.
Qed.

Lemma orth_exact l z v : v <= z -> (forall k, k < v -> exists Q, orth l z k Q) -> exact_steps (hmat l) z v.
Proof.
  intros Hv HQ.
  assert (HA : forall m, m <= v -> exists Q : nat -> gf -> gf, forall k, k < m -> orth l z k (Q k)).
  { induction m as [|m IH]; intros Hm; [exists (fun _ _ => g0); intros; lia|].
    destruct IH as [Q HQ']; [lia|]. destruct (HQ m ltac:(lia)) as [q Hq].
    exists (fun k => if k =? m then q else Q k). intros k Hk. destruct (Nat.eqb_spec k m) as [->|]; auto.
    apply HQ'. lia. }
  destruct (HA v (le_n v)) as [Q HQ']. clear HA HQ.
  assert (HM : forall m, m <= v -> exact_steps (hmat l) z m).
  { induction m as [|m IH]; intros Hm; [intros k Hk; lia|].
    specialize (IH ltac:(lia)). intros k Hk. destruct (Nat.eq_dec k m) as [->|]; [|apply IH; lia].
    destruct (hall l z m ltac:(lia) IH) as (P & H1 & H2).
    destruct (HQ' m ltac:(lia)) as (HMo & HO & HNZ).
    assert (HPQ : forall x, P m x = Q m x).
    { intros x. apply gadd_0_eq. revert x.
      apply (orth_span l z Q m ltac:(lia) (fun i Hi => HQ' i ltac:(lia))).
      - destruct (H2 m ltac:(lia)) as (p & HLp & Hp). destruct HMo as (q & HLq & Hq).
        exists (padd p q). split; [rewrite padd_length; lia|]. intros x. rewrite padd_eval, Hp, Hq. ring.
      - intros b Hb.
        rewrite (psum_ext l _ (fun y => P m y * gpow y b + Q m y * gpow y b)%G) by (intros; ring).
        rewrite psum_add, HO by auto. rewrite <- H1 by lia.
        destruct (lower_steps z m (hmat l) m b Hb ltac:(lia)) as [H0 _]. rewrite H0 by auto. ring. }
    assert (HE : forall b, b <= z -> steps m (hmat l) m b = psum l (fun x => Q m x * gpow x b)%G).
    { intros b Hb. rewrite H1 by lia. apply psum_ext. intros. now rewrite HPQ. }
    split.
    - rewrite HE by lia. apply HNZ. lia.
    - intros b Hb. apply dv_ok; rewrite HE by lia; apply HNZ; lia. }
  now apply HM.
Qed.

(** *** Bytes *)
Definition bytes (l : list N) : Prop := Forall (fun a => (a < 256)%N) l.

Lemma gv_pow x k : gv (gpow x k) = fpow (gv x) k.
Proof. induction k as [|k IH]; cbn [gpow fpow]; [reflexivity|]. rewrite gv_mul, IH, fmul_gf8; auto using gv_lt. rewrite <- IH. apply gv_lt. Qed.

Lemma gv_fmul a b : gv (a * b)%G = fmul (gv a) (gv b).
Proof. rewrite gv_mul. symmetry. apply fmul_gf8; apply gv_lt. Qed.

Lemma gv_peval p x : gv (peval p x) = feval (map gv p) (gv x).
Proof.
  induction p as [|a p IH]; [reflexivity|]. cbn [peval map]. unfold feval. cbn [fold_right]. fold (feval (map gv p) (gv x)).
  rewrite <- IH, <- gv_fmul. reflexivity.
Qed.

Lemma psum_damage_cons x c y b f : length c = length b ->
  psum (damage (x :: c) (y :: b)) f = ((x + y) * f (alpha (length b)) + psum (damage c b) f)%G.
Proof.
  intros HL. unfold damage. cbn [diff rev]. rewrite !psum_err_list, app_length, rev_length, diff_length by auto.
  cbn [length]. rewrite Nat.add_1_r. cbn [gsum].
  rewrite app_nth2, rev_length, diff_length, Nat.sub_diag by (rewrite ?rev_length, ?diff_length; auto).
  cbn [nth]. rewrite HL.
  rewrite (gsum_ext _ _ (fun i => nth i (rev (diff c b)) g0 * f (alpha i))%G).
  - ring.
  - intros i Hi. rewrite app_nth1; auto. rewrite rev_length, diff_length by auto. lia.
Qed.

Lemma moment_gv c : forall b F f, length c = length b -> (forall x, gv (F x) = f (gv x)) ->
  moment (errors (map gv c) (map gv b)) f = gv (psum (damage c b) F).
Proof.
  induction c as [|x c IH]; intros [|y b] F f HL HF; cbn [length] in HL; try discriminate; [reflexivity|].
  rewrite psum_damage_cons by lia. cbn [map errors].
  destruct (N.eqb_spec (gv x) (gv y)) as [E|E].
  - apply gv_inj in E. subst y. rewrite (IH b F f) by (auto; lia). f_equal. ring.
  - cbn [moment fold_right]. fold (moment (errors (map gv c) (map gv b)) f). rewrite (IH b F f) by (auto; lia).
    rewrite map_length, fpow_alpha, <- HF. change (N.lxor (gv x) (gv y)) with (gv (x + y)%G).
    rewrite <- gv_fmul. reflexivity.
Qed.

Lemma errors_length c : forall b, length c = length b ->
  length (errors (map gv c) (map gv b)) = length (damage c b).
Proof.
  intros b HL. rewrite <- distance_damage by auto. revert b HL.
  induction c as [|x c IH]; intros [|y b] HL; cbn [length] in HL; try discriminate; [reflexivity|].
  cbn [map errors distance]. destruct (N.eqb (gv x) (gv y)); cbn [length]; rewrite IH by lia; reflexivity.
Qed.

Lemma errors_in c : forall b x e, length c = length b -> In (x, e) (damage c b) ->
  exists p, x = alpha p /\ In (p, gv e) (errors (map gv c) (map gv b)).
Proof.
  intros b x e HL HI. unfold damage in HI. apply err_list_in in HI.
  destruct HI as (i & Hi & -> & -> & HE). exists i. split; auto.
  rewrite rev_length in Hi. revert b HL i Hi HE.
  induction c as [|x c IH]; intros [|y b] HL i Hi HE; cbn [length] in HL; try discriminate; cbn [diff length] in Hi; [lia|].
  rewrite diff_length in Hi by lia. cbn [diff rev] in *. cbn [map errors].
  destruct (Nat.eq_dec i (length c)) as [->|Hn].
  - rewrite app_nth2 in * by (rewrite rev_length, diff_length; lia).
    rewrite rev_length, diff_length, Nat.sub_diag in * by lia. cbn [nth] in *.
    destruct (N.eqb_spec (gv x) (gv y)) as [E|E].
    + apply gv_inj in E. subst. now rewrite gadd_self in HE.
    + left. rewrite map_length. f_equal. lia.
  - rewrite app_nth1 in * by (rewrite rev_length, diff_length; lia).
    assert (HIN : In (i, gv (nth i (rev (diff c b)) g0)) (errors (map gv c) (map gv b))).
    { apply IH; auto. rewrite diff_length; lia. }
    destruct (N.eqb (gv x) (gv y)); [auto|now right].
Qed.

Lemma product_gv locs : forall x, (forall l, In l locs -> True) ->
  product locs (gv x) = gv (fold_right (fun l acc => (x + alpha l) * acc)%G g1 locs).
Proof.
  induction locs as [|l locs IH]; intros x H; [reflexivity|].
  unfold product. cbn [fold_right]. fold (product locs (gv x)). rewrite IH by auto.
  rewrite fpow_alpha. change (N.lxor (gv x) (gv (alpha l))) with (gv (x + alpha l)%G). now rewrite <- gv_fmul.
Qed.

Lemma newton_firstn locs x : forall k, k <= length locs ->
  newton (fun j => alpha (nth j locs 0)) k x = fold_right (fun l acc => (x + alpha l) * acc)%G g1 (firstn k locs).
Proof.
  assert (HS : forall l a, fold_right (fun l acc => (x + alpha l) * acc)%G g1 (l ++ [a])
               = (fold_right (fun l acc => (x + alpha l) * acc)%G g1 l * (x + alpha a))%G).
  { induction l as [|b l IH]; intros a; cbn [app fold_right]; [ring|]. rewrite IH. ring. }
  induction k as [|k IH]; intros Hk; [reflexivity|]. cbn [newton]. rewrite IH by lia.
  assert (E : firstn (S k) locs = firstn k locs ++ [nth k locs 0]).
  { clear - Hk. revert k Hk. induction locs as [|a locs IH]; intros k Hk; [simpl in Hk; lia|].
    destruct k as [|k]; [reflexivity|]. change (firstn (S (S k)) (a :: locs)) with (a :: firstn (S k) locs).
    rewrite IH by (simpl in Hk; lia). reflexivity. }
  rewrite E, HS. reflexivity.
Qed.

(** *** One damaged codeword *)
Lemma single_damage c b p e : length c = length b -> damage c b = [(alpha p, e)] ->
  forall f, psum (damage c b) f = (e * f (alpha p))%G.
Proof. intros HL -> f. cbn [psum]. ring. Qed.

Lemma single_exact l z X e : 0 < z -> X <> g0 -> e <> g0 -> l = [(X, e)] -> exact_steps (hmat l) z 1.
Proof.
  intros Hz HX He -> k Hk. assert (k = 0) by lia. subst k. cbn [steps].
  assert (HP : forall n, gpow X n <> g0).
  { induction n as [|n IH]; cbn [gpow]; [apply g1_neq_g0|]. intros E. apply gmul_0 in E. tauto. }
  assert (HNZ : forall i j, hmat [(X, e)] i j <> g0).
  { intros i j. unfold hmat, synd. cbn [psum]. intros E.
    assert (E' : (e * gpow X (i + j))%G = g0) by (rewrite <- E; ring).
    apply gmul_0 in E'. destruct E' as [E'|E']; [auto|]. now apply HP in E'. }
  split; auto. intros b Hb. apply dv_ok; auto.
Qed.

Lemma filter_seq_sorted f : forall n a i j d, i < j -> j < length (filter f (seq a n)) ->
  nth i (filter f (seq a n)) d < nth j (filter f (seq a n)) d.
Proof.
  induction n as [|n IH]; intros a i j d Hij Hj; cbn [seq filter] in *; [simpl in Hj; lia|].
  destruct (f a); [|now apply IH].
  destruct j as [|j]; [lia|]. cbn [length] in Hj. destruct i as [|i]; cbn [nth].
  - assert (HI : In (nth j (filter f (seq (S a) n)) d) (filter f (seq (S a) n))) by (apply nth_In; lia).
    apply filter_In in HI. destruct HI as [HI _]. apply in_seq in HI. lia.
  - apply IH; lia.
Qed.

Lemma newton_zero xs k x : newton xs k x = g0 -> exists t, t < k /\ x = xs t.
Proof.
  intros H. destruct (In_dec gf_eq_dec x (map xs (seq 0 k))) as [HI|HI].
  - apply in_map_iff in HI. destruct HI as (t & E & Ht). apply in_seq in Ht. exists t. split; [lia|auto].
  - exfalso. revert H. apply newton_nonroot. intros t Ht E. apply HI. subst. apply in_map, in_seq. lia.
Qed.

Definition bump (z : nat) (x : gf) : gf := (gpow x z + (if 1 <? z then gpow x (z - 1) else g0))%G.

Lemma single_restore bi c b p e : table_like bi -> length c = total_per bi -> length b = total_per bi ->
  (forall i, i < 2 * ec_cap bi -> synd_at c i = g0) ->
  damage c b = [(alpha p, e)] -> p < total_per bi -> e <> g0 ->
  (correct_with_error_count (map gv b) bi = Ok (map gv c, bit_distance (map gv b) (map gv c)) <->
   forall i, p < i < total_per bi -> bump (ec_cap bi) (alpha i) <> bump (ec_cap bi) (alpha p)).
Proof.
  intros HT HLc HLb HC HD Hp He.
  pose proof HT as (Hz & Hz2 & Ht).
  set (z := ec_cap bi) in *. set (P := fun x => (bump z x + bump z (alpha p))%G).
  pose proof (restore_iff bi c b P HT HLc HLb HC) as HR. fold z in HR.
  assert (HNE : c <> b).
  { intros ->. unfold damage in HD.
    assert (HI : In (alpha p, e) (err_list (rev (diff b b)))) by (rewrite HD; now left).
    apply err_list_in in HI. destruct HI as (i & Hi & _ & E & HE).
    assert (HZ : forall i, nth i (rev (diff b b)) g0 = g0).
    { clear. intros i. destruct (le_lt_dec (length (rev (diff b b))) i) as [H|H]; [now rewrite nth_overflow|].
      rewrite rev_length in H. rewrite rev_nth by auto. rewrite diff_nth by auto. apply gadd_self. }
    rewrite HZ in E. now subst. }
  specialize (HR HNE). rewrite HD in HR. cbn [length] in HR.
  rewrite <- HR.
  - set (locs := loc_list (total_per bi) P).
    assert (HPL : In p locs) by (apply loc_list_in; split; auto; unfold P; apply gadd_self).
    assert (HLT : forall l, In l locs -> l < total_per bi /\ bump z (alpha l) = bump z (alpha p)).
    { intros l HI. apply loc_list_in in HI. destruct HI as [HI E]. split; auto. now apply gadd_0_eq. }
    split.
    + intros H i Hi E.
      assert (HIL : In i locs) by (apply loc_list_in; split; [lia|unfold P; rewrite E; apply gadd_self]).
      apply (In_nth _ _ 0) in HPL. destruct HPL as (a & Ha & Ea).
      apply (In_nth _ _ 0) in HIL. destruct HIL as (j & Hj & Ej).
      assert (Haj : a < j).
      { destruct (lt_eq_lt_dec a j) as [[|E']|Hlt]; auto; [rewrite E' in Ea; lia|].
        pose proof (filter_seq_sorted (is_root P) (total_per bi) 0 j a 0 Hlt Ha) as HS.
        fold (loc_list (total_per bi) P) in HS. fold locs in HS. lia. }
      apply (H (S a)); [lia|]. cbn [psum].
      pose proof (newton_root (fun j => alpha (nth j locs 0)) (S a) a ltac:(lia)) as HNR. cbv beta in HNR.
      rewrite Ea in HNR. rewrite HNR. ring.
    + intros H k Hk E. cbn [psum] in E.
      assert (E' : (e * newton (fun j => alpha (nth j locs 0)) k (alpha p))%G = g0) by (rewrite <- E; fold locs; ring).
      apply gmul_0 in E'. destruct E' as [|E']; [auto|].
      apply newton_zero in E'. destruct E' as (t & Htk & Et).
      fold locs in Hk.
      assert (Htl : t < length locs) by lia.
      pose proof (HLT _ (nth_In locs 0 Htl)) as [HB1 _].
      apply alpha_inj in Et; [|lia|lia].
      pose proof (filter_seq_sorted (is_root P) (total_per bi) 0 t k 0 Htk Hk) as HS.
      fold (loc_list (total_per bi) P) in HS. fold locs in HS.
      pose proof (HLT _ (nth_In locs 0 Hk)) as [HB2 HB3].
      apply (H (nth k locs 0)); auto. lia.
  - lia.
  - apply (single_exact _ z (alpha p) e); auto. apply alpha_neq0.
  - exists (fun _ => bump z (alpha p)). split.
    + exists [bump z (alpha p)]. split; [simpl; lia|]. intros x. cbn [peval]. ring.
    + intros x. unfold P. f_equal.
  - intros x e' [E|[]]. injection E as <- <-. unfold P. apply gadd_self.
Qed.

(** *** The block structures of the table *)
Lemma block_table_range v l : block_table v l <> None -> (1 <= v <= 40)%Z.
Proof.
  intros H. destruct v as [|p|p]; [now exfalso; apply H| |now exfalso; apply H].
  destruct (Z_le_gt_dec (Z.pos p) 40) as [|Hgt]; [lia|]. exfalso. apply H.
  do 6 (destruct p as [p|p|]; try lia; try reflexivity).
Qed.

Definition levels : list eclevel := [LOW; MEDIUM; QUARTILE; HIGH].
Lemma block_table_all (P : block_info_t -> bool) :
  forallb (fun v => forallb (fun l => match block_table (Z.of_nat v) l with
    Some bis => forallb P bis | None => true end) levels) (seq 1 40) = true ->
  forall v l bis bi, block_table v l = Some bis -> In bi bis -> P bi = true.
Proof.
  intros H v l bis bi HT HI.
  pose proof (block_table_range v l ltac:(congruence)) as HV.
  rewrite forallb_forall in H. specialize (H (Z.to_nat v) ltac:(apply in_seq; lia)).
  rewrite forallb_forall in H. specialize (H l ltac:(destruct l; cbn; tauto)).
  rewrite Z2Nat.id, HT in H by lia. rewrite forallb_forall in H. auto.
Qed.

Lemma table_facts v l bis bi : block_table v l = Some bis -> In bi bis ->
  table_like bi /\ 2 * ec_cap bi <= total_per bi - data_per bi /\ 2 <= ec_cap bi.
Proof.
  intros HT HI.
  pose proof (block_table_all (fun bi => (2 <=? ec_cap bi) && (2 * ec_cap bi <=? 255) && (total_per bi <=? 255)
    && (2 * ec_cap bi <=? total_per bi - data_per bi)) ltac:(vm_compute; reflexivity) v l bis bi HT HI) as H.
  rewrite !andb_true_iff, !Nat.leb_le in H. unfold table_like. lia.
Qed.

(** *** Damage is noticed *)
Lemma damage_noticed bi c b : table_like bi -> length c = total_per bi -> length b = total_per bi ->
  (forall i, i < 2 * ec_cap bi -> synd_at c i = g0) ->
  0 < length (damage c b) <= 2 * ec_cap bi ->
  exists i, i < 2 * ec_cap bi /\ synd_at b i <> g0.
Proof.
  intros (Hz & Hz2 & Ht) HLc HLb HC [HV0 HV].
  assert (HD : length (rev (diff c b)) = total_per bi) by (rewrite rev_length, diff_length; congruence).
  assert (HD' : {forall i, i < 2 * ec_cap bi -> synd_at b i = g0} +
                {exists i, i < 2 * ec_cap bi /\ synd_at b i <> g0}).
  { clear. induction (2 * ec_cap bi) as [|m [IH|IH]].
    - left. intros; lia.
    - destruct (gf_eq_dec (synd_at b m) g0) as [E|E].
      + left. intros i Hi. destruct (Nat.eq_dec i m) as [->|]; auto. apply IH. lia.
      + right. exists m. auto.
    - right. destruct IH as (i & Hi & E). exists i. auto. }
  destruct HD' as [HZ|]; auto. exfalso.
  destruct (damage c b) as [|[x e] l'] eqn:EL; [simpl in HV0; lia|].
  assert (HI : In (x, e) (damage c b)) by (rewrite EL; now left).
  pose proof HI as HI'. apply err_list_in in HI'. destruct HI' as (_ & _ & _ & _ & HE). apply HE.
  apply (vandermonde (damage c b) (2 * ec_cap bi)) with (x := x); auto.
  - apply err_list_nodup. lia.
  - rewrite EL. exact HV.
  - intros j Hj. pose proof (damage_synd c b (2 * ec_cap bi) j ltac:(congruence) HC Hj) as E.
    unfold synd in E. rewrite <- E. auto.
Qed.

Lemma single_found bi c b p e : table_like bi -> length c = total_per bi -> length b = total_per bi ->
  (forall i, i < 2 * ec_cap bi -> synd_at c i = g0) ->
  damage c b = [(alpha p, e)] -> p < total_per bi -> e <> g0 ->
  exists b' n, correct_with_error_count (map gv b) bi = Ok (b', n).
Proof.
  intros HT HLc HLb HC HD Hp He. pose proof HT as (Hz & Hz2 & Ht).
  pose proof (correct_run bi b HT HLb) as HRUN.
  assert (HNZ : exists i, i < 2 * ec_cap bi /\ synd_at b i <> g0).
  { apply (damage_noticed bi c b); auto. rewrite HD. simpl. lia. }
  pose proof (run_decides bi b _ HLb HRUN HNZ) as HDE.
  assert (HS0 : synd_at b 0 = e).
  { rewrite (damage_synd c b (2 * ec_cap bi) 0) by (auto; congruence || lia). rewrite HD. unfold synd.
    cbn [psum gpow]. ring. }
  assert (HSY : forall i, i < 2 * ec_cap bi -> synd_at b i = synd [(alpha p, e)] i).
  { intros i Hi. rewrite <- HD. apply (damage_synd c b (2 * ec_cap bi)); auto. congruence. }
  assert (HND : correct_with_error_count (map gv b) bi <> Err EDistances).
  { clear HDE. destruct HRUN as [HZ|s _ HS HL|s x locs cc b' _ HS HL HL0 HVV HCC HB'].
    - discriminate.
    - exfalso.
      assert (HM : forall i, i < ec_cap bi -> row_ok (steps (ec_cap bi) (hmat [(alpha p, e)])) (ec_cap bi) s i).
      { apply HS. intros i j Hi Hj. unfold hmat. symmetry. apply HSY. lia. }
      destruct (hankel_solution [(alpha p, e)] (ec_cap bi)) with (s := s) as [HR _]; auto.
      + cbn [map fst]. constructor; [intros []|constructor].
      + intros x e' [E|[]]. apply (f_equal snd) in E. cbn [snd] in E. now subst.
      + apply (single_exact _ _ (alpha p) e); auto. apply alpha_neq0.
      + assert (HI : In p (loc_list (total_per bi) (sigma (ec_cap bi) s))).
        { apply loc_list_in. split; auto. apply (HR (alpha p) e). now left. }
        rewrite HL in HI. destruct HI.
    - destruct (gf_eq_dec _ _); discriminate. }
  destruct (correct_with_error_count (map gv b) bi) as [[b' n]|er|pa]; eauto.
  - destruct HDE as [->|[-> E]]; [congruence|]. rewrite HS0 in E. contradiction.
  - contradiction.
Qed.

(** *** Products are unique *)
Lemma pmul_succ_double a b : pmul (N.succ_double a) b = N.lxor b (N.double (pmul a b)).
Proof. destruct a as [|a]; cbn [N.succ_double pmul pmul_pos N.double]; [now rewrite N.lxor_0_r|reflexivity]. Qed.

Lemma pmul_lxor_l m : forall a b, pmul (Pos.lxor a b) m = N.lxor (pmul_pos a m) (pmul_pos b m).
Proof.
  assert (L : forall x y, N.lxor (N.double x) (N.double y) = N.double (N.lxor x y)) by (intros; now rewrite double_lxor).
  induction a as [a IH|a IH|]; intros [b|b|]; cbn [Pos.lxor pmul_pos];
    rewrite ?pmul_double, ?pmul_succ_double, ?IH.
  - rewrite lxor4, N.lxor_nilpotent, N.lxor_0_l. now rewrite L.
  - rewrite <- L. now rewrite N.lxor_assoc.
  - change (pmul (N.pos a~0) m) with (N.double (pmul_pos a m)).
    now rewrite (N.lxor_comm m), N.lxor_assoc, N.lxor_nilpotent, N.lxor_0_r.
  - rewrite <- L. rewrite <- !N.lxor_assoc. f_equal. apply N.lxor_comm.
  - now rewrite L.
  - change (pmul (N.pos a~1) m) with (N.lxor m (N.double (pmul_pos a m))). apply N.lxor_comm.
  - change (pmul (N.pos b~0) m) with (N.double (pmul_pos b m)).
    now rewrite <- N.lxor_assoc, N.lxor_nilpotent, N.lxor_0_l.
  - reflexivity.
  - now rewrite N.lxor_nilpotent.
Qed.

Lemma pmul_high q : exists k, (8 <= k)%N /\ N.testbit (pmul_pos q modulus) k = true.
Proof.
  induction q as [q (k & Hk & E)|q (k & Hk & E)|]; cbn [pmul_pos].
  - exists (N.succ k). split; [lia|]. rewrite N.lxor_spec, N.double_bits_succ, E.
    replace (N.testbit modulus (N.succ k)) with false; [reflexivity|]. symmetry. apply N.bits_above_log2.
    change (N.log2 modulus) with 8%N. lia.
  - exists (N.succ k). split; [lia|]. now rewrite N.double_bits_succ.
  - exists 8%N. split; [lia|reflexivity].
Qed.

Lemma product_unique a b c c' : is_product a b c -> is_product a b c' -> c = c'.
Proof.
  intros [Hc [q Eq]] [Hc' [q' Eq']].
  assert (E : N.lxor c c' = pmul (N.lxor q q') modulus).
  { transitivity (N.lxor (pmul q modulus) (pmul q' modulus)).
    - rewrite <- Eq, <- Eq'. rewrite lxor4, N.lxor_nilpotent, N.lxor_0_l. reflexivity.
    - destruct q as [|q], q' as [|q']; cbn [pmul]; rewrite ?N.lxor_0_r, ?N.lxor_0_l; try reflexivity.
      symmetry. apply (pmul_lxor_l modulus q q'). }
  destruct (N.lxor q q') as [|r] eqn:EQ.
  - now apply N.lxor_eq in E.
  - exfalso. destruct (pmul_high r) as (k & Hk & HB). cbn [pmul] in E. rewrite <- E in HB.
    assert (HL : (N.lxor c c' < 2 ^ 8)%N) by (change (2 ^ 8)%N with 256%N; now apply lxor_byte).
    rewrite N.bits_above_log2 in HB; [discriminate|].
    destruct (N.eq_dec (N.lxor c c') 0) as [E0|E0].
    + rewrite E0. cbn. lia.
    + apply N.lt_le_trans with 8%N; auto. apply N.log2_lt_pow2; auto. lia.
Qed.

(** error values are bytes *)
Lemma errors_byte c : forall b, bytes c -> bytes b -> forall p e, In (p, e) (errors c b) -> (e < 256)%N.
Proof.
  induction c as [|x c IH]; intros [|y b] Hc Hb p e HI; cbn [errors] in HI; try destruct HI.
  inversion Hc; subst. inversion Hb; subst.
  destruct (N.eqb x y); [eapply IH; eauto|]. destruct HI as [E|HI]; [|eapply IH; eauto].
  injection E as <- <-. now apply lxor_byte.
Qed.
Lemma bytes_gv l : bytes (map gv l).
Proof. apply Forall_forall. intros x Hx. apply in_map_iff in Hx. destruct Hx as (g & <- & _). apply gv_lt. Qed.
