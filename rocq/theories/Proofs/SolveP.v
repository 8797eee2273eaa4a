(** The in-place linear solver of correct.rs, as operations on matrices given by
    functions. *)
From Coq Require Import Lia Ring Field.
From Verif.Model Require Import Correct.
From Verif.Proofs Require Import BaseP GaloisP PolyP.
Local Open Scope nat_scope.

Definition mat := nat -> nat -> gf.

Definition rep (eq : list (list N)) (M : mat) (r c : nat) : Prop :=
  length eq = r /\
  forall i, i < r -> exists row, nth_error eq i = Some row /\ length row = c /\
    forall j, j < c -> nth_error row j = Some (gv (M i j)).

Lemma rep_ext eq M M' r c : rep eq M r c ->
  (forall i j, i < r -> j < c -> M i j = M' i j) -> rep eq M' r c.
Proof.
  intros [HL H] HE. split; auto. intros i Hi. destruct (H i Hi) as (row & H1 & H2 & H3).
  exists row. repeat split; auto. intros j Hj. rewrite <- HE by auto. auto.
Qed.

Lemma get2_rep eq M r c i j : rep eq M r c -> i < r -> j < c -> get2 eq i j = Ok (gv (M i j)).
Proof.
  intros [HL H] Hi Hj. destruct (H i Hi) as (row & H1 & H2 & H3).
  unfold get2. rewrite (get_ok _ _ _ H1). cbn [bind]. now apply get_ok, H3.
Qed.

Definition upd (M : mat) (i j : nat) (v : gf) : mat :=
  fun a b => if (a =? i) && (b =? j) then v else M a b.

Lemma set2_rep eq M r c i j v : rep eq M r c -> i < r -> j < c ->
  exists eq', set2 eq i j (gv v) = Ok eq' /\ rep eq' (upd M i j v) r c.
Proof.
  intros [HL H] Hi Hj. destruct (H i Hi) as (row & H1 & H2 & H3).
  unfold set2. rewrite (get_ok _ _ _ H1). cbn [bind]. rewrite set_ok by lia. cbn [bind].
  rewrite set_ok by lia. eexists. split; [reflexivity|]. split; [now rewrite update_length|].
  intros a Ha. unfold upd. destruct (Nat.eqb_spec a i) as [->|Hn].
  - exists (update row j (gv v)). rewrite nth_error_update_same by lia.
    rewrite update_length. repeat split; auto. intros b Hb. cbn [andb].
    destruct (Nat.eqb_spec b j) as [->|Hb'].
    + now rewrite nth_error_update_same by lia.
    + rewrite nth_error_update_other by auto. auto.
  - rewrite nth_error_update_other by auto. destruct (H a Ha) as (row' & G1 & G2 & G3).
    exists row'. repeat split; auto.
Qed.

Lemma rev_seq_S a n : rev (seq a (S n)) = (a + n) :: rev (seq a n).
Proof. rewrite seq_S, rev_app_distr. reflexivity. Qed.

(** *** Row normalisation *)
Definition nrm (i n : nat) (M : mat) : mat :=
  fun a b => if (a =? i) && (i <=? b) && (b <? i + n) then dv (M i b) (M i i) else M a b.

Lemma normalise_rep i r c : forall n eq M, rep eq M r c -> i < r -> i + n <= c ->
  exists eq', foldM (fun eq j => a <- get2 eq i j ;; p <- get2 eq i i ;; set2 eq i j (gf8_div a p))
                (rev (seq i n)) eq = Ok eq' /\ rep eq' (nrm i n M) r c.
Proof.
  induction n as [|n IH]; intros eq M HR Hi Hn.
  - exists eq. split; [reflexivity|]. eapply rep_ext; eauto. intros a b _ _. unfold nrm.
    destruct (Nat.leb_spec i b), (Nat.ltb_spec b (i + 0)); try lia; now rewrite ?andb_false_r.
  - rewrite rev_seq_S. cbn [foldM].
    rewrite (get2_rep eq M r c) by (auto; lia). cbn [bind].
    rewrite (get2_rep eq M r c) by (auto; lia). cbn [bind].
    rewrite <- gv_dv.
    destruct (set2_rep eq M r c i (i + n) (dv (M i (i + n)) (M i i)) HR Hi ltac:(lia)) as (eq1 & E1 & R1).
    rewrite E1. cbn [bind].
    destruct (IH eq1 _ R1 Hi ltac:(lia)) as (eq2 & E2 & R2). exists eq2. split; [exact E2|].
    eapply rep_ext; eauto. intros a b _ _. unfold nrm, upd.
    destruct (Nat.eqb_spec a i) as [->|Ha]; cbn [andb]; [|reflexivity].
    rewrite Nat.eqb_refl. cbn [andb].
    destruct (Nat.leb_spec i b) as [Hb|Hb]; cbn [andb].
    + destruct (Nat.ltb_spec b (i + n)), (Nat.ltb_spec b (i + S n)); try lia.
      * destruct (Nat.eqb_spec b (i + n)); [lia|]. destruct (Nat.eqb_spec i (i + n)); [lia|]. reflexivity.
      * destruct (Nat.eqb_spec b (i + n)) as [->|]; [reflexivity|lia].
      * destruct (Nat.eqb_spec b (i + n)); [lia|reflexivity].
    + destruct (Nat.eqb_spec b (i + n)); [lia|reflexivity].
Qed.

(** *** Elimination of one row *)
Definition elm (i j n : nat) (M : mat) : mat :=
  fun a b => if (a =? j) && (i <=? b) && (b <? i + n) then (M j b + M j i * M i b)%G else M a b.

Lemma eliminate_rep i j r c : forall n eq M, rep eq M r c -> i < r -> j < r -> i <> j -> i + n <= c ->
  exists eq', foldM (fun eq k => a <- get2 eq j k ;; f <- get2 eq j i ;; b <- get2 eq i k ;;
                                 set2 eq j k (gf8_sub a (gf8_mul f b)))
                (rev (seq i n)) eq = Ok eq' /\ rep eq' (elm i j n M) r c.
Proof.
  induction n as [|n IH]; intros eq M HR Hi Hj Hij Hn.
  - exists eq. split; [reflexivity|]. eapply rep_ext; eauto. intros a b _ _. unfold elm.
    destruct (Nat.leb_spec i b), (Nat.ltb_spec b (i + 0)); try lia; now rewrite ?andb_false_r.
  - rewrite rev_seq_S. cbn [foldM].
    rewrite (get2_rep eq M r c) by (auto; lia). cbn [bind].
    rewrite (get2_rep eq M r c) by (auto; lia). cbn [bind].
    rewrite (get2_rep eq M r c) by (auto; lia). cbn [bind].
    rewrite <- gv_mul. change (gf8_sub) with gf8_add. rewrite <- gv_add.
    destruct (set2_rep eq M r c j (i + n) (M j (i + n)%nat + M j i * M i (i + n)%nat)%G HR Hj ltac:(lia)) as (eq1 & E1 & R1).
    rewrite E1. cbn [bind].
    destruct (IH eq1 _ R1 Hi Hj Hij ltac:(lia)) as (eq2 & E2 & R2). exists eq2. split; [exact E2|].
    eapply rep_ext; eauto. intros a b _ _. unfold elm, upd.
    destruct (Nat.eqb_spec i j) as [|_]; [contradiction|]. cbn [andb].
    destruct (Nat.eqb_spec a j) as [->|Ha]; cbn [andb]; [|reflexivity].
    rewrite Nat.eqb_refl. cbn [andb].
    destruct (Nat.leb_spec i b) as [Hb|Hb]; cbn [andb].
    + destruct (Nat.ltb_spec b (i + n)), (Nat.ltb_spec b (i + S n)); try lia.
      * destruct (Nat.eqb_spec b (i + n)); [lia|]. destruct (Nat.eqb_spec i (i + n)); [lia|]. reflexivity.
      * destruct (Nat.eqb_spec b (i + n)) as [->|]; [reflexivity|lia].
      * destruct (Nat.eqb_spec b (i + n)); [lia|reflexivity].
    + destruct (Nat.eqb_spec b (i + n)); [lia|reflexivity].
Qed.

(** *** One pivot *)
Definition step (i : nat) (M : mat) : mat := fun a b =>
  if i <=? b then
    if a =? i then dv (M i b) (M i i)
    else if i <? a then (M a b + M a i * dv (M i b) (M i i))%G
    else M a b
  else M a b.

Definition elms (i lo n : nat) (M : mat) : mat := fun a b =>
  if (i <=? b) && (lo <=? a) && (a <? lo + n) then (M a b + M a i * M i b)%G else M a b.

Lemma eliminate_all_rep i r c : forall n lo eq M, rep eq M r c -> i < r -> i < lo -> lo + n <= r -> i <= c ->
  exists eq', foldM (eliminate c i) (seq lo n) eq = Ok eq' /\ rep eq' (elms i lo n M) r c.
Proof.
  induction n as [|n IH]; intros lo eq M HR Hi Hlo Hn Hc.
  - exists eq. split; [reflexivity|]. eapply rep_ext; eauto. intros a b _ _. unfold elms.
    destruct (Nat.leb_spec lo a), (Nat.ltb_spec a (lo + 0)); try lia; now rewrite ?andb_false_r.
  - cbn [seq foldM]. unfold eliminate at 1. unfold range.
    destruct (eliminate_rep i lo r c (c - i) eq M HR Hi ltac:(lia) ltac:(lia) ltac:(lia)) as (eq1 & E1 & R1).
    rewrite E1. cbn [bind].
    destruct (IH (S lo) eq1 _ R1 Hi ltac:(lia) ltac:(lia) Hc) as (eq2 & E2 & R2).
    exists eq2. split; [exact E2|]. eapply rep_ext; eauto. intros a b Ha Hb. unfold elms, elm.
    destruct (Nat.ltb_spec b (i + (c - i))); [|lia]. rewrite !andb_true_r.
    destruct (Nat.leb_spec i b) as [Hb'|Hb']; cbn [andb]; rewrite ?andb_false_r; [|reflexivity].
    rewrite !andb_true_r.
    destruct (Nat.leb_spec (S lo) a), (Nat.ltb_spec a (S lo + n)), (Nat.leb_spec lo a), (Nat.ltb_spec a (lo + S n));
      cbn [andb]; try lia.
    all: destruct (Nat.eqb_spec a lo); try lia; subst; try reflexivity.
    all: destruct (Nat.eqb_spec i lo); try lia; try reflexivity.
Qed.

Lemma step_rep i r c eq M : rep eq M r c -> i < r -> i <= c ->
  exists eq', (eq <- normalise c eq i ;; foldM (eliminate c i) (range (i + 1) r) eq) = Ok eq'
              /\ rep eq' (step i M) r c.
Proof.
  intros HR Hi Hc. unfold normalise, range at 1.
  destruct (normalise_rep i r c (c - i) eq M HR Hi ltac:(lia)) as (eq1 & E1 & R1).
  rewrite E1. cbn [bind]. unfold range.
  destruct (eliminate_all_rep i r c (r - (i + 1)) (i + 1) eq1 _ R1 Hi ltac:(lia) ltac:(lia) Hc) as (eq2 & E2 & R2).
  exists eq2. split; [exact E2|]. eapply rep_ext; eauto. intros a b Ha Hb. unfold elms, nrm, step.
  destruct (Nat.ltb_spec b (i + (c - i))); [|lia]. rewrite !andb_true_r.
  destruct (Nat.leb_spec i b) as [Hb'|Hb']; cbn [andb]; rewrite ?andb_false_r; [|reflexivity].
  rewrite !andb_true_r.
  destruct (Nat.leb_spec (i + 1) a), (Nat.ltb_spec a (i + 1 + (r - (i + 1)))); cbn [andb]; try lia.
  - destruct (Nat.eqb_spec a i); [lia|]. destruct (Nat.ltb_spec i a); [|lia].
    rewrite Nat.eqb_refl. cbn [andb]. destruct (Nat.leb_spec i i); [|lia].
    destruct (Nat.ltb_spec i (i + (c - i))); [|lia]. cbn [andb]. reflexivity.
  - destruct (Nat.eqb_spec a i) as [->|]; [reflexivity|]. destruct (Nat.ltb_spec i a); [lia|reflexivity].
Qed.

(** *** All pivots *)
Fixpoint steps (k : nat) (M : mat) : mat :=
  match k with O => M | S k => step k (steps k M) end.

Lemma elimination_rep r c eq M : rep eq M r c -> r <= c ->
  exists eq', elimination r c eq = Ok eq' /\ rep eq' (steps r M) r c.
Proof.
  intros HR Hc. unfold elimination, range at 2. rewrite Nat.sub_0_r.
  assert (H : forall k, k <= r -> exists eq',
    foldM (fun eq i => eq <- normalise c eq i ;; foldM (eliminate c i) (range (i + 1) r) eq) (seq 0 k) eq
    = Ok eq' /\ rep eq' (steps k M) r c).
  { induction k as [|k IH]; intros Hk.
    - exists eq. auto.
    - destruct (IH ltac:(lia)) as (eq1 & E1 & R1). rewrite seq_S, foldM_app, E1. cbn [bind foldM].
      destruct (step_rep k r c eq1 _ R1 ltac:(lia) ltac:(lia)) as (eq2 & E2 & R2).
      exists eq2. rewrite Nat.add_0_l. rewrite E2. auto. }
  apply H. lia.
Qed.

(** *** Back substitution *)
Definition vrep (v : list N) (x : nat -> gf) (r : nat) : Prop :=
  length v = r /\ forall i, i < r -> nth_error v i = Some (gv (x i)).

Definition vupd (x : nat -> gf) (i : nat) (v : gf) : nat -> gf := fun a => if a =? i then v else x a.

Lemma vrep_ext v x y r : vrep v x r -> (forall i, i < r -> x i = y i) -> vrep v y r.
Proof. intros [H1 H2] H. split; auto. intros i Hi. rewrite <- H by auto. auto. Qed.

Lemma vset v x r i e : vrep v x r -> i < r -> exists v', set v i (gv e) = Ok v' /\ vrep v' (vupd x i e) r.
Proof.
  intros [H1 H2] Hi. rewrite set_ok by lia. eexists. split; [reflexivity|].
  split; [now rewrite update_length|]. intros j Hj. unfold vupd.
  destruct (Nat.eqb_spec j i) as [->|Hn].
  - apply nth_error_update_same. lia.
  - rewrite nth_error_update_other by auto. auto.
Qed.

Lemma back_inner eq M r i : rep eq M r (S r) -> i < r -> forall n j v x,
  vrep v x r -> i < j -> j + n <= r ->
  exists v', foldM (fun solution j => s <- get solution i ;; a <- get2 eq i j ;; t <- get solution j ;;
                                      set solution i (gf8_sub s (gf8_mul a t))) (seq j n) v = Ok v' /\
    vrep v' (vupd x i (x i + gsum n (fun t => M i (j + t)%nat * x (j + t)%nat))%G) r.
Proof.
  intros HR Hi. induction n as [|n IH]; intros j v x HV Hj Hn.
  - exists v. split; [reflexivity|]. eapply vrep_ext; eauto. intros a Ha. unfold vupd. simpl.
    destruct (Nat.eqb_spec a i) as [->|]; [ring|reflexivity].
  - cbn [seq foldM]. destruct HV as [HV1 HV2].
    rewrite (get_ok _ _ _ (HV2 i Hi)). cbn [bind].
    rewrite (get2_rep eq M r (S r)) by (auto; lia). cbn [bind].
    rewrite (get_ok _ _ _ (HV2 j ltac:(lia))). cbn [bind].
    change gf8_sub with gf8_add. rewrite <- gv_mul, <- gv_add.
    destruct (vset v x r i (x i + M i j * x j)%G (conj HV1 HV2) Hi) as (v1 & E1 & R1).
    rewrite E1. cbn [bind].
    destruct (IH (S j) v1 _ R1 ltac:(lia) ltac:(lia)) as (v2 & E2 & R2). exists v2. split; [exact E2|].
    eapply vrep_ext; eauto. intros a Ha. unfold vupd. destruct (Nat.eqb_spec a i) as [->|]; [|reflexivity].
    rewrite Nat.eqb_refl. rewrite gsum_first, Nat.add_0_r.
    rewrite (gsum_ext n _ (fun t => M i (j + S t)%nat * x (j + S t)%nat)%G).
    + ring.
    + intros t Ht. replace (S j + t) with (j + S t) by lia.
      destruct (Nat.eqb_spec (j + S t) i); [lia|reflexivity].
Qed.

(** the equation that back substitution establishes *)
Definition row_ok (M : mat) (r : nat) (x : nat -> gf) (i : nat) : Prop :=
  x i = (M i r + gsum (r - (i + 1))%nat (fun t => M i (i + 1 + t)%nat * x (i + 1 + t)%nat))%G.

Lemma back_rep eq M r : rep eq M r (S r) -> forall n v x,
  vrep v x r -> n <= r -> (forall i, n <= i < r -> row_ok M r x i) ->
  exists v' x', foldM (fun solution i =>
           q <- get2 eq i r ;;
           solution <- set solution i q ;;
           foldM (fun solution j =>
                    s <- get solution i ;; a <- get2 eq i j ;; t <- get solution j ;;
                    set solution i (gf8_sub s (gf8_mul a t)))
                 (range (i + 1) r) solution) (rev (seq 0 n)) v = Ok v' /\
     vrep v' x' r /\ (forall i, i < r -> row_ok M r x' i).
Proof.
  intros HR. induction n as [|n IH]; intros v x HV Hn HO.
  - exists v, x. split; [reflexivity|]. split; auto. intros. apply HO. lia.
  - rewrite rev_seq_S. cbn [foldM]. rewrite Nat.add_0_l.
    rewrite (get2_rep eq M r (S r)) by (auto; lia). cbn [bind].
    destruct (vset v x r n (M n r) HV ltac:(lia)) as (v1 & E1 & R1). rewrite E1. cbn [bind].
    unfold range at 1.
    destruct (back_inner eq M r n HR ltac:(lia) (r - (n + 1)) (n + 1) v1 _ R1 ltac:(lia) ltac:(lia)) as (v2 & E2 & R2).
    rewrite E2. cbn [bind]. eapply IH; [exact R2|lia|].
    intros i Hi. unfold row_ok. unfold vupd at 1. destruct (Nat.eqb_spec i n) as [->|Hin].
    + unfold vupd at 1. rewrite Nat.eqb_refl. f_equal. apply gsum_ext. intros t Ht.
      unfold vupd. destruct (Nat.eqb_spec (n + 1 + t) n); [lia|reflexivity].
    + unfold vupd at 1. destruct (Nat.eqb_spec i n); [contradiction|].
      rewrite (HO i ltac:(lia)). f_equal. apply gsum_ext. intros t Ht.
      unfold vupd. destruct (Nat.eqb_spec (i + 1 + t) n); [lia|reflexivity].
Qed.

Lemma solve_rep eq M r : 0 < r -> rep eq M r (S r) ->
  exists v x, solve eq = Ok (Some v) /\ vrep v x r /\ (forall i, i < r -> row_ok (steps r M) r x i).
Proof.
  intros Hr HR. unfold solve. destruct HR as [HL HR].
  rewrite HL. destruct (Nat.eqb_spec r 0); [lia|].
  destruct (HR 0 Hr) as (row & E1 & E2 & _). rewrite (get_ok _ _ _ E1). cbn [bind].
  rewrite E2. cbn [Nat.eqb].
  destruct (elimination_rep r (S r) eq M (conj HL HR) ltac:(lia)) as (eq1 & E3 & R3).
  rewrite E3. cbn [bind]. unfold back_substitution, range at 2. rewrite Nat.sub_0_r.
  rewrite sub_nat_ok by lia. replace (S r - 1) with r by lia. cbn [bind].
  destruct (back_rep eq1 _ r R3 r (repeat 0%N r) (fun _ => g0)) as (v & x & E4 & V4 & O4).
  - split; [apply repeat_length|]. intros i Hi.
    rewrite nth_error_repeat by auto. reflexivity.
  - lia.
  - intros. lia.
  - rewrite E4. cbn [bind]. eauto.
Qed.

Lemma solve_nil : solve [] = Ok None.
Proof. reflexivity. Qed.
