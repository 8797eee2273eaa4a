(** The second solve of correct.rs (error values from error locations): a Vandermonde
    system, whose elimination meets the Newton polynomials of the locations. *)
From Coq Require Import Lia Ring Field Arith Bool List.
From Verif.Proofs Require Import GaloisP PolyP SolveP LinearP.
Import ListNotations.
Local Open Scope nat_scope.

(** *** Sums and differences of polynomials *)
Fixpoint padd (p q : list gf) : list gf :=
  match p, q with
  | [], q => q
  | p, [] => p
  | a :: p, b :: q => (a + b)%G :: padd p q
  end.
Lemma padd_eval p : forall q x, peval (padd p q) x = (peval p x + peval q x)%G.
Proof. induction p as [|a p IH]; intros [|b q] x; cbn [padd peval]; try rewrite IH; ring. Qed.
Lemma padd_length p : forall q, length (padd p q) = Nat.max (length p) (length q).
Proof. induction p as [|a p IH]; intros [|b q]; cbn [padd length]; auto. now rewrite IH. Qed.
Lemma pscale_eval c p x : peval (map (gmul c) p) x = (c * peval p x)%G.
Proof. induction p as [|a p IH]; cbn [map peval]; [ring|]. rewrite IH. ring. Qed.

(** the function x^d + (lower terms) *)
Definition monic (d : nat) (P : gf -> gf) : Prop :=
  exists p, length p <= d /\ forall x, P x = (peval p x + gpow x d)%G.
Definition low (d : nat) (P : gf -> gf) : Prop :=
  exists p, length p <= d /\ forall x, P x = peval p x.

Lemma monic_low d P : monic d P -> low (S d) P.
Proof.
  intros (p & HL & H). exists (padd p (repeat g0 d ++ [g1])). split.
  - rewrite padd_length, app_length, repeat_length. cbn [length]. lia.
  - intros x. rewrite H, padd_eval. f_equal. rewrite peval_app, repeat_length.
    rewrite (peval_zero (repeat g0 d)); [cbn [peval]; ring|].
    apply Forall_forall. intros y Hy. now apply repeat_spec in Hy.
Qed.
Lemma low_le d d' P : d <= d' -> low d P -> low d' P.
Proof. intros H (p & HL & HP). exists p. split; [lia|auto]. Qed.
Lemma monic_add_low d P Q : monic d P -> low d Q -> monic d (fun x => P x + Q x)%G.
Proof.
  intros (p & HL & H) (q & HL' & H'). exists (padd p q). split; [rewrite padd_length; lia|].
  intros x. rewrite padd_eval, H, H'. ring.
Qed.
Lemma low_scale d c P : low d P -> low d (fun x => c * P x)%G.
Proof. intros (p & HL & H). exists (map (gmul c) p). rewrite map_length. split; auto. intros x. now rewrite pscale_eval, H. Qed.

Lemma monic_unique d P Q rs : monic d P -> monic d Q -> NoDup rs -> length rs = d ->
  (forall r, In r rs -> P r = g0) -> (forall r, In r rs -> Q r = g0) -> forall x, P x = Q x.
Proof.
  intros (p & HL & H) (q & HL' & H') HN HR HP HQ x.
  assert (HZ : Forall (eq g0) (padd p q)).
  { apply (roots_bound rs); auto.
    - rewrite padd_length. lia.
    - intros r Hr. rewrite padd_eval. pose proof (HP r Hr) as E1. pose proof (HQ r Hr) as E2.
      rewrite H in E1. rewrite H' in E2.
      replace (peval p r + peval q r)%G with ((peval p r + gpow r d) + (peval q r + gpow r d))%G by ring.
      rewrite E1, E2. ring. }
  rewrite H, H'. f_equal. apply gadd_0_eq. rewrite <- padd_eval. now apply peval_zero.
Qed.

(** at most d roots *)
Lemma monic_roots d P rs : monic d P -> NoDup rs -> (forall r, In r rs -> P r = g0) -> length rs <= d.
Proof.
  intros (p & HL & H) HN HR. destruct (le_lt_dec (length rs) d) as [|HC]; auto. exfalso.
  assert (HZ : Forall (eq g0) (padd p (repeat g0 d ++ [g1]))).
  { apply (roots_bound rs); auto.
    - rewrite padd_length, app_length, repeat_length. cbn [length]. lia.
    - intros r Hr. specialize (HR r Hr). rewrite H in HR. refine (eq_trans _ HR). rewrite padd_eval. f_equal.
      rewrite peval_app, repeat_length. rewrite (peval_zero (repeat g0 d)); [cbn [peval]; ring|].
      apply Forall_forall. intros y Hy. now apply repeat_spec in Hy. }
  assert (E : nth d (padd p (repeat g0 d ++ [g1])) g0 = g1).
  { clear - HL. revert p HL. induction d as [|d IH]; intros p HL.
    - destruct p; [reflexivity|simpl in HL; lia].
    - destruct p as [|a p].
      + cbn [padd repeat app nth]. specialize (IH [] ltac:(simpl; lia)). destruct d; exact IH.
      + cbn [padd repeat app nth]. apply IH. simpl in HL. lia. }
  rewrite Forall_forall in HZ.
  assert (HI : In g1 (padd p (repeat g0 d ++ [g1]))).
  { rewrite <- E at 1. apply nth_In. rewrite padd_length, app_length, repeat_length. cbn [length]. lia. }
  specialize (HZ _ HI). discriminate.
Qed.

(** *** Newton polynomials *)
Fixpoint newton (xs : nat -> gf) (k : nat) (x : gf) : gf :=
  match k with O => g1 | S k => (newton xs k x * (x + xs k))%G end.

Lemma newton_root xs k t : t < k -> newton xs k (xs t) = g0.
Proof.
  induction k as [|k IH]; intros H; [lia|]. cbn [newton].
  destruct (Nat.eq_dec t k) as [->|Hn].
  - rewrite gadd_self. ring.
  - rewrite IH by lia. ring.
Qed.
Lemma newton_nonroot xs k x : (forall t, t < k -> x <> xs t) -> newton xs k x <> g0.
Proof.
  induction k as [|k IH]; intros H.
  - cbn. discriminate.
  - cbn [newton]. intros E. apply gmul_0 in E. destruct E as [E|E].
    + revert E. apply IH. intros; apply H; lia.
    + apply (H k); [lia|]. now apply gadd_0_eq.
Qed.
Lemma newton_monic xs k : monic k (newton xs k).
Proof.
  induction k as [|k IH].
  - exists []. split; [simpl; lia|]. intros x. cbn. ring.
  - destruct IH as (p & HL & H). exists (padd (pl (xs k) g0 p) (repeat g0 k ++ [xs k])). split.
    + rewrite padd_length, pl_length, app_length, repeat_length. cbn [length]. lia.
    + intros x. cbn [newton gpow]. rewrite H, padd_eval, pl_eval, peval_app, repeat_length.
      rewrite (peval_zero (repeat g0 k)).
      * cbn [peval]. ring.
      * apply Forall_forall. intros y Hy. now apply repeat_spec in Hy.
Qed.

Lemma newton_ext xs ys k x : (forall t, t < k -> xs t = ys t) -> newton xs k x = newton ys k x.
Proof. induction k as [|k IH]; intros H; cbn [newton]; auto. rewrite IH, H; auto. Qed.

(** *** The system *)
Definition vmat (xs : nat -> gf) (n : nat) (l : errs) : mat :=
  fun i j => if j <? n then gpow (xs j) i else psum l (fun x => gpow x i).

Definition app_fun (xs : nat -> gf) (n : nat) (l : errs) (b : nat) (P : gf -> gf) : gf :=
  if b <? n then P (xs b) else psum l P.

Lemma af_ext xs n l b P Q : (forall x, P x = Q x) -> app_fun xs n l b P = app_fun xs n l b Q.
Proof. intros H. unfold app_fun. destruct (b <? n); auto. apply psum_ext. auto. Qed.
Lemma af_lin xs n l b c P Q :
  app_fun xs n l b (fun x => P x + c * Q x)%G = (app_fun xs n l b P + c * app_fun xs n l b Q)%G.
Proof.
  unfold app_fun. destruct (b <? n); [reflexivity|]. rewrite psum_add.
  f_equal. apply psum_mul.
Qed.

Section Vander.
Context (xs : nat -> gf) (n : nat) (l : errs).
Hypothesis HX : forall i j, i < n -> j < n -> xs i = xs j -> i = j.

Lemma xs_nodup k : k <= n -> NoDup (map xs (seq 0 k)).
Proof.
  intros Hk. assert (H : forall lst, NoDup lst -> (forall i, In i lst -> i < n) -> NoDup (map xs lst)).
  { induction 1 as [|a lst Ha HN IH]; intros HI; cbn [map]; constructor.
    - intros HC. apply in_map_iff in HC. destruct HC as (b & E & Hb).
      apply HX in E; [subst; auto|apply HI; right; auto|apply HI; left; auto].
    - apply IH. intros; apply HI; right; auto. }
  apply H; [apply seq_NoDup|]. intros i Hi. apply in_seq in Hi. lia.
Qed.

Definition staged (k : nat) : Prop :=
  exists P : nat -> gf -> gf,
    (forall a b, k <= a < n -> b <= n -> steps k (vmat xs n l) a b = app_fun xs n l b (P a)) /\
    (forall a, k <= a < n -> monic a (P a)) /\
    (forall a t, k <= a < n -> t < k -> P a (xs t) = g0).

Lemma staged_0 : staged 0.
Proof.
  exists (fun a x => gpow x a). split; [|split].
  - intros a b Ha Hb. cbn [steps]. unfold vmat, app_fun. reflexivity.
  - intros a _. exists []. split; [simpl; lia|]. intros x. cbn [peval]. ring.
  - intros; lia.
Qed.

Lemma staged_row k b : staged k -> k < n -> b <= n ->
  steps k (vmat xs n l) k b = app_fun xs n l b (newton xs k).
Proof.
  intros (P & H1 & H2 & H3) Hk Hb. rewrite H1 by lia. apply af_ext.
  apply (monic_unique k _ _ (map xs (seq 0 k))).
  - apply H2. lia.
  - apply newton_monic.
  - apply xs_nodup. lia.
  - now rewrite map_length, seq_length.
  - intros r Hr. apply in_map_iff in Hr. destruct Hr as (t & <- & Ht). apply in_seq in Ht. apply H3; lia.
  - intros r Hr. apply in_map_iff in Hr. destruct Hr as (t & <- & Ht). apply in_seq in Ht. apply newton_root; lia.
Qed.

Lemma pivot_nonzero k : k < n -> newton xs k (xs k) <> g0.
Proof.
  intros Hk. apply newton_nonroot. intros t Ht E. apply HX in E; lia.
Qed.

Lemma staged_exact k : staged k -> k < n -> psum l (newton xs k) <> g0 -> exact_row (steps k (vmat xs n l)) n k.
Proof.
  intros HS Hk HN. split.
  - rewrite (staged_row k k HS Hk ltac:(lia)). unfold app_fun. destruct (Nat.ltb_spec k n); [|lia].
    now apply pivot_nonzero.
  - intros b Hb. apply dv_ok.
    + rewrite (staged_row k b HS Hk ltac:(lia)). unfold app_fun. destruct (Nat.ltb_spec b n) as [Hbn|Hbn]; auto.
      apply newton_nonroot. intros t Ht E. apply HX in E; lia.
    + rewrite (staged_row k k HS Hk ltac:(lia)). unfold app_fun. destruct (Nat.ltb_spec k n); [|lia].
      now apply pivot_nonzero.
Qed.

Lemma staged_S k : staged k -> k < n -> psum l (newton xs k) <> g0 -> staged (S k).
Proof.
  intros HS Hk HN. pose proof (staged_exact k HS Hk HN) as [HP HE].
  pose proof (staged_row k) as HR.
  assert (Hpk : steps k (vmat xs n l) k k = newton xs k (xs k)).
  { rewrite HR by (auto; lia). unfold app_fun. destruct (Nat.ltb_spec k n); [reflexivity|lia]. }
  pose proof (pivot_nonzero k Hk) as HNZ.
  pose proof HS as HS0. destruct HS as (P & H1 & H2 & H3).
  exists (fun a x => P a x + (P a (xs k) / newton xs k (xs k)) * newton xs k x)%G. split; [|split].
  - intros a b Ha Hb. rewrite af_lin, <- H1 by lia. cbn [steps]. unfold step.
    destruct (Nat.leb_spec k b) as [Hkb|Hkb].
    + destruct (Nat.eqb_spec a k); [lia|]. destruct (Nat.ltb_spec k a); [|lia].
      rewrite HE by lia. rewrite Hpk.
      rewrite (HR b HS0 Hk Hb).
      assert (E : steps k (vmat xs n l) a k = P a (xs k)).
      { rewrite H1 by lia. unfold app_fun. destruct (Nat.ltb_spec k n); [reflexivity|lia]. }
      rewrite E. field. exact HNZ.
    + unfold app_fun at 1. destruct (Nat.ltb_spec b n); [|lia].
      rewrite (newton_root xs k b) by lia. ring.
  - intros a Ha. apply monic_add_low; [apply H2; lia|]. apply (low_le (S k)); [lia|].
    apply low_scale. apply monic_low, newton_monic.
  - intros a t Ha Ht. destruct (Nat.eq_dec t k) as [->|Hn].
    + field. exact HNZ.
    + rewrite H3, (newton_root xs k t) by lia. ring.
Qed.

Lemma all_staged k : k <= n -> (forall i, i < k -> psum l (newton xs i) <> g0) ->
  staged k /\ exact_steps (vmat xs n l) n k.
Proof.
  induction k as [|k IH]; intros Hk H.
  - split; [apply staged_0|]. intros i Hi; lia.
  - destruct IH as [HS HE]; [lia|intros; apply H; lia|].
    split; [apply staged_S; auto; lia|].
    intros i Hi. destruct (Nat.eq_dec i k) as [->|Hn]; [apply staged_exact; auto; lia|apply HE; lia].
Qed.

Lemma steps_stable (M : mat) a b : forall m k, a < k -> k <= m -> steps m M a b = steps k M a b.
Proof.
  induction m as [|m IH]; intros k Ha Hk; [lia|]. destruct (Nat.eq_dec k (S m)) as [->|Hn]; auto.
  cbn [steps]. unfold step. destruct (Nat.leb_spec m b).
  - destruct (Nat.eqb_spec a m); [lia|]. destruct (Nat.ltb_spec m a); [lia|]. apply IH; lia.
  - apply IH; lia.
Qed.

(** the computed values solve the system exactly when no Newton sum vanishes *)
Lemma vander_solve x : (forall i, i < n -> row_ok (steps n (vmat xs n l)) n x i) ->
  (solves (vmat xs n l) n x <-> forall k, k < n -> psum l (newton xs k) <> g0).
Proof.
  intros HO. split.
  - intros HS. intros k. induction k as [k IH] using lt_wf_ind. intros Hk HZ.
    destruct (all_staged k ltac:(lia)) as [HST HEX]; [intros; apply IH; lia|].
    assert (HSk : solves (steps k (vmat xs n l)) n x) by (apply steps_solves; auto; lia).
    assert (HR : residual (steps n (vmat xs n l)) n x k = g0).
    { apply row_ok_residual; auto. apply lower_steps. }
    rewrite (residual_ext _ (steps (S k) (vmat xs n l))) in HR.
    2:{ intros b Hb. apply steps_stable; lia. }
    pose proof (HSk k Hk) as HR0.
    pose proof (pivot_nonzero k Hk) as HNZ.
    assert (Hpk : steps k (vmat xs n l) k k = newton xs k (xs k)).
    { rewrite staged_row by (auto; lia). unfold app_fun. destruct (Nat.ltb_spec k n); [reflexivity|lia]. }
    assert (Hrk : steps k (vmat xs n l) k n = g0).
    { rewrite staged_row by (auto; lia). unfold app_fun. destruct (Nat.ltb_spec n n); [lia|exact HZ]. }
    unfold residual in HR, HR0. rewrite Hrk in HR0.
    assert (Hrk' : steps (S k) (vmat xs n l) k n = (g1 / newton xs k (xs k))%G).
    { cbn [steps]. unfold step. rewrite Nat.eqb_refl. destruct (Nat.leb_spec k n); [|lia].
      rewrite Hrk, Hpk. now apply dv_0_l. }
    rewrite Hrk' in HR.
    rewrite (gsum_ext n _ (fun j => (g1 / newton xs k (xs k)) * (steps k (vmat xs n l) k j * x j))%G) in HR.
    + rewrite gsum_mul in HR.
      assert (E : gsum n (fun j => steps k (vmat xs n l) k j * x j)%G = g0) by (apply gadd_0_eq in HR0; exact HR0).
      rewrite E in HR.
      assert (HC : (newton xs k (xs k) * (g1 / newton xs k (xs k) * g0 + g1 / newton xs k (xs k)))%G = g1)
        by (field; exact HNZ).
      rewrite HR in HC. assert (E0 : (newton xs k (xs k) * g0)%G = g0) by ring. rewrite E0 in HC. discriminate.
    + intros j Hj. cbn [steps]. unfold step at 1. rewrite Nat.eqb_refl.
      destruct (Nat.leb_spec k j) as [Hkj|Hkj].
      * rewrite dv_ok.
        -- rewrite Hpk. field. exact HNZ.
        -- rewrite staged_row by (auto; lia). unfold app_fun. destruct (Nat.ltb_spec j n); [|lia].
           apply newton_nonroot. intros t Ht E'. apply HX in E'; lia.
        -- rewrite Hpk. exact HNZ.
      * destruct (lower_steps n k (vmat xs n l) k j Hkj Hk) as [H0 _]. rewrite H0 by auto. ring.
  - intros HN. destruct (all_staged n (le_n n) HN) as [_ HE].
    apply (solve_exact _ n n x (le_n n) HE); auto. intros; lia.
Qed.

(** a solution of the system agrees with the true error values *)
Lemma vander_unique x : NoDup (map fst l) ->
  (forall y e, In (y, e) l -> exists j, j < n /\ xs j = y) ->
  solves (vmat xs n l) n x ->
  forall j, j < n -> x j = psum l (fun y => if gf_eq_dec y (xs j) then g1 else g0).
Proof.
  intros HN HI HS.
  set (val := fun j => psum l (fun y => if gf_eq_dec y (xs j) then g1 else g0)).
  (* the differences form a kernel vector *)
  set (d := map (fun j => (xs j, (x j + val j)%G)) (seq 0 n)).
  assert (Hd : forall f, psum d f = gsum n (fun j => (x j + val j) * f (xs j))%G).
  { intros f. unfold d. clear. induction n as [|m IH]; [reflexivity|].
    rewrite seq_S, map_app, psum_app, IH. cbn [map psum gsum plus]. ring. }
  assert (Hval : forall f, psum l f = gsum n (fun j => val j * f (xs j))%G).
  { intros f. unfold val. clear Hd HS d val. induction l as [|[y e] l' IH].
    - symmetry. apply gsum_0. intros. cbn [psum]. ring.
    - cbn [psum]. inversion HN; subst. rewrite IH; auto.
      2:{ intros; eapply HI; right; eauto. }
      destruct (HI y e (or_introl eq_refl)) as (j0 & Hj0 & Ej0).
      assert (E : (e * f y)%G = gsum n (fun j => (e * (if gf_eq_dec y (xs j) then g1 else g0)) * f (xs j))%G).
      { replace n with (j0 + (1 + (n - j0 - 1))) by lia. rewrite !gsum_split.
        rewrite gsum_0. 2:{ intros i Hi. destruct (gf_eq_dec y (xs i)) as [E|E]; [|ring].
          rewrite <- Ej0 in E. apply HX in E; lia. }
        rewrite (gsum_0 (n - j0 - 1)). 2:{ intros i Hi. destruct (gf_eq_dec y (xs (j0 + (1 + i)))) as [E|E]; [|ring].
          rewrite <- Ej0 in E. apply HX in E; lia. }
        cbn [gsum]. rewrite Nat.add_0_r, Ej0. destruct (gf_eq_dec y y); [|congruence]. ring. }
      rewrite E, <- gsum_add. apply gsum_ext. intros. ring. }
  intros j Hj. apply gadd_0_eq.
  apply (vandermonde d n) with (x := xs j).
  - unfold d. rewrite map_map. cbn [fst]. apply xs_nodup. lia.
  - unfold d. now rewrite map_length, seq_length.
  - intros i Hi. rewrite Hd. specialize (HS i Hi). unfold residual in HS.
    rewrite (gsum_ext n _ (fun j => (vmat xs n l i j * x j) + val j * gpow (xs j) i)%G).
    + rewrite gsum_add. unfold vmat at 2 in HS. destruct (Nat.ltb_spec n n); [lia|].
      rewrite Hval in HS. exact HS.
    + intros k Hk. unfold vmat. destruct (Nat.ltb_spec k n); [|lia]. ring.
  - unfold d. apply in_map_iff. exists j. split; [reflexivity|]. apply in_seq. lia.
Qed.

Lemma vander_true_solves x : NoDup (map fst l) ->
  (forall y e, In (y, e) l -> exists j, j < n /\ xs j = y) ->
  (forall j, j < n -> x j = psum l (fun y => if gf_eq_dec y (xs j) then g1 else g0)) ->
  solves (vmat xs n l) n x.
Proof.
  intros HN HI HV i Hi. unfold residual.
  assert (Hval : forall (f : gf -> gf), psum l f = gsum n (fun j => x j * f (xs j))%G).
  { intros f. rewrite (gsum_ext n _ (fun j => psum l (fun y => if gf_eq_dec y (xs j) then g1 else g0) * f (xs j))%G)
      by (intros; now rewrite HV).
    clear HV. induction l as [|[y e] l' IH].
    - symmetry. apply gsum_0. intros. cbn [psum]. ring.
    - cbn [psum]. inversion HN; subst. rewrite IH; auto.
      2:{ intros; eapply HI; right; eauto. }
      destruct (HI y e (or_introl eq_refl)) as (j0 & Hj0 & Ej0).
      assert (E : (e * f y)%G = gsum n (fun j => (e * (if gf_eq_dec y (xs j) then g1 else g0)) * f (xs j))%G).
      { replace n with (j0 + (1 + (n - j0 - 1))) by lia. rewrite !gsum_split.
        rewrite gsum_0. 2:{ intros i0 Hi0. destruct (gf_eq_dec y (xs i0)) as [E|E]; [|ring].
          rewrite <- Ej0 in E. apply HX in E; lia. }
        rewrite (gsum_0 (n - j0 - 1)). 2:{ intros i0 Hi0. destruct (gf_eq_dec y (xs (j0 + (1 + i0)))) as [E|E]; [|ring].
          rewrite <- Ej0 in E. apply HX in E; lia. }
        cbn [gsum]. rewrite Nat.add_0_r, Ej0. destruct (gf_eq_dec y y); [|congruence]. ring. }
      rewrite E, <- gsum_add. apply gsum_ext. intros. ring. }
  unfold vmat at 2. destruct (Nat.ltb_spec n n); [lia|]. rewrite Hval.
  rewrite (gsum_ext n _ (fun j => x j * gpow (xs j) i)%G); [ring|].
  intros j Hj. unfold vmat. destruct (Nat.ltb_spec j n); [|lia]. ring.
Qed.
End Vander.
