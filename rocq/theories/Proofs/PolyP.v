(** Sums, polynomials and Vandermonde systems over GF(256). *)
From Coq Require Import Lia Ring Field List Arith.
From Verif.Proofs Require Import GaloisP.
Import ListNotations.
Local Open Scope gf_scope.

(** *** Sums over an index range *)
Fixpoint gsum (n : nat) (f : nat -> gf) : gf :=
  match n with O => g0 | S n => gsum n f + f n end.

Lemma gsum_ext n f g : (forall i, (i < n)%nat -> f i = g i) -> gsum n f = gsum n g.
Proof. induction n; intros H; simpl; [reflexivity|]. rewrite IHn, H; auto. Qed.
Lemma gsum_0 n f : (forall i, (i < n)%nat -> f i = g0) -> gsum n f = g0.
Proof. induction n; intros H; simpl; [reflexivity|]. rewrite IHn, H; auto. ring. Qed.
Lemma gsum_add n f g : gsum n (fun i => f i + g i) = gsum n f + gsum n g.
Proof. induction n; simpl; [ring|]. rewrite IHn. ring. Qed.
Lemma gsum_mul n c f : gsum n (fun i => c * f i) = c * gsum n f.
Proof. induction n; simpl; [ring|]. rewrite IHn. ring. Qed.
Lemma gsum_split a b f : gsum (a + b) f = gsum a f + gsum b (fun i => f (a + i)%nat).
Proof.
  induction b; [rewrite Nat.add_0_r; simpl; ring|].
  rewrite Nat.add_succ_r. simpl. rewrite IHb. ring.
Qed.
Lemma gsum_first n f : gsum (S n) f = f 0%nat + gsum n (fun i => f (S i)).
Proof. replace (S n) with (1 + n)%nat by lia. rewrite gsum_split. simpl. ring. Qed.

(** *** Sums over a list of (locator, value) pairs *)
Definition errs := list (gf * gf).
Fixpoint psum (l : errs) (f : gf -> gf) : gf :=
  match l with [] => g0 | (x, e) :: l => e * f x + psum l f end.

Lemma psum_app l1 l2 f : psum (l1 ++ l2) f = psum l1 f + psum l2 f.
Proof. induction l1 as [|[x e] l1 IH]; simpl; [ring|]. rewrite IH. ring. Qed.
Lemma psum_ext l f g : (forall x e, In (x, e) l -> f x = g x) -> psum l f = psum l g.
Proof.
  induction l as [|[x e] l IH]; intros H; simpl; [reflexivity|].
  rewrite IH, (H x e); auto with datatypes. intros; eapply H; right; eauto.
Qed.
Lemma psum_add l f g : psum l (fun x => f x + g x) = psum l f + psum l g.
Proof. induction l as [|[x e] l IH]; simpl; [ring|]. rewrite IH. ring. Qed.
Lemma psum_mul l c f : psum l (fun x => c * f x) = c * psum l f.
Proof. induction l as [|[x e] l IH]; simpl; [ring|]. rewrite IH. ring. Qed.
Lemma psum_0 l f : (forall x e, In (x, e) l -> f x = g0) -> psum l f = g0.
Proof.
  induction l as [|[x e] l IH]; intros H; simpl; [reflexivity|].
  rewrite IH, (H x e); auto with datatypes; [ring|]. intros; eapply H; right; eauto.
Qed.
Lemma psum_gsum l n (f : nat -> gf -> gf) :
  psum l (fun x => gsum n (fun j => f j x)) = gsum n (fun j => psum l (f j)).
Proof.
  induction n as [|n IH]; simpl.
  - apply psum_0. auto.
  - now rewrite psum_add, IH.
Qed.

(** *** Polynomials, lowest coefficient first *)
Fixpoint peval (p : list gf) (x : gf) : gf :=
  match p with [] => g0 | a :: p => a + x * peval p x end.

Lemma peval_app p q x : peval (p ++ q) x = peval p x + gpow x (length p) * peval q x.
Proof. induction p as [|a p IH]; simpl; [ring|]. rewrite IH. ring. Qed.
Lemma peval_zero p x : Forall (eq g0) p -> peval p x = g0.
Proof. induction 1 as [|a p H _ IH]; simpl; [reflexivity|]. rewrite IH, <- H. ring. Qed.
Lemma peval_gsum p x : peval p x = gsum (length p) (fun i => nth i p g0 * gpow x i).
Proof.
  induction p as [|a p IH]; [reflexivity|]. cbn [peval length]. rewrite gsum_first, IH.
  cbn [nth gpow]. rewrite <- gsum_mul.
  rewrite (gsum_ext _ (fun i => x * (nth i p g0 * gpow x i)) (fun i => nth i p g0 * (x * gpow x i))).
  - ring.
  - intros. ring.
Qed.

(** division by x - r *)
Fixpoint quot (p : list gf) (r : gf) : list gf :=
  match p with
  | [] => []
  | _ :: p => match p with [] => [] | _ => peval p r :: quot p r end
  end.
Lemma quot_length p r : length (quot p r) = (length p - 1)%nat.
Proof.
  induction p as [|a p IH]; [reflexivity|]. destruct p as [|b p]; [reflexivity|].
  change (quot (a :: b :: p) r) with (peval (b :: p) r :: quot (b :: p) r).
  cbn [length] in *. rewrite IH. lia.
Qed.
Lemma quot_eval p r x : peval p x = peval p r + (x + r) * peval (quot p r) x.
Proof.
  induction p as [|a p IH]; [simpl; ring|].
  destruct p as [|b p]; [simpl; ring|].
  change (quot (a :: b :: p) r) with (peval (b :: p) r :: quot (b :: p) r).
  cbn [peval] in *. rewrite IH. ring.
Qed.
Lemma quot_zero p r : peval p r = g0 -> Forall (eq g0) (quot p r) -> Forall (eq g0) p.
Proof.
  induction p as [|a p IH]; intros HR HQ; [constructor|].
  destruct p as [|b p].
  - constructor; auto. simpl in HR. rewrite <- HR. ring.
  - change (quot (a :: b :: p) r) with (peval (b :: p) r :: quot (b :: p) r) in HQ.
    inversion HQ as [|? ? H1 H2]; subst.
    assert (HP : Forall (eq g0) (b :: p)) by (apply IH; auto).
    constructor; auto. cbn [peval] in HR, H1. rewrite <- HR, <- H1. ring.
Qed.

(** a polynomial with as many roots as coefficients is zero *)
Lemma roots_bound rs : forall p, NoDup rs -> (length p <= length rs)%nat ->
  (forall r, In r rs -> peval p r = g0) -> Forall (eq g0) p.
Proof.
  induction rs as [|r rs IH]; intros p HN HL HR.
  - destruct p; [constructor|simpl in HL; lia].
  - inversion HN; subst.
    assert (HQ : Forall (eq g0) (quot p r)).
    { apply IH; auto.
      - rewrite quot_length. simpl in HL. lia.
      - intros s Hs. pose proof (HR s (or_intror Hs)) as E.
        rewrite (quot_eval p r s), (HR r (or_introl eq_refl)) in E.
        assert (E' : (s + r) * peval (quot p r) s = g0) by (rewrite <- E; ring).
        apply gmul_0 in E'. destruct E' as [E'|E']; auto.
        apply gadd_0_eq in E'. subst. contradiction. }
    apply (quot_zero p r); auto. apply HR. now left.
Qed.

(** multiplication by x - r *)
Fixpoint pl (r c : gf) (p : list gf) : list gf :=
  match p with [] => [c] | a :: p => (c + r * a) :: pl r a p end.
Lemma pl_eval r p x : forall c, peval (pl r c p) x = c + (x + r) * peval p x.
Proof. induction p as [|a p IH]; intros c; simpl; [ring|]. rewrite IH. ring. Qed.
Lemma pl_length r p : forall c, length (pl r c p) = S (length p).
Proof. induction p as [|a p IH]; intros c; simpl; auto. Qed.

Definition root_poly (rs : list gf) : list gf := fold_right (fun r p => pl r g0 p) [g1] rs.
Lemma root_poly_length rs : length (root_poly rs) = S (length rs).
Proof. induction rs; simpl; auto. now rewrite pl_length, IHrs. Qed.
Lemma root_poly_root rs r : In r rs -> peval (root_poly rs) r = g0.
Proof.
  induction rs as [|s rs IH]; intros [].
  - subst. simpl. rewrite pl_eval. ring.
  - simpl. rewrite pl_eval, IH by auto. ring.
Qed.
Lemma root_poly_nonroot rs x : ~ In x rs -> peval (root_poly rs) x <> g0.
Proof.
  induction rs as [|s rs IH]; intros HN; simpl.
  - intros E. apply (f_equal gv) in E. unfold gadd in E. simpl in E.
    rewrite GaloisP.gf8_mul_0_r in E. discriminate.
  - rewrite pl_eval. intros E.
    assert (E' : (x + s) * peval (root_poly rs) x = g0) by (rewrite <- E; ring).
    apply gmul_0 in E'. destruct E' as [E'|E'].
    + apply gadd_0_eq in E'. apply HN. now left.
    + revert E'. apply IH. intros H. apply HN. now right.
Qed.

(** *** Vandermonde: few pairs with vanishing power sums are all zero *)
Lemma psum_peval l n p : (length p <= n)%nat ->
  (forall j, (j < n)%nat -> psum l (fun x => gpow x j) = g0) -> psum l (peval p) = g0.
Proof.
  intros HL H. rewrite (psum_ext l (peval p) (fun x => gsum (length p) (fun i => nth i p g0 * gpow x i))).
  - rewrite psum_gsum. apply gsum_0. intros i Hi. rewrite psum_mul, H by lia. ring.
  - intros. apply peval_gsum.
Qed.

Lemma vandermonde l n : NoDup (map fst l) -> (length l <= n)%nat ->
  (forall j, (j < n)%nat -> psum l (fun x => gpow x j) = g0) ->
  forall x e, In (x, e) l -> e = g0.
Proof.
  intros HN HL H x e HI. apply in_split in HI. destruct HI as (l1 & l2 & ->).
  rewrite map_app in HN. cbn [map fst] in HN.
  apply NoDup_remove in HN. destruct HN as [HN HX]. rewrite <- map_app in *.
  set (p := root_poly (map fst (l1 ++ l2))).
  assert (E : psum (l1 ++ (x, e) :: l2) (peval p) = g0).
  { apply (psum_peval _ n); auto. unfold p. rewrite root_poly_length, map_length.
    rewrite app_length in *. simpl in HL. lia. }
  rewrite psum_app in E. cbn [psum] in E.
  rewrite (psum_0 l1), (psum_0 l2) in E.
  - assert (E' : e * peval p x = g0) by (rewrite <- E; ring).
    apply gmul_0 in E'. destruct E' as [E'|E']; auto.
    exfalso. revert E'. now apply root_poly_nonroot.
  - intros y f Hy. apply root_poly_root. apply in_map_iff. exists (y, f). split; auto with datatypes.
  - intros y f Hy. apply root_poly_root. apply in_map_iff. exists (y, f). split; auto with datatypes.
Qed.
