(** The first solve of correct.rs (locator polynomial from syndromes): a Hankel system. *)
From Coq Require Import Lia Ring Field Arith Bool List.
From Verif.Proofs Require Import GaloisP PolyP SolveP LinearP NewtonP.
Import ListNotations.
Local Open Scope nat_scope.

Definition synd (l : errs) (m : nat) : gf := psum l (fun x => gpow x m).
Definition hmat (l : errs) : mat := fun i j => synd l (i + j).

Lemma gpow_add x a b : gpow x (a + b) = (gpow x a * gpow x b)%G.
Proof. induction a as [|a IH]; cbn [plus gpow]; [ring|]. rewrite IH. ring. Qed.

Lemma psum_scale l (y f : gf -> gf) :
  psum l (fun x => y x * f x)%G = psum (map (fun '(x, e) => (x, (e * y x)%G)) l) f.
Proof. induction l as [|[x e] l IH]; cbn [map psum]; [reflexivity|]. rewrite IH. ring. Qed.
Lemma map_fst_scale (l : errs) (y : gf -> gf) :
  map fst (map (fun '(x, e) => (x, (e * y x)%G)) l) = map fst l.
Proof. rewrite map_map. apply map_ext. now intros [x e]. Qed.

(** functions that annihilate the powers below the number of errors vanish on them *)
Lemma annihilate l n y : NoDup (map fst l) -> (length l <= n) ->
  (forall j, j < n -> psum l (fun x => y x * gpow x j)%G = g0) ->
  forall x e, In (x, e) l -> (e * y x)%G = g0.
Proof.
  intros HN HL H x e HI.
  apply (vandermonde (map (fun '(x, e) => (x, (e * y x)%G)) l) n) with (x := x).
  - now rewrite map_fst_scale.
  - now rewrite map_length.
  - intros j Hj. rewrite <- psum_scale. auto.
  - apply in_map_iff. exists (x, e). auto.
Qed.

(** the locator polynomial of a solution *)
Definition sigma (z : nat) (s : nat -> gf) (x : gf) : gf := (gsum z (fun j => s j * gpow x j) + gpow x z)%G.

Lemma sigma_monic z s : monic z (sigma z s).
Proof.
  exists (map s (seq 0 z)). split; [now rewrite map_length, seq_length|].
  intros x. unfold sigma. f_equal. rewrite peval_gsum, map_length, seq_length. apply gsum_ext.
  intros i Hi. f_equal. rewrite (nth_indep _ g0 (s 0)) by (now rewrite map_length, seq_length).
  now rewrite map_nth, seq_nth by lia.
Qed.

Section Hankel.
Context (l : errs) (z : nat).
(** rows not yet used are combinations of the powers of the locators; row k of stage k
    is given by a monic polynomial of degree k orthogonal to the lower powers *)
Definition hstaged (k : nat) : Prop :=
  exists P : nat -> gf -> gf,
    (forall a b, k <= a < z -> b <= z -> steps k (hmat l) a b = psum l (fun x => P a x * gpow x b)%G) /\
    (forall a, k <= a < z -> monic a (P a)).

Lemma hstaged_0 : hstaged 0.
Proof.
  exists (fun a x => gpow x a). split.
  - intros a b Ha Hb. cbn [steps]. unfold hmat, synd. apply psum_ext. intros. apply gpow_add.
  - intros a _. exists []. split; [simpl; lia|]. intros x. cbn [peval]. ring.
Qed.

Lemma hstaged_S k : hstaged k -> k < z -> exact_row (steps k (hmat l)) z k -> hstaged (S k).
Proof.
  intros (P & H1 & H2) Hk [HP HE].
  set (M := steps k (hmat l)) in *.
  exists (fun a x => P a x + (M a k / M k k) * P k x)%G. split.
  - intros a b Ha Hb.
    rewrite (psum_ext l _ (fun x => P a x * gpow x b + (M a k / M k k) * (P k x * gpow x b))%G) by (intros; ring).
    rewrite psum_add, psum_mul, <- !H1 by lia. fold M. cbn [steps]. fold M. unfold step.
    destruct (Nat.leb_spec k b) as [Hkb|Hkb].
    + destruct (Nat.eqb_spec a k); [lia|]. destruct (Nat.ltb_spec k a); [|lia].
      rewrite HE by lia. field. exact HP.
    + destruct (lower_steps z k (hmat l) k b Hkb Hk) as [H0 _]. fold M in H0. rewrite H0 by auto. ring.
  - intros a Ha. apply monic_add_low; [apply H2; lia|]. apply (low_le (S k)); [lia|].
    apply low_scale, monic_low, H2. lia.
Qed.

Lemma hall k : k <= z -> exact_steps (hmat l) z k -> hstaged k.
Proof.
  induction k as [|k IH]; intros Hk HE; [apply hstaged_0|].
  apply hstaged_S; [|lia|apply HE; lia]. apply IH; [lia|]. intros i Hi. apply HE. lia.
Qed.

Hypothesis HN : NoDup (map fst l).
Hypothesis HNZ : forall x e, In (x, e) l -> e <> g0.
Hypothesis HV : length l <= z.

(** after as many pivots as there are errors the other rows are used up *)
Lemma hankel_rank : exact_steps (hmat l) z (length l) ->
  forall a b, length l <= a < z -> b <= z -> steps (length l) (hmat l) a b = g0.
Proof.
  intros HE a b Ha Hb. destruct (hall (length l) HV HE) as (P & H1 & _).
  rewrite H1 by lia.
  assert (HZ : forall x e, In (x, e) l -> (e * P a x)%G = g0).
  { apply (annihilate l (length l)); auto. intros j Hj. rewrite <- H1 by lia.
    destruct (lower_steps z (length l) (hmat l) a j Hj ltac:(lia)) as [H0 _]. apply H0. lia. }
  apply psum_0. intros x e HI. specialize (HZ x e HI). apply gmul_0 in HZ.
  destruct HZ as [HZ|HZ]; [now apply HNZ in HI|]. rewrite HZ. ring.
Qed.

Lemma solution_roots s : solves (hmat l) z s -> forall x e, In (x, e) l -> sigma z s x = g0.
Proof.
  intros HS x e HI.
  assert (HZ : forall x e, In (x, e) l -> (e * sigma z s x)%G = g0).
  { apply (annihilate l z); auto. intros i Hi. specialize (HS i Hi). unfold residual, hmat, synd in HS.
    rewrite <- HS at 1. unfold sigma.
    rewrite (psum_ext l _ (fun x => gsum z (fun j => s j * gpow x (i + j)) + gpow x (i + z))%G).
    - rewrite psum_add, psum_gsum. f_equal. apply gsum_ext. intros j Hj. rewrite psum_mul. ring.
    - intros y ey _. rewrite gpow_add.
      rewrite (gsum_ext z (fun j => s j * gpow y (i + j))%G (fun j => gpow y i * (s j * gpow y j))%G).
      + rewrite gsum_mul. ring.
      + intros j _. rewrite gpow_add. ring. }
  specialize (HZ x e HI). apply gmul_0 in HZ. destruct HZ as [HZ|HZ]; auto. now apply HNZ in HI.
Qed.

(** what the solver finds *)
Lemma hankel_solution s : exact_steps (hmat l) z (length l) ->
  (forall i, i < z -> row_ok (steps z (hmat l)) z s i) ->
  (forall x e, In (x, e) l -> sigma z s x = g0) /\
  (length l < z -> s (z - 1) = g1 /\ forall i, length l <= i < z - 1 -> s i = g0).
Proof.
  intros HE HO.
  destruct (solve_exact (hmat l) z (length l) s HV HE (hankel_rank HE) HO) as [HS HT].
  split; auto. now apply solution_roots.
Qed.
End Hankel.
