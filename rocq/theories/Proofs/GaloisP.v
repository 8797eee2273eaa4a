(** The operations of galois.rs form the field GF(256). *)
From Coq Require Import Lia Ring Field Btauto.
From Verif.Model Require Import Galois.
From Verif.Spec Require Import GF256.
From Verif.Proofs Require Import BaseP BitsP.
Open Scope N_scope.

(** *** Multiplication by x *)
Definition xt (a : N) : N := if N.testbit a 7 then N.lxor (N.double a) 285 else N.double a.

Lemma double_lxor a b : N.double (N.lxor a b) = N.lxor (N.double a) (N.double b).
Proof.
  apply N.bits_inj. intros n. rewrite N.lxor_spec. destruct (N.eq_dec n 0) as [->|Hn].
  - now rewrite !N.double_bits_succ || rewrite !N.testbit_even_0 || (rewrite !N.double_spec, !N.testbit_even_0).
  - replace n with (N.succ (N.pred n)) by lia. now rewrite !N.double_bits_succ, N.lxor_spec.
Qed.

Lemma xt_lxor a b : xt (N.lxor a b) = N.lxor (xt a) (xt b).
Proof.
  unfold xt. rewrite N.lxor_spec, double_lxor.
  destruct (N.testbit a 7), (N.testbit b 7); cbn [xorb].
  - rewrite (N.lxor_assoc (N.double a)), (N.lxor_comm 285), N.lxor_assoc, N.lxor_nilpotent.
    now rewrite N.lxor_0_r.
  - rewrite !N.lxor_assoc. f_equal. apply N.lxor_comm.
  - now rewrite !N.lxor_assoc.
  - reflexivity.
Qed.

Lemma xt_byte a : a < 256 -> xt a < 256.
Proof.
  intros H. exact (proj1 (N.ltb_lt _ _) (forall_byte (fun a => xt a <? 256) ltac:(vm_compute; reflexivity) a H)).
Qed.

(** *** The tables *)
Lemma exp_succ i : i < 255 -> exp8 ((i + 1) mod 255) = xt (exp8 i).
Proof.
  intros H.
  assert (T : forallb (fun i => exp8 ((N.of_nat i + 1) mod 255) =? xt (exp8 (N.of_nat i))) (seq 0 255) = true)
    by (vm_compute; reflexivity).
  pose proof (forall_nat_lt _ _ T (N.to_nat i) ltac:(lia)) as E. cbv beta in E.
  rewrite N2Nat.id in E. now apply N.eqb_eq.
Qed.

Lemma exp_range i : i < 255 -> 0 < exp8 i < 256 /\ log8 (exp8 i) = i.
Proof.
  intros H.
  assert (T : forallb (fun i => (0 <? exp8 (N.of_nat i)) && (exp8 (N.of_nat i) <? 256) &&
                 (log8 (exp8 (N.of_nat i)) =? N.of_nat i)) (seq 0 255) = true)
    by (vm_compute; reflexivity).
  pose proof (forall_nat_lt _ _ T (N.to_nat i) ltac:(lia)) as E. cbv beta in E.
  rewrite N2Nat.id, !andb_true_iff, !N.ltb_lt, N.eqb_eq in E. tauto.
Qed.

Lemma log_range a : 0 < a < 256 -> log8 a < 255 /\ exp8 (log8 a) = a.
Proof.
  intros H.
  assert (T : forallb (fun a => (a =? 0)%nat || ((log8 (N.of_nat a) <? 255) && (exp8 (log8 (N.of_nat a)) =? N.of_nat a)))
                (seq 0 256) = true) by (vm_compute; reflexivity).
  pose proof (forall_nat_lt _ _ T (N.to_nat a) ltac:(lia)) as E. cbv beta in E.
  rewrite N2Nat.id, orb_true_iff, !andb_true_iff, N.ltb_lt, N.eqb_eq, Nat.eqb_eq in E.
  destruct E as [E|E]; [lia|tauto].
Qed.

Lemma gf8_mul_0_l a : gf8_mul 0 a = 0.
Proof. reflexivity. Qed.
Lemma gf8_mul_0_r a : gf8_mul a 0 = 0.
Proof. unfold gf8_mul. rewrite orb_comm. reflexivity. Qed.

Lemma gf8_mul_exp i j : i < 255 -> j < 255 -> gf8_mul (exp8 i) (exp8 j) = exp8 ((i + j) mod 255).
Proof.
  intros Hi Hj. destruct (exp_range i Hi) as [[A1 A2] A3]. destruct (exp_range j Hj) as [[B1 B2] B3].
  unfold gf8_mul. destruct (N.eqb_spec (exp8 i) 0); [lia|]. destruct (N.eqb_spec (exp8 j) 0); [lia|].
  cbn [orb]. now rewrite A3, B3.
Qed.

Lemma mod255 i : i mod 255 < 255.
Proof. apply N.mod_lt. lia. Qed.

(** induction over the elements: zero and the powers of x *)
Lemma gf8_cases a : a < 256 -> a = 0 \/ exists i, i < 255 /\ a = exp8 i.
Proof.
  intros H. destruct (N.eq_dec a 0) as [->|Hn]; [now left|right].
  exists (log8 a). destruct (log_range a ltac:(lia)). auto.
Qed.

Lemma gf8_mul_byte a b : a < 256 -> b < 256 -> gf8_mul a b < 256.
Proof.
  intros Ha Hb. destruct (gf8_cases a Ha) as [->|(i & Hi & ->)]; [rewrite gf8_mul_0_l; lia|].
  destruct (gf8_cases b Hb) as [->|(j & Hj & ->)]; [rewrite gf8_mul_0_r; lia|].
  rewrite gf8_mul_exp by auto. apply exp_range, mod255.
Qed.

Lemma gf8_mul_comm a b : gf8_mul a b = gf8_mul b a.
Proof. unfold gf8_mul. now rewrite orb_comm, N.add_comm. Qed.

Lemma gf8_mul_assoc a b c : a < 256 -> b < 256 -> c < 256 ->
  gf8_mul a (gf8_mul b c) = gf8_mul (gf8_mul a b) c.
Proof.
  intros Ha Hb Hc. destruct (gf8_cases a Ha) as [->|(i & Hi & ->)]; [reflexivity|].
  destruct (gf8_cases b Hb) as [->|(j & Hj & ->)]; [now rewrite gf8_mul_0_l, !gf8_mul_0_r, gf8_mul_0_l|].
  destruct (gf8_cases c Hc) as [->|(k & Hk & ->)]; [now rewrite !gf8_mul_0_r|].
  rewrite !gf8_mul_exp by auto using mod255. f_equal.
  rewrite N.add_mod_idemp_l, N.add_mod_idemp_r by lia. f_equal. lia.
Qed.

Lemma gf8_mul_1_l a : a < 256 -> gf8_mul 1 a = a.
Proof.
  intros Ha. destruct (gf8_cases a Ha) as [->|(i & Hi & ->)]; [reflexivity|].
  change 1 with (exp8 0). rewrite gf8_mul_exp by lia. f_equal. apply N.mod_small. lia.
Qed.

Lemma gf8_mul_2 a : a < 256 -> gf8_mul 2 a = xt a.
Proof.
  intros Ha. destruct (gf8_cases a Ha) as [->|(i & Hi & ->)]; [reflexivity|].
  change 2 with (exp8 1). rewrite gf8_mul_exp by lia. rewrite N.add_comm. now apply exp_succ.
Qed.

Lemma lxor_byte a b : a < 256 -> b < 256 -> N.lxor a b < 256.
Proof.
  intros Ha Hb. destruct (N.eq_dec (N.lxor a b) 0) as [->|Hn]; [lia|].
  apply N.log2_lt_pow2 with (b := 8); [lia|].
  eapply N.le_lt_trans; [apply N.log2_lxor|].
  apply N.max_lub_lt.
  - destruct (N.eq_dec a 0) as [->|]; [reflexivity|]. apply N.log2_lt_pow2; [lia|exact Ha].
  - destruct (N.eq_dec b 0) as [->|]; [reflexivity|]. apply N.log2_lt_pow2; [lia|exact Hb].
Qed.

Lemma gf8_mul_lxor_exp (i : nat) b c : (i < 255)%nat -> b < 256 -> c < 256 ->
  gf8_mul (exp8 (N.of_nat i)) (N.lxor b c) =
  N.lxor (gf8_mul (exp8 (N.of_nat i)) b) (gf8_mul (exp8 (N.of_nat i)) c).
Proof.
  intros Hi Hb Hc. induction i as [|i IH].
  - change (exp8 (N.of_nat 0)) with 1. rewrite !gf8_mul_1_l by auto using lxor_byte. reflexivity.
  - assert (E : exp8 (N.of_nat (S i)) = gf8_mul 2 (exp8 (N.of_nat i))).
    { rewrite gf8_mul_2 by (apply exp_range; lia). rewrite <- exp_succ by lia. f_equal.
      rewrite N.mod_small; lia. }
    assert (HB : exp8 (N.of_nat i) < 256) by (apply exp_range; lia).
    rewrite E. rewrite <- !gf8_mul_assoc by (auto using lxor_byte; lia).
    rewrite IH by lia. rewrite !gf8_mul_2 by auto using gf8_mul_byte, lxor_byte.
    apply xt_lxor.
Qed.

Lemma gf8_mul_lxor a b c : a < 256 -> b < 256 -> c < 256 ->
  gf8_mul a (N.lxor b c) = N.lxor (gf8_mul a b) (gf8_mul a c).
Proof.
  intros Ha Hb Hc. destruct (gf8_cases a Ha) as [->|(i & Hi & ->)]; [reflexivity|].
  rewrite <- (N2Nat.id i). apply gf8_mul_lxor_exp; auto. lia.
Qed.

(** *** The product is the one of polynomials *)
Lemma lxor4 a b c d : N.lxor (N.lxor a b) (N.lxor c d) = N.lxor (N.lxor a c) (N.lxor b d).
Proof. apply N.bits_inj. intros n. rewrite !N.lxor_spec. btauto. Qed.

Lemma pmul_double a b : pmul (N.double a) b = N.double (pmul a b).
Proof. destruct a; reflexivity. Qed.

Fixpoint red (a : positive) : N :=
  match a with
  | xH => 1
  | xO a => xt (red a)
  | xI a => N.lxor 1 (xt (red a))
  end.

Lemma red_byte a : red a < 256.
Proof. induction a; cbn [red]; [apply lxor_byte; [lia|]| |lia]; now apply xt_byte. Qed.

Lemma red_id a : 0 < a < 256 -> match a with N0 => 0 | Npos p => red p end = a.
Proof.
  intros H.
  apply (proj1 (N.eqb_eq _ _)).
  exact (forall_byte (fun a => match a with N0 => 0 | Npos p => red p end =? a)
           ltac:(vm_compute; reflexivity) a ltac:(lia)).
Qed.

Lemma congruent_xt p g : congruent modulus p g -> congruent modulus (N.double p) (xt g).
Proof.
  intros [q E]. unfold xt. destruct (N.testbit g 7).
  - exists (N.succ_double q). rewrite <- N.lxor_assoc, <- double_lxor, E.
    destruct q; [reflexivity|]. cbn [N.succ_double pmul pmul_pos]. apply N.lxor_comm.
  - exists (N.double q). now rewrite <- double_lxor, E, pmul_double.
Qed.

Lemma pmul_red a b : b < 256 -> congruent modulus (pmul (Npos a) b) (gf8_mul (red a) b).
Proof.
  intros Hb. induction a as [a IH|a IH|].
  - cbn [red]. rewrite gf8_mul_comm, gf8_mul_lxor, (gf8_mul_comm b 1), gf8_mul_1_l, (gf8_mul_comm b)
      by (auto using xt_byte, red_byte; lia).
    rewrite <- gf8_mul_2, <- gf8_mul_assoc, gf8_mul_2
      by (auto using red_byte, gf8_mul_byte; lia).
    destruct (congruent_xt _ _ IH) as [q E]. exists q. rewrite <- E.
    cbn [pmul pmul_pos]. rewrite lxor4, N.lxor_nilpotent. apply N.lxor_0_l.
  - cbn [red]. rewrite <- gf8_mul_2, <- gf8_mul_assoc, gf8_mul_2
      by (auto using red_byte, gf8_mul_byte; lia).
    exact (congruent_xt _ _ IH).
  - exists 0. cbn [red pmul pmul_pos]. rewrite gf8_mul_1_l by auto. apply N.lxor_nilpotent.
Qed.

Lemma gf8_mul_product a b : a < 256 -> b < 256 -> is_product a b (gf8_mul a b).
Proof.
  intros Ha Hb. split; [now apply gf8_mul_byte|].
  destruct a as [|a]; [exists 0; reflexivity|].
  pose proof (red_id (Npos a) ltac:(lia)) as E. cbv beta iota in E.
  pose proof (pmul_red a b Hb) as H. now rewrite E in H.
Qed.

(** *** Division *)
Lemma gf8_div_exp i j : i < 255 -> j < 255 -> gf8_div (exp8 i) (exp8 j) = exp8 ((i + (255 - j)) mod 255).
Proof.
  intros Hi Hj. unfold gf8_div.
  destruct (exp_range i Hi) as [_ ->]. destruct (exp_range j Hj) as [_ ->]. f_equal.
  destruct (Z.ltb_spec (Z.of_N i - Z.of_N j) 0).
  - rewrite Z.mod_small by lia. rewrite N.mod_small by lia. lia.
  - rewrite Z.mod_small by lia. replace (i + (255 - j)) with (i - j + 1 * 255) by lia.
    rewrite N.mod_add, N.mod_small by lia. lia.
Qed.

Lemma gf8_div_ok a b : 0 < a < 256 -> 0 < b < 256 -> gf8_mul (gf8_div a b) b = a.
Proof.
  intros Ha Hb. destruct (gf8_cases a ltac:(lia)) as [->|(i & Hi & ->)]; [lia|].
  destruct (gf8_cases b ltac:(lia)) as [->|(j & Hj & ->)]; [lia|].
  rewrite gf8_div_exp, gf8_mul_exp by auto using mod255. f_equal.
  rewrite N.add_mod_idemp_l by lia. replace (i + (255 - j) + j) with (i + 1 * 255) by lia.
  rewrite N.mod_add, N.mod_small by lia. reflexivity.
Qed.

Lemma gf8_div_byte a b : a < 256 -> b < 256 -> gf8_div a b < 256.
Proof.
  intros Ha Hb. unfold gf8_div. apply exp_range.
  assert (0 <= (if Z.of_N (log8 a) - Z.of_N (log8 b) <? 0
    then Z.of_N (log8 a) - Z.of_N (log8 b) + 255
    else Z.of_N (log8 a) - Z.of_N (log8 b)) mod 255 < 255)%Z by (apply Z.mod_pos_bound; lia). lia.
Qed.

(** the quotients with a zero *)
Lemma gf8_div_0_l b : 0 < b < 256 -> gf8_mul (gf8_div 0 b) b = 1.
Proof.
  intros Hb. destruct (gf8_cases b ltac:(lia)) as [->|(j & Hj & ->)]; [lia|].
  assert (E : gf8_div 0 (exp8 j) = exp8 ((255 - j) mod 255)).
  { unfold gf8_div. destruct (exp_range j Hj) as [_ ->]. change (log8 0) with 255. f_equal.
    destruct (Z.ltb_spec (Z.of_N 255 - Z.of_N j) 0); [lia|].
    rewrite Z2N.inj_mod by lia. f_equal. lia. }
  rewrite E, gf8_mul_exp by auto using mod255. rewrite N.add_mod_idemp_l by lia.
  replace (255 - j + j) with 255 by lia. reflexivity.
Qed.

Lemma gf8_div_0_r a : 0 < a < 256 -> gf8_div a 0 = a.
Proof.
  intros Ha. destruct (gf8_cases a ltac:(lia)) as [->|(i & Hi & ->)]; [lia|].
  unfold gf8_div. destruct (exp_range i Hi) as [_ ->]. change (log8 0) with 255. f_equal.
  destruct (Z.ltb_spec (Z.of_N i - Z.of_N 255) 0); [|lia].
  rewrite Z.mod_small; lia.
Qed.

Lemma gf8_div_0_0 : gf8_div 0 0 = 1.
Proof. reflexivity. Qed.

(** *** The field as a type *)
Record gf := mkgf { gv : N; gok : (gv <? 256) = true }.

Lemma gv_inj a b : gv a = gv b -> a = b.
Proof.
  destruct a as [a Ha], b as [b Hb]. simpl. intros <-. f_equal. apply Eqdep_dec.UIP_dec. decide equality.
Qed.
Lemma gv_lt a : gv a < 256.
Proof. destruct a as [a Ha]. simpl. now apply N.ltb_lt. Qed.
Lemma gv_mk a H : gv (mkgf a H) = a.
Proof. reflexivity. Qed.

Definition mk (a : N) (H : a < 256) : gf := mkgf a (proj2 (N.ltb_lt _ _) H).
Definition g0 : gf := mkgf 0 eq_refl.
Definition g1 : gf := mkgf 1 eq_refl.
Definition gadd (a b : gf) : gf := mk _ (lxor_byte _ _ (gv_lt a) (gv_lt b)).
Definition gmul (a b : gf) : gf := mk _ (gf8_mul_byte _ _ (gv_lt a) (gv_lt b)).
(** the division of the code *)
Definition dv (a b : gf) : gf := mk _ (gf8_div_byte _ _ (gv_lt a) (gv_lt b)).
Definition ginv (a : gf) : gf := dv g1 a.
Definition gdiv (a b : gf) : gf := gmul a (ginv b).

Lemma gv_add a b : gv (gadd a b) = gf8_add (gv a) (gv b). Proof. reflexivity. Qed.
Lemma gv_mul a b : gv (gmul a b) = gf8_mul (gv a) (gv b). Proof. reflexivity. Qed.
Lemma gv_dv a b : gv (dv a b) = gf8_div (gv a) (gv b). Proof. reflexivity. Qed.

Lemma gf_eq_dec (a b : gf) : {a = b} + {a <> b}.
Proof.
  destruct (N.eq_dec (gv a) (gv b)) as [E|E]; [left; now apply gv_inj|right; congruence].
Defined.

Lemma gf_pos a : a <> g0 -> 0 < gv a < 256.
Proof.
  intros H. split; [|apply gv_lt]. destruct (N.eq_dec (gv a) 0) as [E|E]; [|lia].
  exfalso. apply H. now apply gv_inj.
Qed.

Lemma gf_semi : ring_theory g0 g1 gadd gmul gadd (fun a => a) eq.
Proof.
  constructor; intros; apply gv_inj; rewrite ?gv_add, ?gv_mul; unfold gf8_add.
  - apply N.lxor_0_l.
  - apply N.lxor_comm.
  - now rewrite N.lxor_assoc.
  - apply gf8_mul_1_l, gv_lt.
  - apply gf8_mul_comm.
  - apply gf8_mul_assoc; apply gv_lt.
  - rewrite gv_add. unfold gf8_add.
    rewrite (gf8_mul_comm _ (gv z)), gf8_mul_lxor by apply gv_lt.
    f_equal; apply gf8_mul_comm.
  - reflexivity.
  - apply N.lxor_nilpotent.
Qed.

Lemma gf_field : field_theory g0 g1 gadd gmul gadd (fun a => a) gdiv ginv eq.
Proof.
  constructor.
  - apply gf_semi.
  - intros E. apply (f_equal gv) in E. discriminate E.
  - reflexivity.
  - intros p H. apply gv_inj. rewrite gv_mul. unfold ginv. rewrite gv_dv.
    apply (gf8_div_ok 1); [lia|]. now apply gf_pos.
Qed.

(** coefficients in GF(2), so that [ring] knows a + a = 0 *)
Definition gbit (b : bool) : gf := if b then g1 else g0.
Lemma gf_morph : ring_morph g0 g1 gadd gmul gadd (fun a => a) eq
  false true xorb andb xorb (fun b => b) Bool.eqb gbit.
Proof.
  constructor; try reflexivity; try (intros [] []; apply gv_inj; reflexivity).
  intros [] []; intros H; try discriminate; reflexivity.
Qed.
Ltac gf_cst t := match t with g0 => constr:(false) | g1 => constr:(true) | _ => constr:(InitialRing.NotConstant) end.
Add Field gf_f : gf_field (morphism gf_morph, constants [gf_cst]).

Declare Scope gf_scope.
Delimit Scope gf_scope with G.
Bind Scope gf_scope with gf.
Notation "a + b" := (gadd a b) : gf_scope.
Notation "a * b" := (gmul a b) : gf_scope.
Notation "a / b" := (gdiv a b) : gf_scope.

Lemma gadd_self a : (a + a)%G = g0.
Proof. ring. Qed.
Lemma gadd_0_eq a b : (a + b)%G = g0 -> a = b.
Proof. intros H. replace a with ((a + b) + b)%G by ring. rewrite H. ring. Qed.

Lemma gmul_0 a b : (a * b)%G = g0 -> a = g0 \/ b = g0.
Proof.
  intros H. destruct (gf_eq_dec a g0) as [|Ha]; [now left|right].
  replace b with ((a * b) / a)%G by (field; exact Ha). rewrite H. field. exact Ha.
Qed.

(** the code's division is the field's, except for a zero dividend or divisor *)
Lemma dv_ok a b : a <> g0 -> b <> g0 -> dv a b = (a / b)%G.
Proof.
  intros Ha Hb. assert (E : (dv a b * b)%G = a).
  { apply gv_inj. rewrite gv_mul, gv_dv. apply gf8_div_ok; now apply gf_pos. }
  rewrite <- E at 2. field. exact Hb.
Qed.
Lemma dv_0_l b : b <> g0 -> dv g0 b = (g1 / b)%G.
Proof.
  intros Hb. assert (E : (dv g0 b * b)%G = g1).
  { apply gv_inj. rewrite gv_mul, gv_dv. apply gf8_div_0_l; now apply gf_pos. }
  rewrite <- E. field. exact Hb.
Qed.
Lemma dv_0_r a : a <> g0 -> dv a g0 = a.
Proof. intros Ha. apply gv_inj. rewrite gv_dv. apply gf8_div_0_r. now apply gf_pos. Qed.
Lemma dv_0_0 : dv g0 g0 = g1.
Proof. now apply gv_inj. Qed.

(** *** Powers of the generator *)
Fixpoint gpow (a : gf) (n : nat) : gf :=
  match n with O => g1 | S n => (a * gpow a n)%G end.

Lemma exp_gok i : (exp8 (i mod 255) <? 256) = true.
Proof. apply N.ltb_lt, exp_range, mod255. Qed.
Definition alpha (i : nat) : gf := mkgf (exp8 (N.of_nat i mod 255)) (exp_gok _).

Lemma alpha_0 : alpha 0 = g1.
Proof. now apply gv_inj. Qed.
Lemma alpha_add i j : alpha (i + j) = (alpha i * alpha j)%G.
Proof.
  apply gv_inj. rewrite gv_mul. unfold alpha. rewrite !gv_mk. rewrite gf8_mul_exp by apply mod255. f_equal.
  rewrite N.add_mod_idemp_l, N.add_mod_idemp_r by lia. f_equal. lia.
Qed.
Lemma alpha_pow i k : gpow (alpha i) k = alpha (k * i).
Proof.
  induction k as [|k IH]; [symmetry; apply alpha_0|].
  cbn [gpow]. rewrite IH. change (S k * i)%nat with (i + k * i)%nat. now rewrite alpha_add.
Qed.
Lemma alpha_neq0 i : alpha i <> g0.
Proof.
  intros E. apply (f_equal gv) in E. unfold alpha in E. rewrite gv_mk in E. simpl in E.
  destruct (exp_range (N.of_nat i mod 255) (mod255 _)) as [[H _] _]. lia.
Qed.
Lemma alpha_inj i j : (i < 255)%nat -> (j < 255)%nat -> alpha i = alpha j -> i = j.
Proof.
  intros Hi Hj E. apply (f_equal gv) in E. unfold alpha in E. rewrite !gv_mk in E.
  rewrite !N.mod_small in E by lia. apply (f_equal log8) in E.
  destruct (exp_range (N.of_nat i)) as [_ E1]; [lia|]. destruct (exp_range (N.of_nat j)) as [_ E2]; [lia|].
  rewrite E1, E2 in E. lia.
Qed.
Lemma gv_alpha i : (i < 255)%nat -> gv (alpha i) = exp8 (N.of_nat i).
Proof. intros H. unfold alpha. rewrite gv_mk. now rewrite N.mod_small by lia. Qed.
Lemma get_EXP8 i : (i < 255)%nat -> get EXP8 i = Ok (gv (alpha i)).
Proof.
  intros H. rewrite gv_alpha by auto. unfold exp8. rewrite Nat2N.id. apply get_nth.
  change (length EXP8) with 256%nat. lia.
Qed.

(** *** The operations of the specification *)
Lemma times_x_xt a : a < 256 -> times_x a = xt a.
Proof.
  intros H. apply (proj1 (N.eqb_eq _ _)).
  exact (forall_byte (fun a => times_x a =? xt a) ltac:(vm_compute; reflexivity) a H).
Qed.

Lemma fmul_red a b : b < 256 -> fmul_pos a b = gf8_mul (red a) b.
Proof.
  intros Hb. induction a as [a IH|a IH|]; cbn [fmul_pos red].
  - rewrite IH, times_x_xt by auto using gf8_mul_byte, red_byte.
    rewrite (gf8_mul_comm (N.lxor _ _)), gf8_mul_lxor, (gf8_mul_comm b 1), gf8_mul_1_l, (gf8_mul_comm b)
      by (auto using xt_byte, red_byte; lia).
    rewrite <- (gf8_mul_2 (red a)), <- gf8_mul_assoc, gf8_mul_2
      by (auto using red_byte, gf8_mul_byte; lia). reflexivity.
  - rewrite IH, times_x_xt by auto using gf8_mul_byte, red_byte.
    rewrite <- (gf8_mul_2 (red a)), <- gf8_mul_assoc, gf8_mul_2
      by (auto using red_byte, gf8_mul_byte; lia). reflexivity.
  - now rewrite gf8_mul_1_l.
Qed.

Lemma fmul_gf8 a b : a < 256 -> b < 256 -> fmul a b = gf8_mul a b.
Proof.
  intros Ha Hb. destruct a as [|a]; [reflexivity|]. unfold fmul. rewrite fmul_red by auto.
  pose proof (red_id (Npos a) ltac:(lia)) as E. cbv beta iota in E. now rewrite E.
Qed.

Lemma fpow_alpha i : fpow 2 i = gv (alpha i).
Proof.
  induction i as [|i IH]; [reflexivity|]. cbn [fpow]. rewrite IH.
  rewrite fmul_gf8 by (lia || apply gv_lt). replace (S i) with (1 + i)%nat by lia.
  rewrite alpha_add. reflexivity.
Qed.
