(** Pictures made of square modules: runs of pixels are runs of modules. *)
From Coq Require Import NArith ZArith List Lia Bool.
From Verif.Spec Require Import Finder Slant Cross Decoy.
From Verif.Proofs Require Import SoundP RowP.
Local Open Scope Z_scope.

Definition tone (b : bool) : N := if b then 0%N else 255%N.
Lemma tone_inj a b : tone a = tone b -> a = b.
Proof. destruct a, b; cbn; congruence. Qed.

Section Line.
Context (f : Z -> N) (M : Z -> bool) (m o n L : Z) (Hm : 1 <= m) (HF : forall t, 0 <= t < L -> f t = tone (M ((t - o) / m))).
Context (HO : 4 * m <= o) (HL : o + (n + 4) * m <= L) (Hn : 0 <= n) (M0 : forall t, t < 0 -> M t = false) (M1 : forall t, n <= t -> M t = false).

Lemma at_module c i : 0 <= i < m -> 0 <= o + c * m + i < L -> f (o + c * m + i) = tone (M c).
Proof. intros Hi H. rewrite HF by lia. f_equal. f_equal. symmetry. apply Z.div_unique with i; lia. Qed.
Lemma at_start c : 0 <= o + c * m < L -> f (o + c * m) = tone (M c).
Proof. intros H. pose proof (at_module c 0) as K. rewrite Z.add_0_r in K. apply K; lia. Qed.
Lemma in_module t : exists c i, 0 <= i < m /\ t = o + c * m + i.
Proof. exists ((t - o) / m), ((t - o) mod m). pose proof (Z.div_mod (t - o) m ltac:(lia)). pose proof (Z.mod_pos_bound (t - o) m ltac:(lia)). lia. Qed.

Lemma change t : 0 < t < L -> f (t - 1) <> f t -> exists c, t = o + c * m /\ M (c - 1) <> M c.
Proof.
  intros Ht N. destruct (in_module t) as (c & i & Hi & E). exists c. destruct (Z.eq_dec i 0) as [-> |NI].
  - split; [lia|]. intros K. apply N. assert (E1 : t - 1 = o + (c - 1) * m + (m - 1)) by lia. rewrite E1, E, !at_module by lia. now rewrite K.
  - exfalso. apply N. assert (E1 : t - 1 = o + c * m + (i - 1)) by lia. rewrite E1, E, !at_module by lia. reflexivity.
Qed.

Lemma plain_alike a b : 0 <= o + a * m -> o + b * m <= L -> plain f (o + a * m) (o + b * m) -> alike M a b.
Proof.
  intros HA HB (H & P). assert (a < b) by nia. split; [lia|]. intros t Ht. apply tone_inj.
  rewrite <- (at_start t), <- (at_start a) by nia. apply P. nia.
Qed.

Lemma stretch_change a b : 0 <= a -> b < L -> plain f a b -> f b <> f a -> exists c, b = o + c * m /\ M (c - 1) <> M c.
Proof. intros HA HB (H & P) N. apply change; [lia|]. rewrite (P (b - 1)) by lia. congruence. Qed.

Lemma differ a b : 0 <= o + a * m < L -> 0 <= o + b * m < L -> f (o + b * m) <> f (o + a * m) -> M b <> M a.
Proof. intros HA HB. rewrite !at_start by lia. congruence. Qed.

(** five stretches *)
Lemma stretches_modules a z : 0 <= a -> z <= L -> five_stretches f a z -> exists a' b' c' d' s t, three_runs M a' b' c' d' /\ 0 < s /\ 0 < t /\
  in_proportion s (m * (b' - a')) (m * (c' - b')) (m * (d' - c')) t /\ a = o + a' * m - s /\ z = o + d' * m + t.
Proof.
  intros HA HZ (b & c & d & e & P1 & P2 & P3 & P4 & P5 & N1 & N2 & N3 & N4 & FR).
  pose proof (proj1 P1). pose proof (proj1 P2). pose proof (proj1 P3). pose proof (proj1 P4). pose proof (proj1 P5).
  destruct (stretch_change a b HA ltac:(lia) P1 N1) as (a' & EB & C1). destruct (stretch_change b c ltac:(lia) ltac:(lia) P2 N2) as (b' & EC & _).
  destruct (stretch_change c d ltac:(lia) ltac:(lia) P3 N3) as (c' & ED & _). destruct (stretch_change d e ltac:(lia) ltac:(lia) P4 N4) as (d' & EE & _).
  subst b c d e. exists a', b', c', d', (o + a' * m - a), (z - (o + d' * m)).
  split; [|split; [lia|split; [lia|split; [|lia]]]].
  - unfold three_runs. splits; try (apply plain_alike; assumption || lia); try (apply differ; assumption || lia). exact C1.
  - destruct FR as (_ & FR). unfold in_proportion. cbv zeta in *.
    replace (m * (b' - a')) with (o + b' * m - (o + a' * m)) by lia. replace (m * (c' - b')) with (o + c' * m - (o + b' * m)) by lia. replace (m * (d' - c')) with (o + d' * m - (o + c' * m)) by lia. exact FR.
Qed.

(** five whole runs *)
Lemma runs_modules x a b c d e z : whole_runs f L x a b c d e z -> exists a' b' c' d' p q, three_runs M a' b' c' d' /\ run_before m M a' p /\ run_after m n M d' q /\
  in_proportion p (m * (b' - a')) (m * (c' - b')) (m * (d' - c')) q /\ a = o + a' * m - p /\ z = o + d' * m + q /\ z - 1 <= x <= z /\
  (forall r, alike M r a' -> 0 <= r -> M (r - 1) <> M r -> a = o + r * m) /\
  (forall r, alike M d' r -> r <= n -> M r <> M d' -> z = o + r * m /\ x = z).
Proof.
  intros (HA & HZ & (P1 & P2 & P3 & P4 & P5) & N1 & N2 & N3 & N4 & FR & NA & NZ).
  pose proof (proj1 P1). pose proof (proj1 P2). pose proof (proj1 P3). pose proof (proj1 P4). pose proof (proj1 P5).
  destruct (stretch_change a b HA ltac:(lia) P1 N1) as (a' & EB & C1). destruct (stretch_change b c ltac:(lia) ltac:(lia) P2 N2) as (b' & EC & _).
  destruct (stretch_change c d ltac:(lia) ltac:(lia) P3 N3) as (c' & ED & _). destruct (stretch_change d e ltac:(lia) ltac:(lia) P4 N4) as (d' & EE & _).
  subst b c d e. exists a', b', c', d', (o + a' * m - a), (z - (o + d' * m)).
  assert (TR : three_runs M a' b' c' d').
  { unfold three_runs. splits; try (apply plain_alike; assumption || lia); try (apply differ; assumption || lia). exact C1. }
  splits; try lia; auto.
  - (* before *) destruct (Z.eq_dec a 0) as [-> |NA0].
    + right. split; [|lia]. intros t Ht. destruct (Z_lt_le_dec t 0) as [|T0]; [auto|]. apply tone_inj. rewrite <- (M0 (-1)) by lia.
      rewrite <- (at_start t), <- (at_start (-1)) by nia. destruct P1 as [_ P1]. rewrite (P1 (o + t * m)), (P1 (o + -1 * m)) by nia. reflexivity.
    + left. destruct (change a ltac:(lia) (NA ltac:(lia))) as (c0 & E0 & C0). exists c0. subst a. split; [apply plain_alike; auto; lia|]. split; [exact C0|lia].
  - (* after *) destruct NZ as [(Z1 & _ & Z2)|(Z1 & _)].
    + left. destruct (stretch_change (o + d' * m) z ltac:(lia) ltac:(lia) P5 Z2) as (c5 & E5 & _). exists c5. subst z. split; [apply plain_alike; auto; lia|].
      split; [apply differ; auto; lia|lia].
    + right. split; [|lia]. intros t Ht. destruct (Z_lt_le_dec t n) as [T0|]; [|auto]. apply tone_inj. rewrite <- (M1 n) by lia.
      rewrite <- (at_start t), <- (at_start n) by nia. destruct P5 as [_ P5]. rewrite (P5 (o + t * m)), (P5 (o + n * m)) by nia. reflexivity.
  - destruct FR as (_ & FR). unfold in_proportion. cbv zeta in *.
    replace (m * (b' - a')) with (o + b' * m - (o + a' * m)) by lia. replace (m * (c' - b')) with (o + c' * m - (o + b' * m)) by lia. replace (m * (d' - c')) with (o + d' * m - (o + c' * m)) by lia. exact FR.
  - intros r (R1 & R2) R0 R3. destruct P1 as [_ P1]. destruct (Z.lt_trichotomy a (o + r * m)) as [K|[K|K]]; [|exact K|].
    + exfalso. apply R3. apply tone_inj. rewrite <- (at_start r) by nia. pose proof (at_module (r - 1) (m - 1) ltac:(lia) ltac:(nia)) as Q. rewrite <- Q.
      replace (o + (r - 1) * m + (m - 1)) with (o + r * m - 1) by lia. rewrite (P1 (o + r * m - 1)), (P1 (o + r * m)) by nia. reflexivity.
    + exfalso. destruct (change a ltac:(nia) (NA ltac:(nia))) as (c0 & E0 & C0). assert (r < c0 < a') by (split; apply (Zmult_lt_reg_r _ _ m); lia). apply C0. rewrite (R2 (c0 - 1)), (R2 c0) by lia. reflexivity.
  - intros r (R1 & R2) R0 R3. assert (RM : r * m <= n * m) by (apply Z.mul_le_mono_nonneg_r; lia).
    assert (DR : d' * m < r * m) by (apply Z.mul_lt_mono_pos_r; lia).
    assert (KZ : z = o + r * m); [|lia]. destruct (Z.lt_trichotomy z (o + r * m)) as [K|[K|K]]; [|exact K|].
    + exfalso. assert (Z1 : z < L) by lia. destruct NZ as [(_ & _ & Z2)|(Z2 & _)]; [|lia].
      destruct (stretch_change (o + d' * m) z ltac:(lia) ltac:(lia) P5 Z2) as (c5 & E5 & C5). assert (d' < c5 < r) by (split; apply (Zmult_lt_reg_r _ _ m); lia).
      apply C5. rewrite (R2 (c5 - 1)), (R2 c5) by lia. reflexivity.
    + exfalso. apply R3. apply tone_inj. rewrite <- (at_start r), <- (at_start d') by lia. destruct P5 as [_ P5]. apply P5. lia.
Qed.

(** steady lines *)
Lemma steady_line : steady_modules M -> steady f (L - 1).
Proof.
  intros HS a b d Ha Hb A NA NB B ND.
  destruct (change a ltac:(lia) NA) as (c0 & E0 & C0). destruct (stretch_change a b ltac:(lia) ltac:(lia) (conj (proj2 Ha) A) NB) as (c1 & E1 & C1).
  destruct (stretch_change b d ltac:(lia) ltac:(lia) (conj (proj1 Hb) B) ND) as (c2 & E2 & C2). subst a b d.
  assert (K : c1 - c0 <= 10 * (c2 - c1)); [|clear - K Hm; nia].
  apply (HS c0 c1 c2); auto.
  - apply plain_alike; [lia|lia|]. split; [lia|exact A].
  - apply plain_alike; [lia|lia|]. split; [lia|exact B].
  - apply differ; auto; lia.
  - apply differ; auto; lia.
Qed.
End Line.
