(** Facts about bit strings. *)
From Coq Require Import List NArith ZArith Bool Lia.
From Verif.Spec Require Import Bits.
Import ListNotations.
Open Scope N_scope.

Definition bytes256 : list N := map N.of_nat (seq 0 256).

Lemma forall_byte (P : N -> bool) :
  forallb P bytes256 = true -> forall b, b < 256 -> P b = true.
Proof.
  intros H b Hb. rewrite forallb_forall in H. apply H.
  unfold bytes256. apply in_map_iff. exists (N.to_nat b). split; [lia|].
  apply in_seq. split; lia.
Qed.

Lemma forall_nat_lt (P : nat -> bool) n :
  forallb P (seq 0 n) = true -> forall i, (i < n)%nat -> P i = true.
Proof.
  intros H i Hi. rewrite forallb_forall in H. apply H. apply in_seq. lia.
Qed.

Lemma byte_bits_length b : length (byte_bits b) = 8%nat.
Proof. reflexivity. Qed.

Lemma bits_length l : length (bits l) = (8 * length l)%nat.
Proof. induction l as [|a l IH]; [reflexivity|]. 
  change (bits (a :: l)) with (byte_bits a ++ bits l).
  rewrite app_length, IH. simpl. lia. Qed.

Lemma bits_app a b : bits (a ++ b) = bits a ++ bits b.
Proof. unfold bits. now rewrite flat_map_app. Qed.

Lemma bval_acc l a : fold_left (fun (a : N) (b : bool) => 2 * a + (if b then 1 else 0)) l a
                     = a * 2 ^ N.of_nat (length l) + bval l.
Proof.
  unfold bval. revert a. induction l as [|b l IH]; intros a; cbn [fold_left length].
  - change (2 ^ N.of_nat 0) with 1. lia.
  - rewrite IH. rewrite (IH (2 * 0 + _)).
    rewrite Nat2N.inj_succ, N.pow_succ_r'. destruct b; lia.
Qed.

Lemma bval_app a b : bval (a ++ b) = bval a * 2 ^ N.of_nat (length b) + bval b.
Proof. unfold bval at 1. rewrite fold_left_app. fold (bval a). apply bval_acc. Qed.

Lemma bval_cons b l : bval (b :: l) = (if b then 1 else 0) * 2 ^ N.of_nat (length l) + bval l.
Proof. change (b :: l) with ([b] ++ l). rewrite bval_app. now destruct b. Qed.

Lemma bval_bound l : bval l < 2 ^ N.of_nat (length l).
Proof.
  induction l as [|b l IH]; [reflexivity|].
  rewrite bval_cons. cbn [length]. rewrite Nat2N.inj_succ, N.pow_succ_r'.
  destruct b; lia.
Qed.

Lemma bval_firstn_byte b n : b < 256 -> (n <= 8)%nat ->
  bval (firstn n (byte_bits b)) = N.shiftr b (8 - N.of_nat n).
Proof.
  intros Hb Hn.
  assert (H : forallb (fun b => forallb (fun n =>
     N.eqb (bval (firstn n (byte_bits b))) (N.shiftr b (8 - N.of_nat n))) (seq 0 9)) bytes256
     = true) by (vm_compute; reflexivity).
  pose proof (forall_byte _ H b Hb) as H1. cbv beta in H1.
  pose proof (forall_nat_lt _ _ H1 n ltac:(lia)) as H2. now apply N.eqb_eq.
Qed.

Lemma bval_byte b : b < 256 -> bval (byte_bits b) = b.
Proof.
  intros Hb. pose proof (bval_firstn_byte b 8 Hb ltac:(lia)) as H.
  rewrite firstn_all2 in H by (rewrite byte_bits_length; lia).
  rewrite H. apply N.shiftr_0_r.
Qed.

Definition list_beq := list_eq_dec bool_dec.

Lemma byte_bits_shl b k : b < 256 -> (k <= 8)%nat ->
  byte_bits ((N.shiftl b (N.of_nat k)) mod 256) = skipn k (byte_bits b) ++ repeat false k.
Proof.
  intros Hb Hk.
  assert (H : forallb (fun b => forallb (fun k =>
     if list_beq (byte_bits ((N.shiftl b (N.of_nat k)) mod 256))
             (skipn k (byte_bits b) ++ repeat false k) then true else false) (seq 0 9)) bytes256
     = true) by (vm_compute; reflexivity).
  pose proof (forall_byte _ H b Hb) as H1. cbv beta in H1.
  pose proof (forall_nat_lt _ _ H1 k ltac:(lia)) as H2. cbv beta in H2.
  destruct (list_beq _ _); [assumption|discriminate].
Qed.

Lemma nbits_length k n : length (nbits k n) = k.
Proof. unfold nbits. now rewrite map_length, rev_length, seq_length. Qed.

Lemma nbits_S k n : nbits (S k) n = N.testbit n (N.of_nat k) :: nbits k n.
Proof.
  unfold nbits. replace (S k) with (k + 1)%nat by lia. rewrite seq_app, rev_app_distr.
  reflexivity.
Qed.

Lemma bval_nbits k n : bval (nbits k n) = n mod 2 ^ N.of_nat k.
Proof.
  induction k as [|k IH].
  - cbn. now rewrite N.mod_1_r.
  - rewrite nbits_S, bval_cons, nbits_length, IH.
    rewrite Nat2N.inj_succ.
    pose proof (N.testbit_spec' n (N.of_nat k)) as H.
    set (b := N.testbit n (N.of_nat k)) in *.
    rewrite N.pow_succ_r'. rewrite (N.mul_comm 2).
    rewrite N.mod_mul_r by (try lia; apply N.pow_nonzero; lia).
    rewrite <- H. destruct b; simpl N.b2n; lia.
Qed.

Lemma bval_nbits_small k n : n < 2 ^ N.of_nat k -> bval (nbits k n) = n.
Proof. intros H. rewrite bval_nbits. now apply N.mod_small. Qed.

Lemma bval_inj a b : length a = length b -> bval a = bval b -> a = b.
Proof.
  revert b. induction a as [|x a IH]; intros [|y b] HL HV; try discriminate; auto.
  rewrite !bval_cons in HV. injection HL as HL. rewrite HL in HV.
  pose proof (bval_bound a). pose proof (bval_bound b). rewrite HL in H.
  assert (x = y /\ bval a = bval b) as [-> E].
  { destruct x, y; split; auto; lia. }
  f_equal. auto.
Qed.

Lemma nbits_bval l : nbits (length l) (bval l) = l.
Proof.
  apply bval_inj; [apply nbits_length|].
  apply bval_nbits_small, bval_bound.
Qed.

Lemma bits_byte_bits8 b : b < 256 -> nbits 8 b = byte_bits b.
Proof. reflexivity. Qed.
