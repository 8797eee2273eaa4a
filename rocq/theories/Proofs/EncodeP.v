(** Facts about the segment encoder of Spec/Segments.v. *)
From Coq Require Import Lia.
From Verif.Model Require Import Data.
From Verif.Spec Require Import Bits Segments.
From Verif.Proofs Require Import BaseP BitsP DataP StreamP.
Open Scope N_scope.

(** *** Numeric *)
Lemma decimal_3 a b c : a < 10 -> b < 10 -> c < 10 ->
  decimal 3 (100 * a + 10 * b + c) = [48 + a; 48 + b; 48 + c].
Proof.
  intros Ha Hb Hc.
  assert (H : forallb (fun a => forallb (fun b => forallb (fun c =>
     if list_eq_dec N.eq_dec (decimal 3 (100 * N.of_nat a + 10 * N.of_nat b + N.of_nat c))
                     [48 + N.of_nat a; 48 + N.of_nat b; 48 + N.of_nat c] then true else false)
     (seq 0 10)) (seq 0 10)) (seq 0 10) = true) by (vm_compute; reflexivity).
  pose proof (forall_nat_lt _ _ H (N.to_nat a) ltac:(lia)) as H1. cbv beta in H1.
  pose proof (forall_nat_lt _ _ H1 (N.to_nat b) ltac:(lia)) as H2. cbv beta in H2.
  pose proof (forall_nat_lt _ _ H2 (N.to_nat c) ltac:(lia)) as H3. cbv beta in H3.
  rewrite !N2Nat.id in H3. destruct (list_eq_dec _ _ _); [assumption|discriminate].
Qed.

Lemma decimal_2 a b : a < 10 -> b < 10 -> decimal 2 (10 * a + b) = [48 + a; 48 + b].
Proof.
  intros Ha Hb.
  assert (H : forallb (fun a => forallb (fun b =>
     if list_eq_dec N.eq_dec (decimal 2 (10 * N.of_nat a + N.of_nat b))
                     [48 + N.of_nat a; 48 + N.of_nat b] then true else false)
     (seq 0 10)) (seq 0 10) = true) by (vm_compute; reflexivity).
  pose proof (forall_nat_lt _ _ H (N.to_nat a) ltac:(lia)) as H1. cbv beta in H1.
  pose proof (forall_nat_lt _ _ H1 (N.to_nat b) ltac:(lia)) as H2. cbv beta in H2.
  rewrite !N2Nat.id in H2. destruct (list_eq_dec _ _ _); [assumption|discriminate].
Qed.

Lemma decimal_1 a : a < 10 -> decimal 1 a = [48 + a].
Proof.
  intros Ha.
  assert (H : forallb (fun a =>
     if list_eq_dec N.eq_dec (decimal 1 (N.of_nat a)) [48 + N.of_nat a] then true else false)
     (seq 0 10) = true) by (vm_compute; reflexivity).
  pose proof (forall_nat_lt _ _ H (N.to_nat a) ltac:(lia)) as H1. cbv beta in H1.
  rewrite !N2Nat.id in H1. destruct (list_eq_dec _ _ _); [assumption|discriminate].
Qed.

Lemma list_ind3 {A} (P : list A -> Prop) :
  P [] -> (forall a, P [a]) -> (forall a b, P [a; b]) ->
  (forall a b c l, P l -> P (a :: b :: c :: l)) -> forall l, P l.
Proof.
  intros H0 H1 H2 H3 l.
  assert (H : forall n l, (length l <= n)%nat -> P l).
  { induction n as [|n IH]; intros l' Hl.
    - destruct l'; [auto|simpl in Hl; lia].
    - destruct l' as [|a [|b [|c l']]]; auto. apply H3, IH. simpl in Hl. lia. }
  eapply H. reflexivity.
Qed.

Lemma list_ind2 {A} (P : list A -> Prop) :
  P [] -> (forall a, P [a]) -> (forall a b l, P l -> P (a :: b :: l)) -> forall l, P l.
Proof.
  intros H0 H1 H2 l.
  assert (H : forall n l, (length l <= n)%nat -> P l).
  { induction n as [|n IH]; intros l' Hl.
    - destruct l'; [auto|simpl in Hl; lia].
    - destruct l' as [|a [|b l']]; auto. apply H2, IH. simpl in Hl. lia. }
  eapply H. reflexivity.
Qed.

Lemma sizes_num3 {A} (a b c : A) l :
  field_sizes 1 (N.of_nat (length (a :: b :: c :: l))) = 10%nat :: field_sizes 1 (N.of_nat (length l)).
Proof. rewrite field_sizes_num by (cbn [length]; lia). do 2 f_equal. cbn [length]. lia. Qed.

Lemma sizes_alnum2 {A} (a b : A) l :
  field_sizes 2 (N.of_nat (length (a :: b :: l))) = 11%nat :: field_sizes 2 (N.of_nat (length l)).
Proof. rewrite field_sizes_alnum by (cbn [length]; lia). do 2 f_equal. cbn [length]. lia. Qed.

Lemma encode_numeric_ok ds : Forall (fun d => d < 10) ds ->
  fits (field_sizes 1 (N.of_nat (length ds))) (numeric_groups ds) /\
  numeric_text (field_sizes 1 (N.of_nat (length ds))) (numeric_groups ds) = map (fun d => 48 + d) ds.
Proof.
  induction ds as [|a|a b|a b c ds IH] using list_ind3; intros H.
  - split; [constructor|reflexivity].
  - inversion H; subst. change (field_sizes 1 (N.of_nat (length [a]))) with [4%nat].
    cbn [numeric_groups numeric_text numeric_width map]. rewrite decimal_1 by auto. split; auto.
    constructor; [|constructor]. change (2 ^ N.of_nat 4) with 16. lia.
  - inversion H as [|? ? Ha H']; subst. inversion H'; subst.
    change (field_sizes 1 (N.of_nat (length [a; b]))) with [7%nat].
    cbn [numeric_groups numeric_text numeric_width map]. rewrite decimal_2 by auto. split; auto.
    constructor; [|constructor]. change (2 ^ N.of_nat 7) with 128. lia.
  - inversion H as [|? ? Ha H1]; subst. inversion H1 as [|? ? Hb H2]; subst.
    inversion H2 as [|? ? Hc H3]; subst. destruct (IH H3) as [I1 I2].
    rewrite sizes_num3. cbn [numeric_groups numeric_text numeric_width map].
    rewrite decimal_3 by auto. rewrite I2. split; auto.
    constructor; auto. change (2 ^ N.of_nat 10) with 1024. lia.
Qed.

Lemma encode_numeric_wf v ds : Forall (fun d => d < 10) ds ->
  N.of_nat (length ds) < 2 ^ N.of_nat (count_bits v 1) -> raw_wf v (encode_numeric ds).
Proof.
  intros H1 H2. repeat split; cbn [encode_numeric r_mode r_count r_vals]; auto.
  now apply encode_numeric_ok.
Qed.

(** *** Alphanumeric *)
Lemma index_of_lt c l : In c l -> index_of c l < N.of_nat (length l) /\ nth (N.to_nat (index_of c l)) l 0 = c.
Proof.
  induction l as [|x l IH]; intros H; [destruct H|]. cbn [index_of length].
  destruct (N.eqb_spec c x) as [->|Hn].
  - split; [lia|reflexivity].
  - destruct H as [H|H]; [congruence|]. destruct (IH H) as [I1 I2]. split; [lia|].
    replace (N.to_nat (1 + index_of c l)) with (S (N.to_nat (index_of c l))) by lia. exact I2.
Qed.

Lemma alnum_index c : In c alphabet -> index_of c alphabet < 45 /\ alnum_char (index_of c alphabet) = c.
Proof. intros H. exact (index_of_lt c alphabet H). Qed.

Lemma alnum_pair a b : a < 45 -> b < 45 -> (45 * a + b) / 45 = a /\ (45 * a + b) mod 45 = b.
Proof.
  intros Ha Hb. rewrite N.add_comm, N.mul_comm. rewrite N.div_add, N.mod_add by lia.
  rewrite N.div_small, N.mod_small by auto. lia.
Qed.

Lemma encode_alnum_ok cs : Forall (fun c => In c alphabet) cs ->
  fits (field_sizes 2 (N.of_nat (length cs))) (alnum_groups cs) /\
  Forall2 alnum_valid (field_sizes 2 (N.of_nat (length cs))) (alnum_groups cs) /\
  alnum_text (field_sizes 2 (N.of_nat (length cs))) (alnum_groups cs) = cs.
Proof.
  induction cs as [|a|a b cs IH] using list_ind2; intros H.
  - repeat split; try constructor.
  - inversion H; subst. change (field_sizes 2 (N.of_nat (length [a]))) with [6%nat].
    cbn [alnum_groups alnum_text]. destruct (alnum_index a) as [I1 I2]; auto. rewrite I2.
    repeat split; constructor; try constructor.
    + change (2 ^ N.of_nat 6) with 64. lia.
    + exact I1.
  - inversion H as [|? ? Ha H1]; subst. inversion H1 as [|? ? Hb H2]; subst.
    destruct (IH H2) as (I1 & I2 & I3). rewrite sizes_alnum2. cbn [alnum_groups alnum_text].
    destruct (alnum_index a Ha) as [A1 A2]. destruct (alnum_index b Hb) as [B1 B2].
    destruct (alnum_pair _ _ A1 B1) as [E1 E2]. rewrite E1, E2, A2, B2, I3.
    repeat split; auto; constructor; auto.
    + change (2 ^ N.of_nat 11) with 2048. lia.
    + unfold alnum_valid. change (11 =? 11)%nat with true. cbv iota. lia.
Qed.

Lemma encode_alnum_wf v cs : Forall (fun c => In c alphabet) cs ->
  N.of_nat (length cs) < 2 ^ N.of_nat (count_bits v 2) -> raw_wf v (encode_alnum cs).
Proof.
  intros H1 H2. repeat split; cbn [encode_alnum r_mode r_count r_vals]; auto.
  now apply encode_alnum_ok.
Qed.

(** *** Bytes *)
Lemma encode_bytes_wf v bs : Forall is_byte bs ->
  N.of_nat (length bs) < 2 ^ N.of_nat (count_bits v 4) -> raw_wf v (encode_bytes bs).
Proof.
  intros H1 H2. repeat split; cbn [encode_bytes r_mode r_count r_vals]; auto.
  unfold field_sizes. rewrite Nat2N.id. clear H2. induction H1; simpl; constructor; auto.
Qed.

Lemma utf8_bytes t : Forall scalar t -> Forall is_byte (utf8 t).
Proof.
  unfold utf8. induction 1 as [|c t Hc Ht IH]; [constructor|]. cbn [flat_map].
  apply Forall_app. split; auto. clear -Hc.
  assert (M1 : c mod 64 < 64) by (apply N.mod_lt; lia).
  assert (M2 : (c / 64) mod 64 < 64) by (apply N.mod_lt; lia).
  assert (M3 : (c / 4096) mod 64 < 64) by (apply N.mod_lt; lia).
  unfold utf8_char, scalar, is_byte in *.
  destruct (N.ltb_spec c 128); [repeat constructor; lia|].
  destruct (N.ltb_spec c 2048).
  { assert (c / 64 < 32) by (apply N.div_lt_upper_bound; lia). repeat constructor; lia. }
  destruct (N.ltb_spec c 65536).
  { assert (c / 4096 < 16) by (apply N.div_lt_upper_bound; lia). repeat constructor; lia. }
  assert (c / 262144 < 5) by (apply N.div_lt_upper_bound; lia). repeat constructor; lia.
Qed.

(** the first byte of a longer sequence is 194 or more *)
Lemma utf8_ascii t : Forall scalar t -> (utf8 t = t <-> Forall (fun c => c < 128) t).
Proof.
  intros HS. split.
  - unfold utf8. induction HS as [|c t Hc Ht IH]; intros H; [constructor|].
    cbn [flat_map] in H. destruct (N.ltb_spec c 128) as [Hl|Hl].
    + constructor; auto. apply IH. unfold utf8_char in H.
      destruct (N.ltb_spec c 128); [|lia]. simpl in H. now injection H.
    + exfalso.
      (* the encoding is at least as long as the text, and longer here *)
      assert (HL : forall l, (length l <= length (flat_map utf8_char l))%nat).
      { induction l as [|x l IHl]; [simpl; lia|]. cbn [flat_map length]. rewrite app_length.
        assert (1 <= length (utf8_char x))%nat; [|lia]. unfold utf8_char.
        destruct (x <? 128); [simpl; lia|]. destruct (x <? 2048); [simpl; lia|].
        destruct (x <? 65536); simpl; lia. }
      specialize (HL t). apply (f_equal (@length N)) in H. rewrite app_length in H. cbn [length] in H.
      assert (2 <= length (utf8_char c))%nat; [|lia]. unfold utf8_char.
      destruct (N.ltb_spec c 128); [lia|]. destruct (c <? 2048); [simpl; lia|].
      destruct (c <? 65536); simpl; lia.
  - unfold utf8. induction 1 as [|c t Hc Ht IH]; [reflexivity|]. cbn [flat_map].
    inversion HS; subst. rewrite IH by auto. unfold utf8_char.
    destruct (N.ltb_spec c 128); [reflexivity|lia].
Qed.

(** *** Group widths *)
Lemma decimal_len w v : (1 <= w <= 3)%nat -> v < 1024 ->
  Forall (fun c => 48 <= c <= 57) (decimal w v) /\ (w <= length (decimal w v))%nat /\
  (length (decimal w v) = w <-> v < 10 ^ N.of_nat w).
Proof.
  intros Hw Hv. unfold decimal.
  set (k := if v <? 10 then 1%nat else _). rewrite map_length, rev_length, seq_length. split; [|split].
  - apply Forall_forall. intros x Hx. apply in_map_iff in Hx. destruct Hx as (i & <- & _).
    assert ((v / 10 ^ N.of_nat i) mod 10 < 10) by (apply N.mod_lt; lia). revert H. generalize ((v / 10 ^ N.of_nat i) mod 10). clear. lia.
  - lia.
  - unfold k. destruct w as [|[|[|[|w]]]]; try lia; cbn [N.of_nat Pos.of_succ_nat Pos.succ].
    + change (10 ^ N.of_nat 1) with 10.
      destruct (N.ltb_spec v 10), (N.ltb_spec v 100), (N.ltb_spec v 1000); lia.
    + change (10 ^ N.of_nat 2) with 100.
      destruct (N.ltb_spec v 10), (N.ltb_spec v 100), (N.ltb_spec v 1000); lia.
    + change (10 ^ N.of_nat 3) with 1000.
      destruct (N.ltb_spec v 10), (N.ltb_spec v 100), (N.ltb_spec v 1000); lia.
Qed.

Definition in_group (k : nat) (v : N) : Prop := v < 10 ^ N.of_nat (numeric_width k).

Lemma numeric_text_len sizes vals : fits sizes vals ->
  Forall (fun k => k = 10%nat \/ k = 7%nat \/ k = 4%nat) sizes ->
  Forall (fun c => 48 <= c <= 57) (numeric_text sizes vals) /\
  (fold_right Nat.add 0%nat (map numeric_width sizes) <= length (numeric_text sizes vals))%nat /\
  (length (numeric_text sizes vals) = fold_right Nat.add 0%nat (map numeric_width sizes) <->
   Forall2 in_group sizes vals).
Proof.
  induction 1 as [|k v sizes vals Hv HF IH]; intros HK.
  - cbn [numeric_text map fold_right length]. repeat split; auto; try lia; constructor.
  - inversion HK as [|? ? Hk HK']; subst. destruct (IH HK') as (I1 & I2 & I3).
    cbn [numeric_text map fold_right]. rewrite app_length.
    assert (Hv' : v < 1024).
    { destruct Hk as [->|[->| ->]]; eapply N.lt_le_trans; eauto; discriminate. }
    assert (Hw : (1 <= numeric_width k <= 3)%nat) by (destruct Hk as [->|[->| ->]]; simpl; lia).
    destruct (decimal_len (numeric_width k) v Hw Hv') as (D1 & D2 & D3).
    split; [now apply Forall_app|]. split; [lia|]. split.
    + intros H. constructor; [apply D3; lia|]. apply I3. lia.
    + intros H. inversion H; subst. apply I3 in H5. apply D3 in H3. lia.
Qed.

Lemma numeric_sizes_shape n :
  Forall (fun k => k = 10%nat \/ k = 7%nat \/ k = 4%nat) (field_sizes 1 n) /\
  fold_right Nat.add 0%nat (map numeric_width (field_sizes 1 n)) = N.to_nat n.
Proof.
  assert (H : forall k n, (N.to_nat n <= k)%nat ->
    Forall (fun k => k = 10%nat \/ k = 7%nat \/ k = 4%nat) (field_sizes 1 n) /\
    fold_right Nat.add 0%nat (map numeric_width (field_sizes 1 n)) = N.to_nat n).
  { induction k as [|k IH]; intros n' Hn.
    - replace n' with 0 by lia. split; [constructor|reflexivity].
    - destruct (N.ltb_spec n' 3) as [H3|H3].
      + assert (n' = 0 \/ n' = 1 \/ n' = 2) as [->|[->| ->]] by lia; (split; [|reflexivity]);
          (apply Forall_forall; intros x Hx; vm_compute in Hx; intuition).
      + rewrite field_sizes_num by auto. destruct (IH (n' - 3)) as [I1 I2]; [lia|].
        split; [constructor; auto|]. cbn [map fold_right numeric_width]. rewrite I2. lia. }
  eapply H. reflexivity.
Qed.

(** *** Cutting a segment short *)
Lemma truncated_prefix v s k : raw_wf v s ->
  (4 <= k < length (raw_bits v s))%nat ->
  exists r, firstn k (raw_bits v s) = nbits 4 (r_mode s) ++ r /\ truncated v (r_mode s) r.
Proof.
  intros (Hm & Hn & HF) Hk. unfold raw_bits in *.
  rewrite app_length, nbits_length in Hk. rewrite firstn_app, nbits_length.
  rewrite firstn_all2 by (rewrite nbits_length; lia).
  eexists. split; [reflexivity|]. set (j := (k - 4)%nat).
  set (cb := count_bits v (r_mode s)) in *. rewrite app_length, nbits_length in Hk.
  destruct (le_lt_dec cb j) as [Hj|Hj].
  - right. exists (r_count s). rewrite firstn_app, nbits_length.
    rewrite firstn_all2 by (rewrite nbits_length; fold cb; lia). eexists. split; [exact Hn|].
    split; [reflexivity|]. rewrite fields_length in Hk by now apply fits_length.
    rewrite firstn_length, fields_length by now apply fits_length. unfold sum in *. fold cb. lia.
  - left. rewrite firstn_length, app_length, nbits_length. fold cb. lia.
Qed.
