(** The Chomp model refines a list of bits. *)
From Coq Require Import Lia.
From Verif.Model Require Import Chomp.
From Verif.Spec Require Import Bits Reader.
From Verif.Proofs Require Import BaseP BitsP.
Open Scope N_scope.

(** the bits still to be read *)
Definition rest (c : chomp_t) : list bool :=
  match ccur c with
  | Some b => firstn (N.to_nat (cin_byte c)) (byte_bits b)
  | None => []
  end ++ bits (cbytes c).

Definition remaining (c : chomp_t) : N := N.of_nat (length (rest c)).

Definition chomp_inv (c : chomp_t) : Prop :=
  Forall is_byte (cbytes c) /\
  match ccur c with
  | Some b => b < 256 /\ 1 <= cin_byte c <= 8
  | None => cin_byte c = 0 /\ cbytes c = []
  end.

(** holds as long as no request was refused for lack of bits: the counter is at least
    the number of bits left plus what was taken from the current byte *)
Definition chomp_fresh (c : chomp_t) : Prop :=
  ccur c <> None -> remaining c + (8 - cin_byte c) <= cbits_left c.

Lemma remaining_some c b : ccur c = Some b -> cin_byte c <= 8 ->
  remaining c = cin_byte c + 8 * N.of_nat (length (cbytes c)).
Proof.
  intros E H. unfold remaining, rest. rewrite E, app_length, bits_length, firstn_length,
    byte_bits_length. lia.
Qed.

Lemma chomp_new_inv bytes : Forall is_byte bytes -> chomp_inv (chomp_new bytes).
Proof.
  intros H. destruct H; unfold chomp_inv; simpl; auto. split; auto.
  unfold is_byte in H. lia.
Qed.

Lemma chomp_new_rest bytes : rest (chomp_new bytes) = bits bytes.
Proof. now destruct bytes. Qed.

Lemma chomp_new_fresh bytes : chomp_fresh (chomp_new bytes).
Proof.
  destruct bytes as [|b bs]; unfold chomp_fresh; intros H; [now destruct H|].
  rewrite (remaining_some _ b); cbn [chomp_new ccur cin_byte cbytes cbits_left length]; auto; lia.
Qed.

Lemma firstn_rest_in c b n : ccur c = Some b -> (n <= N.to_nat (cin_byte c))%nat -> cin_byte c <= 8 ->
  firstn n (rest c) = firstn n (byte_bits b).
Proof.
  intros E H1 H2. unfold rest. rewrite E.
  rewrite firstn_app, firstn_firstn, firstn_length, byte_bits_length.
  replace (min n (N.to_nat (cin_byte c))) with n by lia.
  replace (n - _)%nat with 0%nat by lia.
  simpl. now rewrite app_nil_r.
Qed.

Lemma skipn_firstn_shl b n k : b < 256 -> (n <= k)%nat -> (k <= 8)%nat ->
  firstn (k - n) (byte_bits ((N.shiftl b (N.of_nat n)) mod 256)) = skipn n (firstn k (byte_bits b)).
Proof.
  intros Hb Hn Hk. rewrite byte_bits_shl by lia.
  rewrite firstn_app, skipn_length, byte_bits_length.
  replace (k - n - (8 - n))%nat with 0%nat by lia. simpl. rewrite app_nil_r.
  now rewrite firstn_skipn_comm, Nat.add_comm, Nat.sub_add by lia.
Qed.

(** nibble on a byte *)
Lemma nibble_spec c b n : chomp_inv c -> ccur c = Some b -> 1 <= n < cin_byte c ->
  exists c', nibble c n = Ok (Some (bval (firstn (N.to_nat n) (rest c))), c') /\
    chomp_inv c' /\ rest c' = skipn (N.to_nat n) (rest c) /\
    cbits_left c' = cbits_left c /\ cin_byte c' = cin_byte c - n /\
    cbytes c' = cbytes c /\ ccur c' <> None.
Proof.
  intros [HF HI] E Hn. rewrite E in HI. destruct HI as [Hb Hin].
  unfold nibble. rewrite E.
  rewrite sub_N_ok by lia. simpl. rewrite shr_u8_ok by lia. simpl.
  rewrite shl_u8_ok by lia. simpl. rewrite sub_N_ok by lia. simpl.
  eexists. split.
  - rewrite (firstn_rest_in c b) by (auto; lia).
    rewrite bval_firstn_byte by lia. rewrite N2Nat.id. reflexivity.
  - repeat split; simpl; auto; try lia; try congruence.
    + apply N.mod_lt. lia.
    + unfold rest. simpl. rewrite E.
      rewrite skipn_app, firstn_length, byte_bits_length.
      replace (N.to_nat n - _)%nat with 0%nat by lia. simpl. f_equal.
      rewrite <- skipn_firstn_shl by lia. rewrite N2Nat.id. f_equal. lia.
Qed.

Definition granted (c : chomp_t) (n : N) (o : option N) (c' : chomp_t) : Prop :=
  o = Some (bval (firstn (N.to_nat n) (rest c))) /\ 1 <= n <= 8 /\ n <= remaining c /\
  rest c' = skipn (N.to_nat n) (rest c) /\ chomp_inv c' /\
  (chomp_fresh c -> chomp_fresh c').

Definition refused (c : chomp_t) (n : N) (o : option N) (c' : chomp_t) : Prop :=
  o = None /\ rest c' = rest c /\ chomp_inv c' /\
  (~ 1 <= n <= 8 -> c' = c) /\
  (chomp_fresh c -> 1 <= n <= 8 -> remaining c < n) /\
  (chomp_fresh c -> remaining c <= 4 -> remaining c <= cbits_left c').

Lemma next_byte_spec c bl : chomp_inv c ->
  rest (next_byte c bl) = bits (cbytes c) /\ chomp_inv (next_byte c bl) /\
  (8 * N.of_nat (length (cbytes c)) <= bl -> chomp_fresh (next_byte c bl)).
Proof.
  intros [HF _]. unfold next_byte. destruct (cbytes c) as [|b bs] eqn:E.
  - split; [reflexivity|]. split; [split; simpl; auto|].
    intros _ H. now destruct H.
  - inversion HF; subst. split; [reflexivity|]. split.
    + split; simpl; auto. unfold is_byte in *. lia.
    + intros Hbl _. rewrite (remaining_some _ b) by (simpl; auto; lia). simpl in *. lia.
Qed.

Lemma fresh_remaining c : chomp_inv c -> chomp_fresh c -> remaining c <= cbits_left c.
Proof.
  intros [_ HC] Hf. destruct (ccur c) eqn:E.
  - specialize (Hf ltac:(congruence)). lia.
  - unfold remaining, rest. rewrite E. destruct HC as [_ ->]. simpl. lia.
Qed.

Lemma chomp_spec c n : chomp_inv c ->
  exists o c', chomp c n = Ok (o, c') /\ (granted c n o c' \/ refused c n o c').
Proof.
  intros HI. pose proof HI as [HF HC]. unfold chomp.
  destruct (negb (N.leb 1 n && N.leb n 8) || N.ltb (cbits_left c) n)%bool eqn:G.
  { eexists _, _; split; [reflexivity|right]. unfold refused. repeat split; auto.
    - intros Hf Hn. pose proof (fresh_remaining c HI Hf).
      destruct (N.leb_spec 1 n); [|lia]. destruct (N.leb_spec n 8); [|lia].
      cbn in G. apply N.ltb_lt in G. lia.
    - intros Hf _. now apply fresh_remaining. }
  apply orb_false_elim in G as [G Hbl]. apply N.ltb_ge in Hbl.
  destruct (N.leb_spec 1 n); [|discriminate]. destruct (N.leb_spec n 8); [|discriminate].
  clear G.
  destruct (N.ltb_spec n (cin_byte c)) as [Hin|Hin].
  { destruct (ccur c) as [b|] eqn:E; [|destruct HC; lia].
    destruct (nibble_spec c b n HI E ltac:(lia)) as (c' & Hc & H1 & H2 & H3 & H4 & H5 & H6).
    exists (Some (bval (firstn (N.to_nat n) (rest c)))), c'. split; [exact Hc|left].
    pose proof (remaining_some c b E ltac:(lia)) as HR.
    unfold granted. repeat split; auto; try apply H1; try lia.
    intros Hf _. specialize (Hf ltac:(congruence)).
    destruct (ccur c') as [b'|] eqn:E'; [|congruence].
    rewrite (remaining_some c' b' E') by lia. rewrite H3, H4, H5. lia. }
  destruct (N.eqb_spec n (cin_byte c)) as [Heq|Hne].
  { destruct (ccur c) as [b|] eqn:E; [|destruct HC; lia]. destruct HC as [Hb Hin8].
    rewrite sub_N_ok by lia. simpl. rewrite shr_u8_ok by lia. simpl.
    rewrite sub_N_ok by lia. simpl.
    destruct (next_byte_spec c (cbits_left c - cin_byte c) HI) as (H1 & H2 & H3).
    pose proof (remaining_some c b E ltac:(lia)) as HR.
    eexists _, _. split; [reflexivity|left]. unfold granted. repeat split; auto; try apply H2; try lia.
    - rewrite (firstn_rest_in c b) by (auto; lia). rewrite bval_firstn_byte by lia.
      rewrite N2Nat.id, Heq. reflexivity.
    - rewrite H1. unfold rest. rewrite E, skipn_app, firstn_length, byte_bits_length.
      rewrite skipn_all2 by (rewrite firstn_length, byte_bits_length; lia).
      replace (N.to_nat n - _)%nat with 0%nat by lia. reflexivity.
    - intros Hf. apply H3. specialize (Hf ltac:(congruence)). lia. }
  (* the request straddles two bytes *)
  rewrite sub_N_ok by lia. simpl.
  destruct (ccur c) as [b|] eqn:E.
  - destruct HC as [Hb Hin8].
    rewrite sub_N_ok by lia. simpl. rewrite shr_u8_ok by lia. simpl.
    rewrite shl_u8_ok by lia. simpl. rewrite sub_N_ok by lia. simpl.
    pose proof (remaining_some c b E ltac:(lia)) as HR.
    destruct (cbytes c) as [|b2 bs] eqn:EB.
    + eexists _, _. split; [reflexivity|right]. unfold refused. simpl in *.
      repeat split; simpl; auto; try lia.
      * unfold rest. simpl. now rewrite E, EB.
      * intros Hf Hr. specialize (Hf ltac:(congruence)). lia.
    + inversion HF as [|? ? Hb2 Hbs]; subst.
      set (c1 := mkChomp bs (cbits_left c - cin_byte c) (Some b2) 8).
      assert (I1 : chomp_inv c1).
      { split; simpl; auto. unfold is_byte in Hb2. lia. }
      destruct (nibble_spec c1 b2 (n - cin_byte c) I1 eq_refl ltac:(simpl; lia))
        as (c' & Hc & H1 & H2 & H3 & H4 & H5 & H6).
      rewrite Hc. simpl.
      assert (Hr1 : rest c1 = bits (b2 :: bs)) by reflexivity.
      assert (Hfst : firstn (N.to_nat n) (rest c) =
        firstn (N.to_nat (cin_byte c)) (byte_bits b) ++ firstn (N.to_nat (n - cin_byte c)) (rest c1)).
      { rewrite Hr1. unfold rest at 1. rewrite E, EB, firstn_app, firstn_length, byte_bits_length.
        rewrite firstn_all2 by (rewrite firstn_length, byte_bits_length; lia).
        f_equal. f_equal. lia. }
      assert (Hval : N.shiftl (N.shiftr b (8 - cin_byte c)) (n - cin_byte c) mod 256
              + bval (firstn (N.to_nat (n - cin_byte c)) (rest c1))
              = bval (firstn (N.to_nat n) (rest c))
              /\ bval (firstn (N.to_nat n) (rest c)) < 256).
      { pose proof (bval_bound (firstn (N.to_nat n) (rest c))) as HB.
        assert (HL : length (firstn (N.to_nat n) (rest c)) = N.to_nat n).
        { rewrite firstn_length. unfold remaining in HR. simpl in HR. lia. }
        rewrite HL, N2Nat.id in HB.
        assert (HB8 : 2 ^ n <= 256) by (change 256 with (2 ^ 8); apply N.pow_le_mono_r; lia).
        split; [|lia].
        rewrite Hfst, bval_app in HB |- *.
        assert (HL1 : length (firstn (N.to_nat (n - cin_byte c)) (rest c1)) = N.to_nat (n - cin_byte c)).
        { rewrite firstn_length, Hr1, bits_length. simpl. lia. }
        rewrite HL1, N2Nat.id in HB |- *.
        rewrite bval_firstn_byte in HB |- * by lia. rewrite N2Nat.id in HB |- *.
        rewrite N.shiftl_mul_pow2. rewrite N.mod_small by lia. reflexivity. }
      destruct Hval as [Hv1 Hv2].
      rewrite add_u8_ok by lia. simpl.
      eexists _, _. split; [reflexivity|left]. unfold granted.
      repeat split; try apply H1; try lia.
      * rewrite Hv1. reflexivity.
      * simpl in HR. lia.
      * rewrite H2, Hr1. unfold rest. rewrite E, EB, skipn_app, firstn_length, byte_bits_length.
        rewrite (skipn_all2 (firstn _ _)) by (rewrite firstn_length, byte_bits_length; lia).
        simpl app. f_equal. lia.
      * intros Hf _. specialize (Hf ltac:(congruence)).
        destruct (ccur c') as [b'|] eqn:E'; [|congruence].
        rewrite (remaining_some c' b' E') by (rewrite H4; simpl; lia).
        rewrite H3, H4, H5. simpl in *. lia.
  - destruct HC as [Hz HB]. simpl. rewrite Hz. rewrite sub_N_ok by lia. simpl. rewrite HB.
    eexists _, _. split; [reflexivity|right].
    unfold refused, remaining, rest, chomp_inv, chomp_fresh. simpl. rewrite E, HB. simpl.
    repeat split; auto; lia.
Qed.

(** a sequence of calls *)
Fixpoint chomp_calls (c : chomp_t) (sizes : list N) : res (list (option N) * chomp_t) :=
  match sizes with
  | [] => Ok ([], c)
  | n :: sizes =>
      '(o, c1) <- chomp c n ;;
      '(os, c2) <- chomp_calls c1 sizes ;;
      Ok (o :: os, c2)
  end.

Lemma chomp_granted c n : chomp_inv c -> chomp_fresh c -> 1 <= n <= 8 -> n <= remaining c ->
  exists c', chomp c n = Ok (Some (bval (firstn (N.to_nat n) (rest c))), c') /\
    chomp_inv c' /\ chomp_fresh c' /\ rest c' = skipn (N.to_nat n) (rest c).
Proof.
  intros HI HF Hn Hr. destruct (chomp_spec c n HI) as (o & c' & Hc & [HG|HR]).
  - destruct HG as (-> & _ & _ & ? & ? & ?). eauto 6.
  - destruct HR as (_ & _ & _ & _ & H & _). specialize (H HF Hn). lia.
Qed.

Lemma chomp_refused c n : chomp_inv c -> chomp_fresh c -> 1 <= n <= 8 -> remaining c < n ->
  exists c', chomp c n = Ok (None, c') /\ chomp_inv c' /\ rest c' = rest c.
Proof.
  intros HI HF Hn Hr. destruct (chomp_spec c n HI) as (o & c' & Hc & [HG|HR]).
  - destruct HG as (_ & _ & H & _). lia.
  - destruct HR as (-> & ? & ? & _). eauto 6.
Qed.

Lemma chomp_calls_fresh sizes : forall c, chomp_inv c -> chomp_fresh c ->
  Forall (fun n => 1 <= n <= 8) sizes -> total sizes <= remaining c ->
  exists c', chomp_calls c sizes = Ok (map Some (cut (rest c) sizes), c') /\
    chomp_inv c' /\ chomp_fresh c' /\ rest c' = skipn (N.to_nat (total sizes)) (rest c).
Proof.
  induction sizes as [|n sizes IH]; intros c HI HF HS HT; simpl.
  - eauto.
  - inversion HS; subst. simpl in HT.
    destruct (chomp_granted c n HI HF ltac:(auto) ltac:(lia)) as (c1 & -> & I1 & F1 & R1).
    simpl. destruct (IH c1 I1 F1 ltac:(auto)) as (c2 & -> & I2 & F2 & R2).
    { unfold remaining in *. rewrite R1, skipn_length. lia. }
    simpl. exists c2. rewrite R1. repeat split; auto; try apply I2.
    rewrite R2, R1, skipn_skipn. f_equal. unfold total. lia.
Qed.

Lemma chomp_calls_any sizes : forall c, chomp_inv c ->
  exists os c', chomp_calls c sizes = Ok (os, c') /\ chomp_inv c' /\
    consecutive (rest c) sizes os (rest c').
Proof.
  induction sizes as [|n sizes IH]; intros c HI; simpl.
  - eexists _, _. split; [reflexivity|]. split; auto. constructor.
  - destruct (chomp_spec c n HI) as (o & c1 & -> & HC). simpl.
    assert (I1 : chomp_inv c1) by (destruct HC as [HC|HC]; apply HC).
    destruct (IH c1 I1) as (os & c2 & -> & I2 & HS). simpl.
    eexists _, _. split; [reflexivity|]. split; auto.
    destruct HC as [(-> & _ & Hr & R & _)|(-> & R & _)].
    + rewrite <- (firstn_skipn (N.to_nat n) (rest c)) at 1. rewrite R in HS.
      constructor; auto. rewrite firstn_length. unfold remaining in Hr. lia.
    + rewrite R in HS. now constructor.
Qed.

(** chomp_or_u16 *)
Lemma chomp_u16_granted c n : chomp_inv c -> chomp_fresh c -> 1 <= n <= 16 -> n <= remaining c ->
  exists c', chomp_or_u16 c n = Ok (Some (bval (firstn (N.to_nat n) (rest c))), c') /\
    chomp_inv c' /\ chomp_fresh c' /\ rest c' = skipn (N.to_nat n) (rest c).
Proof.
  intros HI HF Hn Hr. unfold chomp_or_u16. cbn [chomp_u16_loop].
  destruct (N.ltb_spec 8 n).
  - destruct (chomp_granted c 8 HI HF ltac:(lia) ltac:(lia)) as (c1 & -> & I1 & F1 & R1). cbn [bind].
    rewrite shl_u16_ok by lia. cbn [bind].
    destruct (N.ltb_spec 8 (n - 8)); [lia|].
    destruct (chomp_granted c1 (n - 8) I1 F1 ltac:(lia)) as (c2 & -> & I2 & F2 & R2).
    { unfold remaining in *. rewrite R1, skipn_length. lia. }
    cbn [bind].
    assert (HS : firstn (N.to_nat n) (rest c) = firstn (N.to_nat 8) (rest c) ++ firstn (N.to_nat (n - 8)) (rest c1)).
    { rewrite R1, <- (firstn_skipn (N.to_nat 8) (rest c)) at 1.
      rewrite firstn_app, firstn_firstn, firstn_length. unfold remaining in Hr.
      f_equal; f_equal; lia. }
    assert (HL : length (firstn (N.to_nat (n - 8)) (rest c1)) = N.to_nat (n - 8)).
    { rewrite firstn_length, R1, skipn_length. unfold remaining in Hr. lia. }
    assert (HL8 : length (firstn (N.to_nat 8) (rest c)) = 8%nat).
    { rewrite firstn_length. unfold remaining in Hr. lia. }
    pose proof (bval_bound (firstn (N.to_nat 8) (rest c))) as B1. rewrite HL8 in B1.
    pose proof (bval_bound (firstn (N.to_nat (n - 8)) (rest c1))) as B2. rewrite HL, N2Nat.id in B2.
    assert (HP : 2 ^ (n - 8) <= 256) by (change 256 with (2 ^ 8); apply N.pow_le_mono_r; lia).
    change (2 ^ N.of_nat 8) with 256 in B1.
    rewrite N.shiftl_mul_pow2, N.mod_small by nia.
    rewrite add_u16_ok by nia. cbn [bind].
    exists c2. repeat split; auto; try apply I2.
    + rewrite HS, bval_app, HL, N2Nat.id. reflexivity.
    + rewrite R2, R1, skipn_skipn. f_equal. lia.
  - destruct (chomp_granted c n HI HF ltac:(lia) ltac:(lia)) as (c1 & -> & I1 & F1 & R1). cbn [bind].
    rewrite add_u16_ok.
    + cbn [bind]. eauto.
    + pose proof (bval_bound (firstn (N.to_nat n) (rest c))) as B.
      rewrite firstn_length in B. unfold remaining in Hr.
      replace (Nat.min _ _) with (N.to_nat n) in B by lia. rewrite N2Nat.id in B.
      assert (2 ^ n <= 256) by (change 256 with (2 ^ 8); apply N.pow_le_mono_r; lia). lia.
Qed.

Lemma chomp_u16_refused c n : chomp_inv c -> chomp_fresh c -> 1 <= n <= 16 -> remaining c < n ->
  exists c', chomp_or_u16 c n = Ok (None, c') /\ chomp_inv c'.
Proof.
  intros HI HF Hn Hr. unfold chomp_or_u16. cbn [chomp_u16_loop].
  destruct (N.ltb_spec 8 n).
  - destruct (N.ltb_spec (remaining c) 8) as [H8|H8].
    + destruct (chomp_refused c 8 HI HF ltac:(lia) H8) as (c1 & -> & I1 & _). simpl. eauto.
    + destruct (chomp_granted c 8 HI HF ltac:(lia) ltac:(lia)) as (c1 & -> & I1 & F1 & R1). cbn [bind].
      rewrite shl_u16_ok by lia. cbn [bind].
      destruct (N.ltb_spec 8 (n - 8)); [lia|].
      destruct (chomp_refused c1 (n - 8) I1 F1 ltac:(lia)) as (c2 & -> & I2 & _).
      { unfold remaining in *. rewrite R1, skipn_length. lia. }
      simpl. eauto.
  - destruct (chomp_refused c n HI HF ltac:(lia) Hr) as (c1 & -> & I1 & _). simpl. eauto.
Qed.

Lemma chomp_u16_zero c : chomp_or_u16 c 0 = Ok (None, c).
Proof. reflexivity. Qed.
