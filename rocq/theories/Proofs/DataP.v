(** The payload decoder refines the segment grammar. *)
From Coq Require Import Lia.
From Verif.Model Require Import Data.
From Verif.Spec Require Import Bits Reader Segments.
From Verif.Proofs Require Import BaseP BitsP ChompP.
Open Scope N_scope.

Definition good (c : chomp_t) : Prop := chomp_inv c /\ chomp_fresh c.

Lemma good_new bytes : Forall is_byte bytes -> good (chomp_new bytes).
Proof. split; [now apply chomp_new_inv|apply chomp_new_fresh]. Qed.

(** *** Reading one field *)

Lemma firstn_nbits_app k x r : firstn k (nbits k x ++ r) = nbits k x.
Proof.
  rewrite firstn_app, nbits_length, Nat.sub_diag. simpl.
  rewrite app_nil_r. apply firstn_all2. rewrite nbits_length. lia.
Qed.

Lemma skipn_nbits_app k x r : skipn k (nbits k x ++ r) = r.
Proof.
  rewrite skipn_app, nbits_length, Nat.sub_diag.
  rewrite skipn_all2 by (rewrite nbits_length; lia). reflexivity.
Qed.

Lemma chomp_field c k x r : good c -> (1 <= k <= 8)%nat -> x < 2 ^ N.of_nat k ->
  rest c = nbits k x ++ r ->
  exists c', chomp c (N.of_nat k) = Ok (Some x, c') /\ good c' /\ rest c' = r.
Proof.
  intros [HI HF] Hk Hx HR.
  destruct (chomp_granted c (N.of_nat k) HI HF ltac:(lia)) as (c' & Hc & H1 & H2 & H3).
  { unfold remaining. rewrite HR, app_length, nbits_length. lia. }
  rewrite HR, !Nat2N.id, ?firstn_nbits_app, ?skipn_nbits_app in *.
  rewrite bval_nbits_small in Hc by auto.
  exists c'. repeat split; auto; apply H1.
Qed.

Lemma u16_field c k x r : good c -> (1 <= k <= 16)%nat -> x < 2 ^ N.of_nat k ->
  rest c = nbits k x ++ r ->
  exists c', chomp_or_u16 c (N.of_nat k) = Ok (Some x, c') /\ good c' /\ rest c' = r.
Proof.
  intros [HI HF] Hk Hx HR.
  destruct (chomp_u16_granted c (N.of_nat k) HI HF ltac:(lia)) as (c' & Hc & H1 & H2 & H3).
  { unfold remaining. rewrite HR, app_length, nbits_length. lia. }
  rewrite HR, !Nat2N.id, ?firstn_nbits_app, ?skipn_nbits_app in *.
  rewrite bval_nbits_small in Hc by auto.
  exists c'. repeat split; auto; apply H1.
Qed.

Lemma u16_short c k : good c -> (1 <= k <= 16)%nat -> (length (rest c) < k)%nat ->
  exists c', chomp_or_u16 c (N.of_nat k) = Ok (None, c').
Proof.
  intros [HI HF] Hk Hl.
  destruct (chomp_u16_refused c (N.of_nat k) HI HF ltac:(lia)) as (c' & Hc & _); eauto.
  unfold remaining. lia.
Qed.

Lemma read_u16_field c k x r : good c -> (1 <= k <= 16)%nat -> x < 2 ^ N.of_nat k ->
  rest c = nbits k x ++ r ->
  exists c', read_bits_u16 c (N.of_nat k) = Ok (x, c') /\ good c' /\ rest c' = r.
Proof.
  intros HG Hk Hx HR. destruct (u16_field c k x r HG Hk Hx HR) as (c' & Hc & H1 & H2).
  unfold read_bits_u16. rewrite Hc. simpl. eauto.
Qed.

Lemma read_u16_short c k : good c -> (1 <= k <= 16)%nat -> (length (rest c) < k)%nat ->
  read_bits_u16 c (N.of_nat k) = Err (EReadBits (N.of_nat k)).
Proof.
  intros HG Hk Hl. destruct (u16_short c k HG Hk Hl) as (c' & Hc).
  unfold read_bits_u16. now rewrite Hc.
Qed.

Lemma read_8_field c x r : good c -> x < 256 -> rest c = nbits 8 x ++ r ->
  exists c', read_bits c 8 = Ok (x, c') /\ good c' /\ rest c' = r.
Proof.
  intros HG Hx HR. destruct (chomp_field c 8 x r HG ltac:(lia) Hx HR) as (c' & Hc & H1 & H2).
  unfold read_bits, chomp_or. change (N.of_nat 8) with 8 in Hc. rewrite Hc. simpl. eauto.
Qed.

Lemma read_8_short c : good c -> (length (rest c) < 8)%nat -> read_bits c 8 = Err (EReadBits 8).
Proof.
  intros [HI HF] Hl. destruct (chomp_refused c 8 HI HF ltac:(lia)) as (c' & Hc & _).
  { unfold remaining. lia. }
  unfold read_bits, chomp_or. now rewrite Hc.
Qed.

(** *** Splitting bits into fields *)

Definition sum (sizes : list nat) : nat := fold_right Nat.add 0%nat sizes.

Fixpoint split_fields (sizes : list nat) (l : list bool) : list N :=
  match sizes with
  | [] => []
  | k :: sizes => bval (firstn k l) :: split_fields sizes (skipn k l)
  end.

Lemma fields_length sizes vals : length sizes = length vals ->
  length (fields sizes vals) = sum sizes.
Proof.
  revert vals. induction sizes as [|k sizes IH]; intros [|v vals] H; try discriminate; auto.
  simpl. rewrite app_length, nbits_length. rewrite IH by (simpl in H; lia). reflexivity.
Qed.

Lemma split_fields_ok sizes : forall l, (sum sizes <= length l)%nat ->
  fits sizes (split_fields sizes l) /\
  l = fields sizes (split_fields sizes l) ++ skipn (sum sizes) l.
Proof.
  induction sizes as [|k sizes IH]; intros l H; simpl in *.
  - split; [constructor|reflexivity].
  - assert (HL : length (firstn k l) = k) by (rewrite firstn_length; lia).
    destruct (IH (skipn k l)) as [H1 H2]. { rewrite skipn_length. lia. }
    split.
    + constructor; auto. pose proof (bval_bound (firstn k l)) as B. now rewrite HL in B.
    + pose proof (nbits_bval (firstn k l)) as HN. rewrite HL in HN. rewrite HN.
      rewrite <- app_assoc. rewrite skipn_skipn in H2. rewrite <- H2.
      now rewrite firstn_skipn.
Qed.

Lemma fits_length sizes vals : fits sizes vals -> length sizes = length vals.
Proof. induction 1; simpl; congruence. Qed.

(** *** Numeric *)

Lemma format_dec_decimal w v : (1 <= w <= 3)%nat -> v < 1024 -> format_dec w v = decimal w v.
Proof.
  intros Hw Hv.
  assert (H : forallb (fun v => forallb (fun w =>
     if list_eq_dec N.eq_dec (format_dec (S w) (N.of_nat v)) (decimal (S w) (N.of_nat v)) then true else false)
     (seq 0 3)) (seq 0 1024) = true) by (vm_compute; reflexivity).
  pose proof (forall_nat_lt _ _ H (N.to_nat v) ltac:(lia)) as H1. cbv beta in H1.
  pose proof (forall_nat_lt _ _ H1 (w - 1)%nat ltac:(lia)) as H2. cbv beta in H2.
  rewrite N2Nat.id in H2. replace (S (w - 1)) with w in H2 by lia.
  destruct (list_eq_dec _ _ _); [assumption|discriminate].
Qed.

Lemma field_sizes_num n : 3 <= n -> field_sizes 1 n = 10%nat :: field_sizes 1 (n - 3).
Proof.
  intros H. unfold field_sizes.
  assert (Hd : n / 3 = 1 + (n - 3) / 3).
  { replace n with ((n - 3) + 1 * 3) at 1 by lia. rewrite N.div_add by lia. lia. }
  assert (Hm : n mod 3 = (n - 3) mod 3).
  { replace n with ((n - 3) + 1 * 3) at 1 by lia. now rewrite N.mod_add by lia. }
  rewrite Hd, Hm. rewrite N2Nat.inj_add. reflexivity.
Qed.

Lemma numeric_loop_raw fuel : forall n c acc vals r,
  (N.to_nat n <= fuel)%nat -> good c -> fits (field_sizes 1 n) vals ->
  rest c = fields (field_sizes 1 n) vals ++ r ->
  exists c', numeric_loop fuel c n acc = Ok (acc ++ numeric_text (field_sizes 1 n) vals, c')
             /\ good c' /\ rest c' = r.
Proof.
  induction fuel as [|fuel IH]; intros n c acc vals r Hf HG HF HR.
  - replace n with 0 in * by lia. simpl. inversion HF; subst. simpl in *.
    rewrite app_nil_r. eauto.
  - cbn [numeric_loop]. destruct (N.eqb_spec n 0) as [->|Hn0].
    { inversion HF; subst. simpl in *. rewrite app_nil_r. eauto. }
    destruct (N.leb_spec 3 n) as [H3|H3].
    + rewrite field_sizes_num in * by lia.
      inversion HF as [|? v ? vs Hv HF']; subst. cbn [fields numeric_text] in *.
      rewrite <- app_assoc in HR.
      destruct (read_u16_field c 10 v _ HG ltac:(lia) Hv HR) as (c1 & Hc & H1 & H2).
      change (N.of_nat 10) with 10 in Hc. rewrite Hc. cbn [bind].
      rewrite format_dec_decimal by (auto; lia).
      destruct (IH (n - 3) c1 (acc ++ decimal 3 v) vs r ltac:(lia) H1 HF' H2) as (c2 & -> & H3' & H4).
      exists c2. rewrite <- app_assoc. auto.
    + destruct (N.eqb_spec n 2) as [->|Hn2].
      * change (field_sizes 1 2) with [7%nat] in *.
        inversion HF as [|? v ? vs Hv HF']; subst. inversion HF'; subst.
        cbn [fields numeric_text] in *. rewrite <- app_assoc in HR.
        destruct (read_u16_field c 7 v _ HG ltac:(lia) Hv HR) as (c1 & Hc & H1 & H2).
        change (N.of_nat 7) with 7 in Hc. rewrite Hc. cbn [bind].
        rewrite format_dec_decimal by (first [lia | eapply N.lt_trans; [exact Hv|reflexivity]]).
        rewrite app_nil_r. eauto.
      * replace n with 1 in * by lia.
        change (field_sizes 1 1) with [4%nat] in *.
        inversion HF as [|? v ? vs Hv HF']; subst. inversion HF'; subst.
        cbn [fields numeric_text] in *. rewrite <- app_assoc in HR.
        destruct (read_u16_field c 4 v _ HG ltac:(lia) Hv HR) as (c1 & Hc & H1 & H2).
        change (N.of_nat 4) with 4 in Hc. rewrite Hc. cbn [bind].
        rewrite format_dec_decimal by (first [lia | eapply N.lt_trans; [exact Hv|reflexivity]]).
        rewrite app_nil_r. eauto.
Qed.

Lemma numeric_loop_short fuel : forall n c acc,
  (N.to_nat n <= fuel)%nat -> good c -> (length (rest c) < sum (field_sizes 1 n))%nat ->
  exists k, numeric_loop fuel c n acc = Err (EReadBits k).
Proof.
  induction fuel as [|fuel IH]; intros n c acc Hf HG HS.
  - replace n with 0 in * by lia. simpl in HS. lia.
  - cbn [numeric_loop]. destruct (N.eqb_spec n 0) as [->|Hn0]; [simpl in HS; lia|].
    destruct (N.leb_spec 3 n) as [H3|H3].
    + rewrite field_sizes_num in * by lia. cbn [sum fold_right] in HS.
      destruct (le_lt_dec 10 (length (rest c))) as [Hl|Hl].
      * destruct (split_fields_ok [10%nat] (rest c) ltac:(simpl; lia)) as [HF HR].
        cbn [split_fields fields] in *. inversion HF as [|? ? ? ? Hv _]; subst.
        rewrite <- app_assoc in HR. cbn [app] in HR.
        destruct (read_u16_field c 10 _ _ HG ltac:(lia) Hv HR) as (c1 & Hc & H1 & H2).
        change (N.of_nat 10) with 10 in Hc. rewrite Hc. cbn [bind].
        apply IH; auto; [lia|]. rewrite H2, skipn_length. unfold sum in *. simpl fold_right at 1. lia.
      * pose proof (read_u16_short c 10 HG ltac:(lia) Hl) as Hc.
        change (N.of_nat 10) with 10 in Hc. rewrite Hc. simpl. eauto.
    + destruct (N.eqb_spec n 2) as [->|Hn2].
      * change (sum (field_sizes 1 2)) with 7%nat in HS.
        pose proof (read_u16_short c 7 HG ltac:(lia) HS) as Hc.
        change (N.of_nat 7) with 7 in Hc. rewrite Hc. simpl. eauto.
      * replace n with 1 in * by lia. change (sum (field_sizes 1 1)) with 4%nat in HS.
        pose proof (read_u16_short c 4 HG ltac:(lia) HS) as Hc.
        change (N.of_nat 4) with 4 in Hc. rewrite Hc. simpl. eauto.
Qed.

(** *** Alphanumeric *)

Lemma field_sizes_alnum n : 2 <= n -> field_sizes 2 n = 11%nat :: field_sizes 2 (n - 2).
Proof.
  intros H. unfold field_sizes.
  assert (Hd : n / 2 = 1 + (n - 2) / 2).
  { replace n with ((n - 2) + 1 * 2) at 1 by lia. rewrite N.div_add by lia. lia. }
  assert (Hm : n mod 2 = (n - 2) mod 2).
  { replace n with ((n - 2) + 1 * 2) at 1 by lia. now rewrite N.mod_add by lia. }
  rewrite Hd, Hm. rewrite N2Nat.inj_add. reflexivity.
Qed.

Lemma ALPHANUMERIC_alphabet : ALPHANUMERIC = alphabet.
Proof. reflexivity. Qed.

Lemma get_alnum v : v < 45 -> get ALPHANUMERIC (N.to_nat v) = Ok (alnum_char v).
Proof.
  intros H. unfold alnum_char. rewrite <- ALPHANUMERIC_alphabet.
  apply get_nth. change (length ALPHANUMERIC) with 45%nat. lia.
Qed.

Lemma get_alnum_panic v : 45 <= v -> get ALPHANUMERIC (N.to_nat v) = Panic PIndex.
Proof.
  intros H. unfold get. replace (nth_error ALPHANUMERIC (N.to_nat v)) with (@None N); auto.
  symmetry. apply nth_error_None. change (length ALPHANUMERIC) with 45%nat. lia.
Qed.

(** the fields that make the decoder read past its character table: valid pairs and
    then a single value of 45 or more *)
Definition bad_last (sizes : list nat) (vals : list N) : Prop :=
  exists pairs v,
    sizes = repeat 11%nat (length pairs) ++ [6%nat] /\ vals = pairs ++ [v] /\
    Forall (fun p => p < 2025) pairs /\ 45 <= v.

Lemma bad_last_cons v sizes vals : v < 2025 -> bad_last sizes vals ->
  bad_last (11%nat :: sizes) (v :: vals).
Proof.
  intros Hv (ps & x & -> & -> & H1 & H2). exists (v :: ps), x. repeat split; auto.
Qed.

Inductive alnum_outcome (acc : list N) (sizes : list nat) (vals : list N) (r : list bool)
  : res (list N * chomp_t) -> Prop :=
| alnum_fine c' :
    Forall2 alnum_valid sizes vals -> good c' -> rest c' = r ->
    alnum_outcome acc sizes vals r (Ok (acc ++ alnum_text sizes vals, c'))
| alnum_bad_pair v :
    ~ Forall2 alnum_valid sizes vals -> ~ bad_last sizes vals ->
    alnum_outcome acc sizes vals r (Err (EAlphanumericChar v))
| alnum_bad_last :
    ~ Forall2 alnum_valid sizes vals -> bad_last sizes vals ->
    alnum_outcome acc sizes vals r (Panic PIndex).

Lemma alnum_loop_raw fuel : forall n c acc vals r,
  (N.to_nat n <= fuel)%nat -> good c -> fits (field_sizes 2 n) vals ->
  rest c = fields (field_sizes 2 n) vals ++ r ->
  alnum_outcome acc (field_sizes 2 n) vals r (alphanumeric_loop fuel c n acc).
Proof.
  induction fuel as [|fuel IH]; intros n c acc vals r Hf HG HF HR.
  - replace n with 0 in * by lia. simpl. inversion HF; subst. simpl in *.
    replace acc with (acc ++ alnum_text [] []) at 2 by (simpl; apply app_nil_r).
    constructor; auto.
  - cbn [alphanumeric_loop]. destruct (N.eqb_spec n 0) as [->|Hn0].
    { inversion HF; subst. simpl in *.
      replace acc with (acc ++ alnum_text [] []) at 2 by (simpl; apply app_nil_r).
      constructor; auto. }
    destruct (N.leb_spec 2 n) as [H3|H3].
    + rewrite field_sizes_alnum in * by lia.
      inversion HF as [|? v ? vs Hv HF']; subst. cbn [fields alnum_text] in *.
      rewrite <- app_assoc in HR.
      destruct (read_u16_field c 11 v _ HG ltac:(lia) Hv HR) as (c1 & Hc & H1 & H2).
      change (N.of_nat 11) with 11 in Hc. rewrite Hc. cbn [bind].
      assert (Hmod : v mod 45 < 45) by (apply N.mod_lt; lia).
      destruct (N.ltb_spec 44 (v / 45)) as [Hb|Hb].
      * assert (Hv2 : 2025 <= v).
        { pose proof (N.mul_div_le v 45 ltac:(lia)). revert H Hb. generalize (v / 45). clear. lia. }
        apply alnum_bad_pair.
        -- intros HV. inversion HV as [|? ? ? ? Hx _]; subst. unfold alnum_valid in Hx. simpl in Hx. lia.
        -- intros (ps & x & E1 & E2 & E3 & _). destruct ps as [|p ps].
           ++ simpl in E1. injection E1 as ? ?. discriminate.
           ++ injection E2 as <- _. inversion E3; subst. lia.
      * assert (Hv2 : v < 2025).
        { pose proof (N.mul_succ_div_gt v 45 ltac:(lia)). revert H Hb. generalize (v / 45). clear. lia. }
        rewrite !get_alnum by lia. cbn [bind].
        specialize (IH (n - 2) c1 (acc ++ [alnum_char (v / 45)] ++ [alnum_char (v mod 45)]) vs r ltac:(lia) H1 HF' H2).
        destruct IH as [c2 A1 A2 A3|x A1 A2|A1 A2].
        -- rewrite <- app_assoc. cbn [app].
           change (alnum_char (v / 45) :: alnum_char (v mod 45) :: alnum_text (field_sizes 2 (n - 2)) vs)
             with (alnum_text (11%nat :: field_sizes 2 (n - 2)) (v :: vs)).
           constructor; auto.
        -- apply alnum_bad_pair.
           ++ intros HV. inversion HV; subst. contradiction.
           ++ intros (ps & y & E1 & E2 & E3 & E4). apply A2.
              destruct ps as [|p ps]; [simpl in E1; discriminate|].
              simpl in E1, E2. injection E1 as E1. injection E2 as <- E2.
              inversion E3; subst. exists ps, y. auto.
        -- apply alnum_bad_last.
           ++ intros HV. inversion HV; subst. contradiction.
           ++ now apply bad_last_cons.
    + replace n with 1 in * by lia. change (field_sizes 2 1) with [6%nat] in *.
      inversion HF as [|? v ? vs Hv HF']; subst. inversion HF'; subst.
      cbn [fields alnum_text] in *. rewrite <- app_assoc in HR.
      destruct (read_u16_field c 6 v _ HG ltac:(lia) Hv HR) as (c1 & Hc & H1 & H2).
      change (N.of_nat 6) with 6 in Hc. rewrite Hc. cbn [bind].
      destruct (N.ltb_spec v 45) as [Hb|Hb].
      * rewrite get_alnum by lia. cbn [bind].
        change [alnum_char v] with (alnum_text [6%nat] [v]).
        constructor; auto.
      * rewrite get_alnum_panic by lia. cbn [bind]. apply alnum_bad_last.
        -- intros HV. inversion HV as [|? ? ? ? Hx _]; subst. unfold alnum_valid in Hx. simpl in Hx. lia.
        -- exists [], v. repeat split; auto.
Qed.

Lemma alnum_loop_short fuel : forall n c acc,
  (N.to_nat n <= fuel)%nat -> good c -> (length (rest c) < sum (field_sizes 2 n))%nat ->
  exists e, alphanumeric_loop fuel c n acc = Err e.
Proof.
  induction fuel as [|fuel IH]; intros n c acc Hf HG HS.
  - replace n with 0 in * by lia. simpl in HS. lia.
  - cbn [alphanumeric_loop]. destruct (N.eqb_spec n 0) as [->|Hn0]; [simpl in HS; lia|].
    destruct (N.leb_spec 2 n) as [H3|H3].
    + rewrite field_sizes_alnum in * by lia. cbn [sum fold_right] in HS.
      destruct (le_lt_dec 11 (length (rest c))) as [Hl|Hl].
      * destruct (split_fields_ok [11%nat] (rest c) ltac:(simpl; lia)) as [HF HR].
        cbn [split_fields fields] in *. inversion HF as [|? ? ? ? Hv _]; subst.
        rewrite <- app_assoc in HR. cbn [app] in HR.
        destruct (read_u16_field c 11 _ _ HG ltac:(lia) Hv HR) as (c1 & Hc & H1 & H2).
        change (N.of_nat 11) with 11 in Hc. rewrite Hc. cbn [bind].
        set (v := bval _) in *.
        assert (Hmod : v mod 45 < 45) by (apply N.mod_lt; lia).
        destruct (N.ltb_spec 44 (v / 45)) as [Hb|Hb]; [eauto|].
        rewrite !get_alnum by lia. cbn [bind].
        apply IH; auto; [lia|]. rewrite H2, skipn_length. unfold sum in *. simpl fold_right at 1. lia.
      * pose proof (read_u16_short c 11 HG ltac:(lia) Hl) as Hc.
        change (N.of_nat 11) with 11 in Hc. rewrite Hc. simpl. eauto.
    + replace n with 1 in * by lia. change (sum (field_sizes 2 1)) with 6%nat in HS.
      pose proof (read_u16_short c 6 HG ltac:(lia) HS) as Hc.
      change (N.of_nat 6) with 6 in Hc. rewrite Hc. simpl. eauto.
Qed.

(** *** Bytes *)

Lemma read_bytes_raw n : forall c acc vals r,
  good c -> fits (repeat 8%nat n) vals -> rest c = fields (repeat 8%nat n) vals ++ r ->
  exists c', read_bytes n c acc = Ok (acc ++ vals, c') /\ good c' /\ rest c' = r.
Proof.
  induction n as [|n IH]; intros c acc vals r HG HF HR; cbn [read_bytes repeat] in *.
  - inversion HF; subst. rewrite app_nil_r. eauto.
  - inversion HF as [|? v ? vs Hv HF']; subst. cbn [fields] in HR. rewrite <- app_assoc in HR.
    destruct (read_8_field c v _ HG Hv HR) as (c1 & -> & H1 & H2). cbn [bind].
    destruct (IH c1 (acc ++ [v]) vs r H1 HF' H2) as (c2 & -> & H3 & H4).
    rewrite <- app_assoc. eauto.
Qed.

Lemma read_bytes_short n : forall c acc,
  good c -> (length (rest c) < sum (repeat 8%nat n))%nat ->
  read_bytes n c acc = Err (EReadBits 8).
Proof.
  induction n as [|n IH]; intros c acc HG HS; [simpl in HS; lia|].
  cbn [repeat sum fold_right read_bytes] in *.
  destruct (le_lt_dec 8 (length (rest c))) as [Hl|Hl].
  - destruct (split_fields_ok [8%nat] (rest c) ltac:(simpl; lia)) as [HF HR].
    cbn [split_fields fields] in *. inversion HF as [|? ? ? ? Hv _]; subst.
    rewrite <- app_assoc in HR. cbn [app] in HR.
    destruct (read_8_field c _ _ HG Hv HR) as (c1 & -> & H1 & H2). cbn [bind].
    apply IH; auto. rewrite H2, skipn_length. unfold sum in *. simpl fold_right at 1. lia.
  - rewrite read_8_short by auto. reflexivity.
Qed.

(** UTF-8 *)
Lemma in_range_true a b x : in_range a b x = true <-> a <= x <= b.
Proof. unfold in_range. rewrite andb_true_iff, !N.leb_le. tauto. Qed.
Lemma in_range_spec a b x : Bool.reflect (a <= x <= b) (in_range a b x).
Proof. apply iff_reflect. symmetry. apply in_range_true. Qed.

Lemma divmod64 q r : r < 64 -> (q * 64 + r) / 64 = q /\ (q * 64 + r) mod 64 = r.
Proof.
  intros H. rewrite N.add_comm. rewrite N.div_add by lia. rewrite N.mod_add by lia.
  rewrite N.div_small, N.mod_small by lia. lia.
Qed.

Lemma utf8_1 a : a <= 127 -> utf8_char a = [a] /\ scalar a.
Proof.
  intros. unfold utf8_char, scalar. destruct (N.ltb_spec a 128); [|lia]. split; [reflexivity|lia].
Qed.

Lemma utf8_2 a b : 194 <= a <= 223 -> 128 <= b <= 191 ->
  utf8_char ((a - 192) * 64 + (b - 128)) = [a; b] /\ scalar ((a - 192) * 64 + (b - 128)).
Proof.
  intros Ha Hb. destruct (divmod64 (a - 192) (b - 128) ltac:(lia)) as [E1 E2].
  unfold utf8_char, scalar.
  destruct (N.ltb_spec ((a - 192) * 64 + (b - 128)) 128); [lia|].
  destruct (N.ltb_spec ((a - 192) * 64 + (b - 128)) 2048); [|lia].
  rewrite E1, E2. split; [|lia]. f_equal; [lia|]. f_equal. lia.
Qed.

Lemma utf8_3 a b c : 224 <= a <= 239 -> 128 <= b <= 191 -> 128 <= c <= 191 ->
  (a = 224 -> 160 <= b) -> (a = 237 -> b <= 159) ->
  utf8_char ((a - 224) * 4096 + (b - 128) * 64 + (c - 128)) = [a; b; c]
  /\ scalar ((a - 224) * 4096 + (b - 128) * 64 + (c - 128)).
Proof.
  intros Ha Hb Hc H1 H2.
  destruct (divmod64 (a - 224) (b - 128) ltac:(lia)) as [E1 E2].
  destruct (divmod64 ((a - 224) * 64 + (b - 128)) (c - 128) ltac:(lia)) as [E3 E4].
  replace ((a - 224) * 4096 + (b - 128) * 64 + (c - 128))
    with (((a - 224) * 64 + (b - 128)) * 64 + (c - 128)) by lia.
  set (w := ((a - 224) * 64 + (b - 128)) * 64 + (c - 128)) in *.
  assert (E5 : w / 4096 = a - 224).
  { change 4096 with (64 * 64). rewrite <- N.div_div by lia. now rewrite E3, E1. }
  unfold utf8_char, scalar.
  destruct (N.ltb_spec w 128); [unfold w in *; lia|].
  destruct (N.ltb_spec w 2048); [unfold w in *; lia|].
  destruct (N.ltb_spec w 65536); [|unfold w in *; lia].
  rewrite E5, E4, E3, E2. split; [repeat (f_equal; try lia)|unfold w in *; lia].
Qed.

Lemma utf8_4 a b c d : 240 <= a <= 244 -> 128 <= b <= 191 -> 128 <= c <= 191 -> 128 <= d <= 191 ->
  (a = 240 -> 144 <= b) -> (a = 244 -> b <= 143) ->
  let v := (a - 240) * 262144 + (b - 128) * 4096 + (c - 128) * 64 + (d - 128) in
  utf8_char v = [a; b; c; d] /\ scalar v.
Proof.
  intros Ha Hb Hc Hd H1 H2 v.
  destruct (divmod64 (a - 240) (b - 128) ltac:(lia)) as [E1 E2].
  destruct (divmod64 ((a - 240) * 64 + (b - 128)) (c - 128) ltac:(lia)) as [E3 E4].
  destruct (divmod64 (((a - 240) * 64 + (b - 128)) * 64 + (c - 128)) (d - 128) ltac:(lia)) as [E5 E6].
  assert (HV : v = (((a - 240) * 64 + (b - 128)) * 64 + (c - 128)) * 64 + (d - 128)) by (unfold v; lia).
  rewrite <- HV in *. clearbody v.
  assert (E7 : v / 4096 = (a - 240) * 64 + (b - 128)).
  { change 4096 with (64 * 64). rewrite <- N.div_div by lia. now rewrite E5. }
  assert (E8 : v / 262144 = a - 240).
  { change 262144 with (4096 * 64). rewrite <- N.div_div by lia. now rewrite E7. }
  unfold utf8_char, scalar.
  destruct (N.ltb_spec v 128); [lia|].
  destruct (N.ltb_spec v 2048); [lia|].
  destruct (N.ltb_spec v 65536); [lia|].
  rewrite E8, E7, E6, E5, E4, E2. split; [repeat (f_equal; try lia)|lia].
Qed.

Ltac split_ranges :=
  repeat match goal with
  | H : andb _ _ = true |- _ => apply andb_true_iff in H; destruct H
  | H : orb _ _ = true |- _ => apply orb_true_iff in H; destruct H
  | H : in_range _ _ _ = true |- _ => apply in_range_true in H
  | H : cont _ = true |- _ => apply in_range_true in H
  | H : N.eqb _ _ = true |- _ => apply N.eqb_eq in H; subst
  end.

Lemma from_utf8_sound n : forall bs t, (length bs <= n)%nat -> from_utf8 bs = Some t ->
  Forall scalar t /\ utf8 t = bs.
Proof.
  induction n as [|n IH]; intros bs t Hl H.
  { destruct bs; [|simpl in Hl; lia]. injection H as <-. split; [constructor|reflexivity]. }
  assert (Step : forall v pre post, (length post <= n)%nat -> bs = pre ++ post ->
            option_map (cons v) (from_utf8 post) = Some t ->
            utf8_char v = pre /\ scalar v -> Forall scalar t /\ utf8 t = bs).
  { intros v pre post Hp -> HO [E1 E2].
    destruct (from_utf8 post) as [t'|] eqn:EP; [|discriminate].
    injection HO as <-. destruct (IH post t' Hp EP) as [F1 F2].
    split; [now constructor|]. unfold utf8 in *. simpl. now rewrite E1, F2. }
  destruct bs as [|a t1]; [injection H as <-; split; [constructor|reflexivity]|].
  cbn [from_utf8 length] in *.
  destruct (in_range 0 127 a) eqn:R1.
  { split_ranges. eapply (Step a [a] t1); eauto; [lia|]. apply utf8_1; lia. }
  destruct t1 as [|b t2]; [discriminate|]. cbn [length] in *.
  destruct (in_range 194 223 a && cont b) eqn:R2.
  { split_ranges. eapply (Step _ [a; b] t2); eauto; [lia|]. apply utf8_2; lia. }
  destruct t2 as [|c t3]; [discriminate|]. cbn [length] in *.
  match type of H with (if ?x then _ else _) = _ => destruct x eqn:R3 end.
  { eapply (Step _ [a; b; c] t3); eauto; [lia|].
    split_ranges; apply utf8_3; lia. }
  destruct t3 as [|d t4]; [discriminate|]. cbn [length] in *.
  match type of H with (if ?x then _ else _) = _ => destruct x eqn:R4 end.
  { eapply (Step _ [a; b; c; d] t4); eauto; [lia|].
    split_ranges; apply utf8_4; lia. }
  discriminate.
Qed.

Lemma from_utf8_complete t : Forall scalar t -> from_utf8 (utf8 t) = Some t.
Proof.
  induction 1 as [|v t Hv Ht IH]; [reflexivity|].
  unfold utf8 in *. cbn [flat_map]. set (r := flat_map utf8_char t) in *. clearbody r.
  assert (M1 : v mod 64 < 64) by (apply N.mod_lt; lia).
  assert (M2 : (v / 64) mod 64 < 64) by (apply N.mod_lt; lia).
  assert (M3 : (v / 4096) mod 64 < 64) by (apply N.mod_lt; lia).
  pose proof (N.div_mod v 64 ltac:(lia)) as D1.
  pose proof (N.div_mod (v / 64) 64 ltac:(lia)) as D2.
  pose proof (N.div_mod (v / 4096) 64 ltac:(lia)) as D3.
  rewrite N.div_div in D2 by lia. change (64 * 64) with 4096 in D2.
  rewrite N.div_div in D3 by lia. change (4096 * 64) with 262144 in D3.
  unfold utf8_char, scalar in *.
  revert Hv D1 D2 D3 M1 M2 M3.
  generalize (v / 64) (v / 4096) (v / 262144) (v mod 64) ((v / 64) mod 64) ((v / 4096) mod 64).
  intros q1 q2 q3 m1 m2 m3 Hv D1 D2 D3 M1 M2 M3.
  destruct (N.ltb_spec v 128).
  { cbn [app from_utf8]. destruct (in_range_spec 0 127 v); [|lia]. now rewrite IH. }
  destruct (N.ltb_spec v 2048).
  { cbn [app from_utf8]. unfold cont.
    destruct (in_range_spec 0 127 (192 + q1)); [lia|].
    destruct (in_range_spec 194 223 (192 + q1)); [|lia].
    destruct (in_range_spec 128 191 (128 + m1)); [|lia].
    cbn [andb]. rewrite IH. cbn [option_map]. f_equal. f_equal. lia. }
  destruct (N.ltb_spec v 65536).
  { cbn [app from_utf8]. unfold cont.
    destruct (in_range_spec 0 127 (224 + q2)); [lia|].
    destruct (in_range_spec 194 223 (224 + q2)); [lia|]. cbn [andb].
    match goal with |- (if ?x then _ else _) = _ => replace x with true end.
    { rewrite IH. cbn [option_map]. f_equal. f_equal. lia. }
    symmetry. apply andb_true_iff. rewrite !orb_true_iff, !andb_true_iff, !in_range_true, !N.eqb_eq. lia. }
  { cbn [app from_utf8]. unfold cont.
    destruct (in_range_spec 0 127 (240 + q3)); [lia|].
    destruct (in_range_spec 194 223 (240 + q3)); [lia|]. cbn [andb].
    match goal with |- (if ?x then _ else _) = _ => replace x with false end.
    2:{ symmetry. apply not_true_iff_false.
        rewrite !andb_true_iff, !orb_true_iff, !andb_true_iff, !in_range_true, !N.eqb_eq. lia. }
    match goal with |- (if ?x then _ else _) = _ => replace x with true end.
    { rewrite IH. cbn [option_map]. f_equal. f_equal. lia. }
    symmetry. rewrite !andb_true_iff, !orb_true_iff, !andb_true_iff, !in_range_true, !N.eqb_eq. lia. }
Qed.

Lemma from_utf8_iff bs t : from_utf8 bs = Some t <-> Forall scalar t /\ utf8 t = bs.
Proof.
  split.
  - intros H. eapply from_utf8_sound; eauto.
  - intros [H <-]. now apply from_utf8_complete.
Qed.

Lemma bytes_to_string_spec bs :
  (exists t, byte_text bs t /\ bytes_to_string bs = Ok t) \/
  ((forall t, ~ byte_text bs t) /\ bytes_to_string bs = Err (EUtf8 bs)).
Proof.
  unfold bytes_to_string, byte_text.
  destruct (existsb (fun r => N.eqb r 195) bs) eqn:E.
  - assert (HI : In 195 bs).
    { apply existsb_exists in E. destruct E as (x & Hx & He). apply N.eqb_eq in He. now subst. }
    destruct (from_utf8 bs) as [t|] eqn:EF.
    + left. exists t. apply from_utf8_iff in EF. simpl. auto.
    + right. split; [|reflexivity]. intros t [[HN _]|(_ & H1 & H2)]; [tauto|].
      assert (from_utf8 bs = Some t) by (apply from_utf8_iff; auto). congruence.
  - assert (HN : ~ In 195 bs).
    { intros HI. assert (existsb (fun r => N.eqb r 195) bs = true); [|congruence].
      apply existsb_exists. exists 195. split; auto. }
    left. exists bs. split; auto.
Qed.

Lemma utf8_inj t1 t2 : Forall scalar t1 -> Forall scalar t2 -> utf8 t1 = utf8 t2 -> t1 = t2.
Proof.
  intros H1 H2 E. apply from_utf8_complete in H1, H2. rewrite E in H1. congruence.
Qed.

Lemma byte_text_fun bs t1 t2 : byte_text bs t1 -> byte_text bs t2 -> t1 = t2.
Proof.
  intros [[A1 A2]|(A1 & A2 & A3)] [[B1 B2]|(B1 & B2 & B3)]; try tauto; try congruence.
  apply utf8_inj; congruence.
Qed.
