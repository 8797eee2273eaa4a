(** The loop over segments: every byte string is a sequence of complete, readable
    segments and an ending, and the decoder's answer is the one the ending calls for. *)
From Coq Require Import Lia.
From Verif.Model Require Import Data.
From Verif.Spec Require Import Bits Reader Segments.
From Verif.Proofs Require Import BaseP BitsP ChompP DataP.
Open Scope N_scope.

Definition segment_reader (mode : N) (c : chomp_t) (v : Z) : res (list N * chomp_t) :=
  if N.eqb mode 1 then numeric c v else if N.eqb mode 2 then alphanumeric c v else eight_bit c v.

Lemma data_loop_eq fuel c v acc :
  data_loop (S fuel) c v acc =
  ('(o, c') <- chomp c 4 ;;
   match o with
   | None => Ok acc
   | Some mode =>
       if (N.eqb mode 1 || N.eqb mode 2 || N.eqb mode 4)%bool then
         '(s, c'') <- segment_reader mode c' v ;; data_loop fuel c'' v (acc ++ s)
       else if N.eqb mode 0 then Ok acc else Err (EMode mode)
   end).
Proof.
  cbn [data_loop]. destruct (chomp c 4) as [[[m|] c']| |]; cbn [bind]; auto.
  unfold segment_reader.
  destruct (N.eqb_spec m 1) as [->|]; [reflexivity|].
  destruct (N.eqb_spec m 2) as [->|]; [reflexivity|].
  destruct (N.eqb_spec m 4) as [->|]; reflexivity.
Qed.

Lemma supported_true m : supported m -> (N.eqb m 1 || N.eqb m 2 || N.eqb m 4)%bool = true.
Proof. intros [->|[->| ->]]; reflexivity. Qed.
Lemma supported_false m : ~ supported m -> (N.eqb m 1 || N.eqb m 2 || N.eqb m 4)%bool = false.
Proof.
  unfold supported. intros H. destruct (N.eqb_spec m 1); [tauto|].
  destruct (N.eqb_spec m 2); [tauto|]. destruct (N.eqb_spec m 4); [tauto|]. reflexivity.
Qed.

Lemma length_bits_ok v (a b c : nat) : version_ok v ->
  length_bits v (N.of_nat a) (N.of_nat b) (N.of_nat c) =
  Ok (N.of_nat (if (v <=? 9)%Z then a else if (v <=? 26)%Z then b else c)).
Proof.
  intros [H1 H2]. unfold length_bits.
  destruct (Z.leb_spec 1 v); [|lia]. destruct (Z.leb_spec v 9); [reflexivity|]. cbn [andb].
  destruct (Z.leb_spec 10 v); [|lia]. destruct (Z.leb_spec v 26); [reflexivity|]. cbn [andb].
  destruct (Z.leb_spec 27 v); [|lia]. destruct (Z.leb_spec v 40); [reflexivity|lia].
Qed.

Lemma length_bits_bad v a b c : ~ version_ok v -> length_bits v a b c = Err (EUnknownVersion v).
Proof.
  unfold version_ok. intros H. unfold length_bits.
  destruct (Z.leb_spec 1 v), (Z.leb_spec v 9); cbn [andb]; try lia;
  destruct (Z.leb_spec 10 v), (Z.leb_spec v 26); cbn [andb]; try lia;
  destruct (Z.leb_spec 27 v), (Z.leb_spec v 40); cbn [andb]; try lia; reflexivity.
Qed.

Lemma count_bits_bound v m : supported m -> (1 <= count_bits v m <= 16)%nat.
Proof.
  intros [->|[->| ->]]; cbn [count_bits];
    destruct (v <=? 9)%Z; destruct (v <=? 26)%Z; lia.
Qed.

(** the reader of a segment after its count *)
Definition body (mode n : N) (c : chomp_t) : res (list N * chomp_t) :=
  if N.eqb mode 1 then numeric_loop (N.to_nat n) c n []
  else if N.eqb mode 2 then alphanumeric_loop (N.to_nat n) c n []
  else '(result, c'') <- read_bytes (N.to_nat n) c [] ;;
       s <- bytes_to_string result ;; Ok (s, c'').

Lemma segment_reader_eq m c v : supported m -> version_ok v ->
  exists e, segment_reader m c v =
  ('(o, c') <- chomp_or_u16 c (N.of_nat (count_bits v m)) ;;
   n <- ok_or o e ;; body m n c').
Proof.
  intros Hm Hv. destruct Hm as [->|[->| ->]]; unfold segment_reader; cbn [N.eqb Pos.eqb].
  - eexists. unfold numeric. change 10 with (N.of_nat 10). change 12 with (N.of_nat 12).
    change 14 with (N.of_nat 14). rewrite length_bits_ok by auto. cbn [bind].
    unfold body. reflexivity.
  - eexists. unfold alphanumeric. change 9 with (N.of_nat 9). change 11 with (N.of_nat 11).
    change 13 with (N.of_nat 13). rewrite length_bits_ok by auto. cbn [bind].
    unfold body. reflexivity.
  - eexists. unfold eight_bit. change 8 with (N.of_nat 8). change 16 with (N.of_nat 16).
    rewrite length_bits_ok by auto. cbn [bind].
    unfold body. reflexivity.
Qed.

Lemma segment_reader_bad m c v : supported m -> ~ version_ok v ->
  segment_reader m c v = Err (EUnknownVersion v).
Proof.
  intros Hm Hv. destruct Hm as [->|[->| ->]]; unfold segment_reader; cbn [N.eqb Pos.eqb];
    unfold numeric, alphanumeric, eight_bit; rewrite !length_bits_bad by auto; reflexivity.
Qed.

Inductive seg_outcome (s : raw) (r : list bool) : res (list N * chomp_t) -> Prop :=
| seg_fine t c' : raw_text s t -> good c' -> rest c' = r -> seg_outcome s r (Ok (t, c'))
| seg_unreadable e : (forall t, ~ raw_text s t) -> ~ overrun s -> seg_outcome s r (Err e)
| seg_overrun : (forall t, ~ raw_text s t) -> overrun s -> seg_outcome s r (Panic PIndex).

Lemma body_raw s c r : supported (r_mode s) -> good c ->
  fits (field_sizes (r_mode s) (r_count s)) (r_vals s) ->
  rest c = fields (field_sizes (r_mode s) (r_count s)) (r_vals s) ++ r ->
  seg_outcome s r (body (r_mode s) (r_count s) c).
Proof.
  destruct s as [m n vals]. cbn [r_mode r_count r_vals]. intros Hm HG HF HR.
  destruct Hm as [->|[->| ->]]; unfold body; cbn [N.eqb Pos.eqb].
  - destruct (numeric_loop_raw (N.to_nat n) n c [] vals r ltac:(lia) HG HF HR) as (c' & Hc & H1 & H2).
    replace (1 =? 1) with true by reflexivity. rewrite Hc. constructor; auto.
    unfold raw_text. reflexivity.
  - replace (2 =? 1) with false by reflexivity. replace (2 =? 2) with true by reflexivity.
    destruct (alnum_loop_raw (N.to_nat n) n c [] vals r ltac:(lia) HG HF HR) as [c' A1 A2 A3|x A1 A2|A1 A2].
    + constructor; auto. unfold raw_text. cbn [r_mode r_count r_vals]. auto.
    + apply seg_unreadable.
      * intros t [H _]. contradiction.
      * intros [_ H]. apply A2. exact H.
    + apply seg_overrun.
      * intros t [H _]. contradiction.
      * split; auto.
  - replace (4 =? 1) with false by reflexivity. replace (4 =? 2) with false by reflexivity.
    destruct (read_bytes_raw (N.to_nat n) c [] vals r HG HF HR) as (c' & -> & H1 & H2).
    cbn [bind app]. destruct (bytes_to_string_spec vals) as [(t & Ht & ->)|[HN ->]]; cbn [bind].
    + constructor; auto.
    + apply seg_unreadable; auto. intros [H _]. discriminate.
Qed.

Lemma body_short m n c : supported m -> good c ->
  (length (rest c) < sum (field_sizes m n))%nat -> exists e, body m n c = Err e.
Proof.
  intros Hm HG HS. destruct Hm as [->|[->| ->]]; unfold body.
  - replace (1 =? 1) with true by reflexivity.
    destruct (numeric_loop_short (N.to_nat n) n c [] ltac:(lia) HG HS) as (k & ->). eauto.
  - replace (2 =? 1) with false by reflexivity. replace (2 =? 2) with true by reflexivity.
    apply alnum_loop_short; auto.
  - replace (4 =? 1) with false by reflexivity. replace (4 =? 2) with false by reflexivity.
    rewrite read_bytes_short by auto. cbn [bind]. eauto.
Qed.

Lemma segment_raw v s c r : version_ok v -> raw_wf v s -> good c ->
  rest c = nbits (count_bits v (r_mode s)) (r_count s)
           ++ fields (field_sizes (r_mode s) (r_count s)) (r_vals s) ++ r ->
  seg_outcome s r (segment_reader (r_mode s) c v).
Proof.
  intros Hv (Hm & Hn & HF) HG HR.
  destruct (segment_reader_eq (r_mode s) c v Hm Hv) as (e & ->).
  pose proof (count_bits_bound v _ Hm) as HB.
  destruct (u16_field c _ _ _ HG HB Hn HR) as (c' & -> & H1 & H2). cbn [bind ok_or].
  now apply body_raw.
Qed.

Lemma segment_truncated v m c : version_ok v -> supported m -> good c ->
  truncated v m (rest c) -> exists e, segment_reader m c v = Err e.
Proof.
  intros Hv Hm HG HT.
  destruct (segment_reader_eq m c v Hm Hv) as (e & ->).
  pose proof (count_bits_bound v _ Hm) as HB.
  destruct HT as [HT|(n & r & Hn & HR & HS)].
  - destruct (u16_short c _ HG HB HT) as (c' & ->). cbn [bind ok_or]. eauto.
  - destruct (u16_field c _ _ _ HG HB Hn HR) as (c' & -> & H1 & H2). cbn [bind ok_or].
    apply body_short; auto. now rewrite H2.
Qed.

(** splitting off a segment *)
Lemma segment_split v m l : supported m ->
  truncated v m l \/
  exists s r, r_mode s = m /\ raw_wf v s /\
    l = nbits (count_bits v m) (r_count s) ++ fields (field_sizes m (r_count s)) (r_vals s) ++ r.
Proof.
  intros Hm. set (k := count_bits v m).
  destruct (le_lt_dec k (length l)) as [Hl|Hl]; [|left; left; exact Hl].
  destruct (split_fields_ok [k] l ltac:(simpl; lia)) as [HF HR].
  cbn [split_fields fields] in *. rewrite app_nil_r in HR. inversion HF as [|? ? ? ? Hn _]; subst.
  set (n := bval (firstn k l)) in *. set (l2 := skipn (sum [k]) l) in *.
  destruct (le_lt_dec (sum (field_sizes m n)) (length l2)) as [Hs|Hs].
  - right. destruct (split_fields_ok (field_sizes m n) l2 Hs) as [HF2 HR2].
    exists (Raw m n (split_fields (field_sizes m n) l2)), (skipn (sum (field_sizes m n)) l2).
    cbn [r_mode r_count r_vals]. split; [reflexivity|]. split.
    + unfold raw_wf. cbn [r_mode r_count r_vals]. auto.
    + rewrite <- HR2. exact HR.
  - left. right. exists n, l2. auto.
Qed.

Lemma four_bits c m r : good c -> m < 16 -> rest c = nbits 4 m ++ r ->
  exists c', chomp c 4 = Ok (Some m, c') /\ good c' /\ rest c' = r.
Proof. intros HG Hm HR. apply (chomp_field c 4 m r HG ltac:(lia) Hm HR). Qed.

Lemma supported_16 m : supported m -> m < 16.
Proof. intros [->|[->| ->]]; lia. Qed.

Lemma data_loop_segment fuel v s t c r acc : version_ok v -> raw_wf v s -> raw_text s t ->
  good c -> rest c = raw_bits v s ++ r ->
  exists c', data_loop (S fuel) c v acc = data_loop fuel c' v (acc ++ t) /\ good c' /\ rest c' = r.
Proof.
  intros Hv HW HT HG HR. unfold raw_bits in HR. rewrite <- !app_assoc in HR.
  pose proof (proj1 HW) as Hm. fold (supported (r_mode s)) in Hm.
  destruct (four_bits c _ _ HG (supported_16 _ Hm) HR) as (c1 & Hc & H1 & H2).
  rewrite data_loop_eq, Hc. cbn [bind]. rewrite supported_true by auto.
  destruct (segment_raw v s c1 r Hv HW H1 H2) as [t' c2 A1 A2 A3|e A1 A2|A1 A2].
  - cbn [bind]. exists c2. replace t with t'; auto.
    unfold raw_text in *. destruct Hm as [E|[E|E]]; rewrite E in *.
    + congruence.
    + destruct HT, A1. congruence.
    + eapply byte_text_fun; eauto.
  - exfalso. eapply A1; eauto.
  - exfalso. eapply A1; eauto.
Qed.

Definition answer (texts : list (list N)) (d : verdict) (r : res (list N)) : Prop :=
  match d with
  | Done => r = Ok (concat texts)
  | Unsupported m => r = Err (EMode m)
  | Truncated | Unreadable => exists e, r = Err e
  | Overrun => r = Panic PIndex
  end.

Lemma data_loop_ending fuel v c d acc : version_ok v -> good c -> ending v (rest c) d ->
  match d with
  | Done => data_loop (S fuel) c v acc = Ok acc
  | Unsupported m => data_loop (S fuel) c v acc = Err (EMode m)
  | Truncated | Unreadable => exists e, data_loop (S fuel) c v acc = Err e
  | Overrun => data_loop (S fuel) c v acc = Panic PIndex
  end.
Proof.
  intros Hv HG [HT|m r E H16 H0 HN|m r E HS HT|s r E HW HN HO|s r E HW HO]; rewrite data_loop_eq.
  - destruct HT as [[r HR]|HS].
    + destruct (four_bits c 0 r HG ltac:(lia) HR) as (c1 & -> & H1 & H2). reflexivity.
    + destruct HG as [HI HF]. destruct (chomp_refused c 4 HI HF ltac:(lia)) as (c' & Hc & _).
      { unfold remaining. lia. }
      now rewrite Hc.
  - destruct (four_bits c m r HG H16 E) as (c1 & -> & H1 & H2). cbn [bind].
    rewrite supported_false by auto. destruct (N.eqb_spec m 0); [contradiction|]. reflexivity.
  - destruct (four_bits c m r HG (supported_16 _ HS) E) as (c1 & -> & H1 & H2). cbn [bind].
    rewrite supported_true by auto. rewrite <- H2 in HT.
    destruct (segment_truncated v m c1 Hv HS H1 HT) as (e & ->). cbn [bind]. eauto.
  - unfold raw_bits in E. rewrite <- !app_assoc in E.
    pose proof (proj1 HW) as Hm. fold (supported (r_mode s)) in Hm.
    destruct (four_bits c _ _ HG (supported_16 _ Hm) E) as (c1 & Hc & H1 & H2).
    rewrite Hc. cbn [bind]. rewrite supported_true by auto.
    destruct (segment_raw v s c1 r Hv HW H1 H2) as [t' c2 A1 A2 A3|e A1 A2|A1 A2]; cbn [bind].
    + exfalso. eapply HN; eauto.
    + eauto.
    + tauto.
  - unfold raw_bits in E. rewrite <- !app_assoc in E.
    pose proof (proj1 HW) as Hm. fold (supported (r_mode s)) in Hm.
    destruct (four_bits c _ _ HG (supported_16 _ Hm) E) as (c1 & Hc & H1 & H2).
    rewrite Hc. cbn [bind]. rewrite supported_true by auto.
    destruct (segment_raw v s c1 r Hv HW H1 H2) as [t' c2 A1 A2 A3|e A1 A2|A1 A2]; cbn [bind].
    + exfalso. destruct HO as (E2 & ps & x & E3 & E4 & E5 & E6). unfold raw_text in A1.
      rewrite E2 in A1. rewrite E3, E4 in A1. destruct A1 as [A1 _].
      apply Forall2_app_inv_l in A1. destruct A1 as (l1 & l2 & B1 & B2 & B3).
      inversion B2 as [|? y ? ? By Bn]; subst. inversion Bn; subst.
      apply app_inj_tail in B3. destruct B3 as [_ <-]. unfold alnum_valid in By. simpl in By. lia.
    + tauto.
    + reflexivity.
Qed.

Lemma raw_bits_4 v s : (4 <= length (raw_bits v s))%nat.
Proof. unfold raw_bits. rewrite app_length, nbits_length. lia. Qed.

Lemma data_loop_stream v d l : version_ok v -> forall segs texts fuel c acc,
  Forall (raw_wf v) segs -> Forall2 raw_text segs texts ->
  good c -> rest c = concat (map (raw_bits v) segs) ++ l -> ending v l d ->
  (length (rest c) < 4 * fuel)%nat ->
  match d with
  | Done => data_loop fuel c v acc = Ok (acc ++ concat texts)
  | Unsupported m => data_loop fuel c v acc = Err (EMode m)
  | Truncated | Unreadable => exists e, data_loop fuel c v acc = Err e
  | Overrun => data_loop fuel c v acc = Panic PIndex
  end.
Proof.
  intros Hv. induction segs as [|s segs IH]; intros texts fuel c acc HW HT HG HR HE Hf.
  - inversion HT; subst. simpl in *. subst l. destruct fuel as [|fuel]; [lia|].
    pose proof (data_loop_ending fuel v c d acc Hv HG HE) as H.
    destruct d; auto. now rewrite app_nil_r.
  - inversion HW; subst. inversion HT as [|? t ? ts H3 H4]; subst.
    cbn [map concat] in HR. rewrite <- app_assoc in HR. destruct fuel as [|fuel]; [lia|].
    destruct (data_loop_segment fuel v s t c _ acc Hv H1 H3 HG HR) as (c' & -> & G1 & G2).
    specialize (IH ts fuel c' (acc ++ t) H2 H4 G1 G2 HE).
    rewrite <- app_assoc in IH. apply IH.
    rewrite HR, app_length in Hf. pose proof (raw_bits_4 v s). rewrite G2. lia.
Qed.

Lemma N_lt_dec (a b : N) : {a < b} + {~ a < b}.
Proof. destruct (a <? b) eqn:E; [left|right]; [now apply N.ltb_lt|apply N.ltb_ge in E; lia]. Defined.

Lemma Forall2_dec {A B} (P : A -> B -> Prop) (D : forall a b, {P a b} + {~ P a b}) :
  forall l1 l2, {Forall2 P l1 l2} + {~ Forall2 P l1 l2}.
Proof.
  induction l1 as [|a l1 IH]; intros [|b l2]; try (right; intros H; inversion H; fail).
  - left. constructor.
  - destruct (D a b) as [H|H]; [|right; intros K; inversion K; contradiction].
    destruct (IH l2) as [G|G]; [left; now constructor|right; intros K; inversion K; contradiction].
Defined.

Lemma raw_decided s : supported (r_mode s) ->
  fits (field_sizes (r_mode s) (r_count s)) (r_vals s) ->
  (exists t, raw_text s t) \/ (forall t, ~ raw_text s t) /\ (overrun s \/ ~ overrun s).
Proof.
  destruct s as [m n vals]. unfold raw_text, overrun. cbn [r_mode r_count r_vals].
  intros Hm E2. destruct Hm as [->|[->| ->]].
  - left. eauto.
  - destruct (Forall2_dec alnum_valid (fun k v => N_lt_dec v (if Nat.eqb k 11 then 2025 else 45))
                (field_sizes 2 n) vals) as [D|D]; [left; eauto|right].
    split; [intros t [H _]; contradiction|].
    destruct (N.eq_dec (n mod 2) 1) as [Ho|Ho].
    + assert (HS : field_sizes 2 n = repeat 11%nat (N.to_nat (n / 2)) ++ [6%nat]).
      { unfold field_sizes. rewrite Ho. reflexivity. }
      rewrite HS in *. apply Forall2_app_inv_l in E2. destruct E2 as (ps & vl & F1 & F2 & F3).
      inversion F2 as [|? y ? ? Fy Fn]; subst vl. inversion Fn; subst.
      assert (HL : length ps = N.to_nat (n / 2)).
      { apply fits_length in F1. rewrite repeat_length in F1. auto. }
      destruct (Forall_dec (fun p => p < 2025) (fun p => N_lt_dec p 2025) ps) as [G|G].
      * left. split; auto. exists ps, y. rewrite HL. repeat split; auto.
        destruct (N_lt_dec y 45) as [Hy|Hy]; [|lia]. exfalso. apply D.
        apply Forall2_app; [|constructor; [unfold alnum_valid; simpl; lia|constructor]].
        rewrite <- HL. clear -G. induction G; simpl; constructor; auto.
      * right. intros (_ & ps' & y' & B1 & B2 & B3 & B4).
        apply app_inj_tail in B2. destruct B2 as [-> ->]. contradiction.
    + right. intros (_ & ps' & y' & B1 & _). unfold field_sizes in B1.
      destruct (N.eqb_spec (n mod 2) 1); [contradiction|]. rewrite app_nil_r in B1.
      assert (In 6%nat (repeat 11%nat (N.to_nat (n / 2)))).
      { rewrite B1. apply in_or_app. right. now left. }
      apply repeat_spec in H. discriminate.
  - destruct (bytes_to_string_spec vals) as [(t & Ht & _)|[HN _]]; [left; eauto|].
    right. split; [exact HN|]. right. intros [H _]. congruence.
Qed.

Lemma stream_exists v : version_ok v -> forall n l, (length l <= n)%nat ->
  exists segs texts l' d,
    l = concat (map (raw_bits v) segs) ++ l' /\ Forall (raw_wf v) segs /\
    Forall2 raw_text segs texts /\ ending v l' d.
Proof.
  intros Hv. induction n as [|n IH]; intros l Hl.
  - exists [], [], l, Done. repeat split; auto. constructor. right. lia.
  - destruct (le_lt_dec 4 (length l)) as [H4|H4].
    2:{ exists [], [], l, Done. repeat split; auto. constructor. right. lia. }
    destruct (split_fields_ok [4%nat] l ltac:(simpl; lia)) as [HF HR].
    cbn [split_fields fields] in *. rewrite app_nil_r in HR. inversion HF as [|? ? ? ? Hm _]; subst.
    change (2 ^ N.of_nat 4) with 16 in Hm.
    set (m := bval (firstn 4 l)) in *. set (l2 := skipn (sum [4%nat]) l) in *.
    assert (Hsup : supported m \/ ~ supported m).
    { unfold supported. destruct (N.eq_dec m 1), (N.eq_dec m 2), (N.eq_dec m 4); tauto. }
    destruct Hsup as [Hs|Hs].
    + destruct (segment_split v m l2 Hs) as [HT|(s & r & E1 & E2 & E3)].
      * exists [], [], l, Truncated. repeat split; auto. eapply ending_truncated; eauto.
      * assert (HB : l = raw_bits v s ++ r).
        { unfold raw_bits. rewrite E1, <- !app_assoc. now rewrite <- E3. }
        pose proof (raw_decided s (proj1 E2) (proj2 (proj2 E2))) as Hdec.
        destruct Hdec as [[t Ht]|[HN [HO|HO]]].
        -- destruct (IH r) as (segs & texts & l' & d & A1 & A2 & A3 & A4).
           { rewrite HB, app_length in Hl. pose proof (raw_bits_4 v s). lia. }
           exists (s :: segs), (t :: texts), l', d. cbn [map concat]. rewrite <- app_assoc, <- A1. auto.
        -- exists [], [], l, Overrun. repeat split; auto. eapply ending_overrun; eauto.
        -- exists [], [], l, Unreadable. repeat split; auto. eapply ending_unreadable; eauto.
    + destruct (N.eq_dec m 0) as [E0|E0].
      * exists [], [], l, Done. repeat split; auto. constructor. left. exists l2. now rewrite <- E0.
      * exists [], [], l, (Unsupported m). repeat split; auto. eapply ending_unsupported; eauto.
Qed.

(** *** The whole decoder *)
Lemma data_stream v input segs texts l d : version_ok v -> Forall is_byte input ->
  Forall (raw_wf v) segs -> Forall2 raw_text segs texts ->
  bits input = concat (map (raw_bits v) segs) ++ l -> ending v l d ->
  answer texts d (data input v).
Proof.
  intros Hv HB HW HT HR HE. unfold data.
  assert (HRest : rest (chomp_new input) = bits input) by (apply chomp_new_rest; auto).
  pose proof (data_loop_stream v d l Hv segs texts (2 * length input + 1) (chomp_new input) []
    HW HT (good_new _ HB) (eq_trans HRest HR) HE) as H.
  unfold answer. destruct d; apply H; rewrite HRest, bits_length; lia.
Qed.

Lemma data_classified v input : version_ok v -> Forall is_byte input ->
  exists segs texts l d,
    bits input = concat (map (raw_bits v) segs) ++ l /\ Forall (raw_wf v) segs /\
    Forall2 raw_text segs texts /\ ending v l d /\ answer texts d (data input v).
Proof.
  intros Hv HB. destruct (stream_exists v Hv _ (bits input) (le_n _)) as (segs & texts & l & d & A1 & A2 & A3 & A4).
  exists segs, texts, l, d. repeat split; auto. eapply data_stream; eauto.
Qed.

(** any integer that is not a version: a supported mode is refused with its number *)
Lemma data_bad_version v input m r : ~ version_ok v -> Forall is_byte input -> supported m ->
  bits input = nbits 4 m ++ r -> data input v = Err (EUnknownVersion v).
Proof.
  intros Hv HB Hm HR. unfold data. rewrite Nat.add_comm. simpl Nat.add.
  assert (HRest : rest (chomp_new input) = bits input) by (apply chomp_new_rest; auto).
  rewrite data_loop_eq.
  destruct (four_bits (chomp_new input) m r (good_new _ HB) (supported_16 _ Hm)) as (c1 & -> & H1 & H2).
  { now rewrite HRest. }
  cbn [bind]. rewrite supported_true by auto. now rewrite segment_reader_bad.
Qed.

(** no version at all is needed by an empty stream *)
Lemma data_no_segment v input : Forall is_byte input -> tail_ok (bits input) -> data input v = Ok [].
Proof.
  intros HB HT. unfold data. rewrite Nat.add_comm. simpl Nat.add.
  assert (HRest : rest (chomp_new input) = bits input) by (apply chomp_new_rest; auto).
  rewrite data_loop_eq. destruct HT as [[r HR]|HS].
  - destruct (four_bits (chomp_new input) 0 r (good_new _ HB) ltac:(lia)) as (c1 & -> & H1 & H2); [now rewrite HRest|].
    reflexivity.
  - destruct (good_new _ HB) as [HI HF].
    destruct (chomp_refused (chomp_new input) 4 HI HF ltac:(lia)) as (c' & Hc & _).
    { unfold remaining. rewrite HRest. lia. }
    now rewrite Hc.
Qed.

Lemma data_unsupported_first v input m r : Forall is_byte input ->
  bits input = nbits 4 m ++ r -> m < 16 -> m <> 0 -> ~ supported m ->
  data input v = Err (EMode m).
Proof.
  intros HB HR H16 H0 HN. unfold data. rewrite Nat.add_comm. simpl Nat.add.
  rewrite data_loop_eq.
  destruct (four_bits (chomp_new input) m r (good_new _ HB) H16) as (c1 & -> & H1 & H2).
  { now rewrite chomp_new_rest. }
  cbn [bind]. rewrite supported_false by auto.
  destruct (N.eqb_spec m 0); [contradiction|reflexivity].
Qed.
