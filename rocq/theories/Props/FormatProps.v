(** The format information: C21 to C24. *)
From Coq Require Import NArith ZArith List Lia Bool Arith.
From Verif.Model Require Import Format.
From Verif.Spec Require Import Symbol Bridge RS.
From Verif.Proofs Require Import BaseP FormatP.
Import ListNotations.
Local Open Scope N_scope.

(** *** C21: an intact first copy *)

Theorem C21_intact v d q l m : (0 <= v)%Z -> shows v d q -> m < 8 ->
  carries d copy1 (format_word l m) ->
  format q = Ok (eclevel_of l, m).
Proof.
  intros Hv HS Hm HC.
  rewrite (format_ok v d q (format_word l m) (word_at d (copy2 v)) HS Hv HC (word_at_carries d (copy2 v))).
  rewrite <- (N.lxor_0_r (format_word l m)). rewrite read_fair by (auto; reflexivity). reflexivity.
Qed.

Example C21_example :
  let q := deliver 1 (draw 1 (format_word Q 6) 0) in
  shows 1 (draw 1 (format_word Q 6) 0) q /\ format q = Ok (QUARTILE, 6).
Proof.
  split; [now apply deliver_shows|].
  apply (C21_intact 1 (draw 1 (format_word Q 6) 0) _ Q); [lia|now apply deliver_shows|reflexivity|].
  apply draw_1.
Qed.

(** *** C22: wrong bits in the first copy

    The full statement, for every pattern [e] of at most three wrong bits, is false:
    an error in the last bit is never found, and three wrong bits whose locator has a
    vanishing coefficient are taken for something else. *)
Definition C22_statement := forall v d q l m e, (0 <= v)%Z -> shows v d q -> m < 8 ->
  e < 2 ^ 15 -> ones e <= 3 ->
  carries d copy1 (N.lxor (format_word l m) e) ->
  format q = Ok (eclevel_of l, m).

(** What is missing from the full statement: patterns that touch the last bit, and
    patterns of three wrong bits that are not [fair]. *)
Theorem C22_repaired_partial v d q l m e : (0 <= v)%Z -> shows v d q -> m < 8 ->
  e < 2 ^ 15 -> fair e = true -> N.testbit e 0 = false ->
  carries d copy1 (N.lxor (format_word l m) e) ->
  format q = Ok (eclevel_of l, m).
Proof.
  intros Hv HS Hm He Hf H0 HC.
  rewrite (format_ok v d q _ (word_at d (copy2 v)) HS Hv HC (word_at_carries d (copy2 v))).
  rewrite read_fair by auto. rewrite H0. reflexivity.
Qed.

(** the bits 1, 4 and 14 wrong *)
Example C22_repaired_example :
  fair 0x4012 = true /\ format (deliver 1 (draw 1 (N.lxor (format_word H 3) 0x4012) 0)) = Ok (HIGH, 3).
Proof.
  split; [reflexivity|].
  apply (C22_repaired_partial 1 (draw 1 (N.lxor (format_word H 3) 0x4012) 0) _ H 3 0x4012);
    [lia|now apply deliver_shows|reflexivity..|apply draw_1].
Qed.

(** how many patterns of one to three wrong bits this covers: 417 of 575 *)
Example C22_coverage :
  length (filter (fun e => (0 <? e) && fair e && negb (N.testbit e 0)) (patterns 15 3)) = 417%nat /\
  length (filter (fun e => 0 <? e) (patterns 15 3)) = 575%nat.
Proof. vm_compute. split; reflexivity. Qed.

(** Patterns that touch the last bit are found to be beyond repair: the second copy
    decides.  If it is intact, or damaged fairly, the result is right. *)
Theorem C22_last_bit v d q l m e e2 : (0 <= v)%Z -> shows v d q -> m < 8 ->
  e < 2 ^ 15 -> fair e = true ->
  e2 < 2 ^ 15 -> fair e2 = true -> N.testbit e2 0 = false ->
  carries d copy1 (N.lxor (format_word l m) e) ->
  carries d (copy2 v) (N.lxor (format_word l m) e2) ->
  format q = Ok (eclevel_of l, m).
Proof.
  intros Hv HS Hm He Hf He2 Hf2 H0 H1 H2.
  rewrite (format_ok v d q _ _ HS Hv H1 H2).
  rewrite !read_fair by auto. rewrite H0. now destruct (N.testbit e 0).
Qed.

Example C22_last_bit_example :
  format (deliver 1 (draw 1 (N.lxor (format_word L 2) 0x0101) (N.lxor (format_word L 2) 0x0006)))
  = Ok (LOW, 2).
Proof.
  apply (C22_last_bit 1 (draw 1 (N.lxor (format_word L 2) 0x0101) (N.lxor (format_word L 2) 0x0006)) _
           L 2 0x0101 0x0006); try reflexivity; [lia|now apply deliver_shows|apply draw_1|apply draw_2].
Qed.

(** one wrong bit, the last, is not repaired *)
Theorem C22_refuted : ~ C22_statement.
Proof.
  intros H.
  set (d := draw 1 (N.lxor (format_word L 0) 1) (N.lxor (format_word L 0) 1)).
  assert (E : format (deliver 1 d) = Ok (eclevel_of L, 0)).
  { apply (H 1%Z d _ L 0 1); try reflexivity; [lia|now apply deliver_shows|discriminate|apply draw_1]. }
  vm_compute in E. discriminate.
Qed.

(** even with an intact second copy, three wrong bits can silently give another level
    and mask *)
Theorem C22_silent_refuted : exists v d q l m e l' m',
  (0 <= v)%Z /\ shows v d q /\ m < 8 /\ e < 2 ^ 15 /\ ones e = 3 /\
  carries d copy1 (N.lxor (format_word l m) e) /\ carries d (copy2 v) (format_word l m) /\
  format q = Ok (l', m') /\ l' <> eclevel_of l /\ m' <> m.
Proof.
  exists 1%Z, (draw 1 (N.lxor (format_word L 2) 0x4C00) (format_word L 2)),
    (deliver 1 (draw 1 (N.lxor (format_word L 2) 0x4C00) (format_word L 2))), L, 2, 0x4C00, QUARTILE, 1.
  split; [lia|]. split; [now apply deliver_shows|]. split; [reflexivity|]. split; [reflexivity|].
  split; [reflexivity|]. split; [apply draw_1|]. split; [apply draw_2|].
  split; [vm_compute; reflexivity|]. split; discriminate.
Qed.

(** [found_corrupt d place]: the fifteen bits in that place are found beyond repair *)
Definition found_corrupt (d : matrix) (place : Z -> Z * Z) : Prop :=
  forall w, carries d place w ->
    format_correct (word_bits (N.lxor w format_mask)) = Err EFormatCorrupted.

Lemma same_word d place w w' : carries d place w -> carries d place w' ->
  word_bits (N.lxor w format_mask) = word_bits (N.lxor w' format_mask).
Proof.
  intros H H'. unfold word_bits. apply map_ext_in. intros i Hi. rewrite !N.lxor_spec.
  assert (Hr : (0 <= Z.of_N i < 15)%Z).
  { repeat (destruct Hi as [<-|Hi]; [lia|]). destruct Hi. }
  specialize (H _ Hr). specialize (H' _ Hr). rewrite N2Z.id in *. now rewrite <- H, H'.
Qed.

(** The 65 patterns of three wrong bits that are not fair: in eleven cases only check bits
    are wrong afterwards, in ten the first copy is found to be beyond repair, and in the
    other 44 another level or mask is taken for right. *)
Definition harmless : list N :=
  [0x0260; 0x0130; 0x0098; 0x004C; 0x020A; 0x0026; 0x0281; 0x0105; 0x0013; 0x0320; 0x0282].
Definition noticed : list N :=
  [0x6400; 0x0C80; 0x2820; 0x40A0; 0x0190; 0x0504; 0x0814; 0x4102; 0x0032; 0x2006].
Definition is_in (e : N) (l : list N) : bool := existsb (N.eqb e) l.

(** what happens, for every pattern of at most three wrong bits in the first copy *)
Inductive outcome := repaired | second_copy | misread.
Definition outcome_of (e : N) : outcome :=
  if fair e && negb (N.testbit e 0) || is_in e harmless then repaired
  else if fair e || is_in e noticed then second_copy
  else misread.

Lemma all_outcomes : forallb (fun e => match outcome_of e, corr e with
    | repaired, Some r => N.shiftr r 10 =? 0
    | second_copy, None => true
    | misread, Some r => negb (N.land (N.shiftr r 10) 31 =? 0)
    | _, _ => false end) (patterns 15 3) = true.
Proof. vm_compute. reflexivity. Qed.

Lemma high_bits a r : word_level (N.lxor a r) = word_level a -> word_mask (N.lxor a r) = word_mask a -> N.land (N.shiftr r 10) 31 = 0.
Proof.
  intros HL HM. unfold word_level, word_mask in *. rewrite !N.lxor_spec in *. apply N.bits_inj. intros i. rewrite N.land_spec, N.bits_0, N.shiftr_spec by apply N.le_0_l.
  change 31 with (N.ones 5). destruct (N.ltb_spec i 5); [|rewrite N.ones_spec_high by assumption; apply andb_false_r].
  rewrite N.ones_spec_low, andb_true_r by assumption.
  assert (C : i = 0 \/ i = 1 \/ i = 2 \/ i = 3 \/ i = 4) by lia.
  destruct (N.testbit a 14), (N.testbit a 13), (N.testbit r 14) eqn:E4, (N.testbit r 13) eqn:E3; try discriminate HL; clear HL;
    destruct (N.testbit a 12), (N.testbit a 11), (N.testbit a 10), (N.testbit r 12) eqn:E2, (N.testbit r 11) eqn:E1, (N.testbit r 10) eqn:E0; try discriminate HM;
    destruct C as [-> |[-> |[-> |[-> | ->]]]]; first [exact E0|exact E1|exact E2|exact E3|exact E4].
Qed.

Theorem C22_classified_partial v d q l m e : (0 <= v)%Z -> shows v d q -> m < 8 ->
  e < 2 ^ 15 -> ones e <= 3 -> carries d copy1 (N.lxor (format_word l m) e) ->
  match outcome_of e with
  | repaired => format q = Ok (eclevel_of l, m)
  | second_copy => found_corrupt d copy1
  | misread => exists l' m', format q = Ok (l', m') /\ (l' <> eclevel_of l \/ m' <> m)
  end.
Proof.
  intros Hv HS Hm He Hw HC. pose proof (proj1 (forallb_forall _ _) all_outcomes e (patterns_all 15 3 e He Hw)) as H. cbv beta in H.
  pose proof (format_ok v d q _ (word_at d (copy2 v)) HS Hv HC (word_at_carries d (copy2 v))) as F. pose proof (read_damaged l m e Hm) as RD.
  destruct (bch_values l m Hm) as (_ & VL & VM).
  destruct (outcome_of e), (corr e) as [r|] eqn:EC; try discriminate; rewrite RD in F; cbn [option_map] in F.
  - apply N.eqb_eq in H. rewrite F. set (a := bch_word _) in *.
    assert (B : forall i, 10 <= i -> N.testbit (N.lxor a r) i = N.testbit a i).
    { intros i Hi. rewrite N.lxor_spec. replace i with ((i - 10) + 10) by lia. rewrite <- (N.shiftr_spec r 10) by apply N.le_0_l.
      rewrite H, N.bits_0. apply xorb_false_r. }
    unfold word_level, word_mask in *. rewrite !B by lia. now rewrite VL, VM.
  - intros w' W. rewrite (same_word d copy1 _ _ W HC), correct_corr. unfold read_word in RD. destruct (corr (N.lxor (N.lxor (format_word l m) e) format_mask)); [discriminate RD|reflexivity].
  - do 2 eexists. split; [exact F|]. destruct (N.eq_dec (word_mask (N.lxor (bch_word (8 * level_bits l + m)) r)) m) as [EM|NM]; [|now right].
    left. intros EL. rewrite <- VL in EL. rewrite <- VM in EM at 2. rewrite (high_bits _ _ EL EM) in H. discriminate.
Qed.

(** of the 575 patterns of one to three wrong bits, 428 are repaired, for 103 the second copy decides, and 44 are misread *)
Example C22_outcomes : let count o := length (filter (fun e => (0 <? e) && match outcome_of e, o with
    | repaired, repaired | second_copy, second_copy | misread, misread => true | _, _ => false end) (patterns 15 3)) in
  count repaired = 428%nat /\ count second_copy = 103%nat /\ count misread = 44%nat.
Proof. vm_compute. repeat split; reflexivity. Qed.

(** *** C23: the second copy *)

(** The second copy of [q] decides: the outcome is that for any symbol [q'], of any
    version, that shows in both places what [q] shows in the second. *)
Theorem C23_fallback v d q v' d' q' : (0 <= v)%Z -> (0 <= v')%Z -> shows v d q -> shows v' d' q' ->
  found_corrupt d copy1 ->
  (forall i, (0 <= i < 15)%Z -> d' (fst (copy1 i)) (snd (copy1 i)) = d (fst (copy2 v i)) (snd (copy2 v i))) ->
  (forall i, (0 <= i < 15)%Z -> d' (fst (copy2 v' i)) (snd (copy2 v' i)) = d (fst (copy2 v i)) (snd (copy2 v i))) ->
  format q = format q'.
Proof.
  intros Hv Hv' HS HS' HC H1 H2.
  set (w := word_at d (copy2 v)).
  pose proof (word_at_carries d (copy2 v) : carries d (copy2 v) w) as Hw.
  assert (Hw1 : carries d' copy1 w) by (intros i Hi; rewrite H1 by exact Hi; now apply Hw).
  assert (Hw2 : carries d' (copy2 v') w) by (intros i Hi; rewrite H2 by exact Hi; now apply Hw).
  pose proof (word_at_carries d copy1) as Ha. specialize (HC _ Ha). rewrite correct_corr in HC.
  rewrite (format_ok v d q _ w HS Hv Ha Hw), (format_ok v' d' q' w w HS' Hv' Hw1 Hw2).
  unfold read_word at 1. destruct (corr _); [discriminate|]. cbn [option_map].
  now destruct (read_word w).
Qed.

(** if the second copy is right, so is the result *)
Theorem C23_second_right v d q l m : (0 <= v)%Z -> shows v d q -> m < 8 ->
  found_corrupt d copy1 -> carries d (copy2 v) (format_word l m) ->
  format q = Ok (eclevel_of l, m).
Proof.
  intros Hv HS Hm HC Hw.
  pose proof (word_at_carries d copy1) as Ha. specialize (HC _ Ha). rewrite correct_corr in HC.
  rewrite (format_ok v d q _ _ HS Hv Ha Hw). unfold read_word at 1.
  destruct (corr _); [discriminate|]. cbn [option_map].
  rewrite <- (N.lxor_0_r (format_word l m)), read_fair by (auto; reflexivity). reflexivity.
Qed.

(** an error is returned exactly when both copies are beyond repair, and reading the
    format information never panics *)
Theorem C23_error_iff v d q : (0 <= v)%Z -> shows v d q ->
  (format q = Err EFormatCorrupted <-> found_corrupt d copy1 /\ found_corrupt d (copy2 v)) /\
  (forall e, format q = Err e -> e = EFormatCorrupted) /\
  (forall p, format q <> Panic p).
Proof.
  intros Hv HS.
  pose proof (word_at_carries d copy1) as H1. pose proof (word_at_carries d (copy2 v)) as H2.
  repeat split.
  - rename H into E. intros w Hw. rewrite (format_ok v d q _ _ HS Hv Hw H2) in E. rewrite correct_corr.
    unfold read_word in E at 1. now destruct (corr (N.lxor w format_mask)).
  - rename H into E. intros w Hw. rewrite (format_ok v d q _ _ HS Hv H1 Hw) in E. rewrite correct_corr.
    destruct (read_word (word_at d copy1)); [discriminate|].
    unfold read_word in E. now destruct (corr (N.lxor w format_mask)).
  - intros [C1 C2]. rewrite (format_ok v d q _ _ HS Hv H1 H2).
    specialize (C1 _ H1). specialize (C2 _ H2). rewrite correct_corr in C1, C2.
    unfold read_word. destruct (corr _); [discriminate|]. now destruct (corr _).
  - intros e E. rewrite (format_ok v d q _ _ HS Hv H1 H2) in E.
    destruct (read_word _); [discriminate|]. destruct (read_word _); congruence.
  - intros p E. rewrite (format_ok v d q _ _ HS Hv H1 H2) in E.
    destruct (read_word _); [discriminate|]. destruct (read_word _); congruence.
Qed.

(** the last bit of the first copy wrong, the second intact *)
Example C23_example :
  found_corrupt (draw 1 (N.lxor (format_word M 5) 1) (format_word M 5)) copy1 /\
  format (deliver 1 (draw 1 (N.lxor (format_word M 5) 1) (format_word M 5))) = Ok (MEDIUM, 5).
Proof.
  assert (C : found_corrupt (draw 1 (N.lxor (format_word M 5) 1) (format_word M 5)) copy1).
  { intros w Hw.
    replace (word_bits (N.lxor w format_mask))
      with (word_bits (N.lxor (N.lxor (format_word M 5) 1) format_mask)); [vm_compute; reflexivity|].
    pose proof (draw_1 (N.lxor (format_word M 5) 1) (format_word M 5)) as H.
    unfold word_bits. apply map_ext_in. intros i Hi. rewrite !N.lxor_spec.
    assert (Hr : (0 <= Z.of_N i < 15)%Z).
    { repeat (destruct Hi as [<-|Hi]; [lia|]). destruct Hi. }
    specialize (Hw _ Hr). specialize (H _ Hr). rewrite N2Z.id in *.
    rewrite <- N.lxor_spec. now rewrite <- H, Hw. }
  split; [exact C|].
  apply (C23_second_right 1 (draw 1 (N.lxor (format_word M 5) 1) (format_word M 5)) _ M);
    [lia|now apply deliver_shows|reflexivity|exact C|apply draw_2].
Qed.

(** *** C24: what acceptance means *)

Definition C24_statement := forall w r, w < 2 ^ 15 -> r < 2 ^ 15 ->
  format_correct (word_bits w) = Ok (word_bits r) -> exists data, data < 32 /\ r = bch_word data.

(** Missing from the full statement: that the other two sums of odd powers vanish,
    too.  Only this one is checked. *)
Theorem C24_accepted_partial w f : w < 2 ^ 15 ->
  format_correct (word_bits w) = Ok f -> exists r, f = word_bits r /\ sum1 r = 0.
Proof.
  intros _ H. rewrite correct_corr in H. destruct (corr w) as [r|] eqn:E; [|discriminate].
  injection H as <-. exists r. split; [reflexivity|].
  rewrite sum1_synd. exact (corr_accepted _ _ E).
Qed.

Example C24_accepted_example :
  format_correct (word_bits 0x19) = Ok (word_bits 0x4139) /\ sum1 0x4139 = 0 /\
  format_correct (word_bits 0x17) = Ok (word_bits 0x537) /\ bch_word 1 = 0x537.
Proof. repeat split; vm_compute; reflexivity. Qed.

Theorem C24_refuted : ~ C24_statement.
Proof.
  intros H. destruct (H 0x4C00 0x4C00 ltac:(reflexivity) ltac:(reflexivity) ltac:(reflexivity))
    as (data & Hd & E).
  assert (G : forall data, data < 32 -> 0x4C00 <> bch_word data).
  { apply (below (fun data => 0x4C00 <> bch_word data) 32).
    repeat (apply Forall_cons; [vm_compute; discriminate|]). apply Forall_nil. }
  exact (G data Hd E).
Qed.
