(** Reading the format information. *)
From Coq Require Import NArith ZArith List Lia Bool Arith.
From Verif.Model Require Import Format.
From Verif.Spec Require Import Symbol Bridge RS Encoder.
From Verif.Proofs Require Import BaseP.
Import ListNotations.
Local Open Scope N_scope.

Lemma below (P : N -> Prop) n : Forall P (map N.of_nat (seq 0 n)) -> forall e, e < N.of_nat n -> P e.
Proof.
  intros H e He. rewrite Forall_forall in H. apply H. apply in_map_iff.
  exists (N.to_nat e). split; [lia|]. apply in_seq. lia.
Qed.

(** *** Syndromes *)
Definition synd (k : nat) (w : N) : N :=
  fold_left (fun s i => if N.testbit w (N.of_nat i)
                        then N.lxor s (nth ((k * i) mod 15) EXP4 0) else s)
            (seq 0 15) 0.

Lemma mul_bit b e : e < 16 -> gf4_mul (bit b) e = if b then e else 0.
Proof.
  intros H. destruct b; cbn [bit].
  - revert e H. apply (below _ 16). repeat constructor.
  - reflexivity.
Qed.

Lemma EXP4_range i : nth i EXP4 0 < 16.
Proof.
  destruct (Nat.lt_ge_cases i 16) as [H|H].
  - assert (E : In (nth i EXP4 0) EXP4) by (now apply nth_In).
    revert E. apply (proj1 (Forall_forall (fun e => e < 16) EXP4)). repeat constructor.
  - rewrite nth_overflow by exact H. reflexivity.
Qed.

Lemma EXP4_get i : get EXP4 (i mod 15) = Ok (nth (i mod 15) EXP4 0).
Proof. apply get_nth. pose proof (Nat.mod_upper_bound i 15). change (length EXP4) with 16%nat. lia. Qed.

Lemma syndrome_ok k w : format_syndrome k (word_bits w) = Ok (synd k w).
Proof.
  unfold format_syndrome, synd. change (length (word_bits w)) with 15%nat.
  change (range 0 15) with (seq 0 15).
  assert (G : forall l, (forall i, In i l -> (i < 15)%nat) -> forall s,
     foldM (fun s i => j <- sub_nat 15 (i + 1);; b <- get (word_bits w) j;;
              e <- get EXP4 ((k * i) mod 15);; Ok (gf4_add s (gf4_mul b e))) l s
     = Ok (fold_left (fun s i => if N.testbit w (N.of_nat i)
                        then N.lxor s (nth ((k * i) mod 15) EXP4 0) else s) l s)).
  { induction l as [|i l IH]; intros Hl s; [reflexivity|]. cbn [foldM fold_left].
    assert (Hi : (i < 15)%nat) by (apply Hl; now left).
    rewrite sub_nat_ok by lia. cbn [bind].
    assert (Eg : get (word_bits w) (15 - (i + 1)) = Ok (bit (N.testbit w (N.of_nat i)))).
    { clear - Hi. do 15 (destruct i as [|i]; [reflexivity|]). lia. }
    rewrite Eg. cbn [bind]. rewrite EXP4_get. cbn [bind].
    rewrite mul_bit by apply EXP4_range.
    rewrite IH by (intros; apply Hl; now right).
    unfold gf4_add. destruct (N.testbit w (N.of_nat i)); [reflexivity|]. now rewrite N.lxor_0_r. }
  apply G. intros i H. apply in_seq in H. lia.
Qed.

Lemma synd_linear k a b : synd k (N.lxor a b) = N.lxor (synd k a) (synd k b).
Proof.
  unfold synd.
  assert (G : forall l s t,
     fold_left (fun s i => if N.testbit (N.lxor a b) (N.of_nat i)
                        then N.lxor s (nth ((k * i) mod 15) EXP4 0) else s) l (N.lxor s t)
     = N.lxor (fold_left (fun s i => if N.testbit a (N.of_nat i)
                        then N.lxor s (nth ((k * i) mod 15) EXP4 0) else s) l s)
       (fold_left (fun s i => if N.testbit b (N.of_nat i)
                        then N.lxor s (nth ((k * i) mod 15) EXP4 0) else s) l t)).
  { induction l as [|i l IH]; intros s t; [reflexivity|]. cbn [fold_left].
    rewrite N.lxor_spec. rewrite <- IH. f_equal.
    generalize (nth ((k * i) mod 15) EXP4 0). intros e.
    destruct (N.testbit a (N.of_nat i)), (N.testbit b (N.of_nat i)); cbn [xorb];
      apply N.bits_inj; intros j; rewrite ?N.lxor_spec;
      destruct (N.testbit s j), (N.testbit t j), (N.testbit e j); reflexivity. }
  rewrite <- G. reflexivity.
Qed.

(** *** The positions that get flipped *)
Definition roots (g1 g2 g3 : N) : list N :=
  flat_map (fun i =>
      let x := N.of_nat i in
      let v := gf4_add (gf4_add (gf4_add g3 (gf4_mul g2 x))
                                     (gf4_mul (gf4_mul g1 x) x))
                            (gf4_mul (gf4_mul x x) x) in
      if N.eqb v 0 then
        let log := nth i LOG4 0 in if N.eqb log 0 then [] else [log]
      else []) (seq 0 16).

Definition candidates (s1 s3 s5 : N) : list N :=
  let s2 := gf4_mul s1 s1 in
  let s4 := gf4_mul s2 s2 in
  let sigma2 := gf4_div (gf4_sub (gf4_add s5 (gf4_mul s4 s1))
                       (gf4_mul s2 (gf4_add s3 (gf4_mul s2 s1))))
              (gf4_sub s3 (gf4_mul s1 s2)) in
  let sigma3 := gf4_add (gf4_add s3 (gf4_mul s2 s1)) (gf4_mul s1 sigma2) in
  roots s1 sigma2 sigma3.

Lemma error_pos_ok g1 g2 g3 : format_error_pos g1 g2 g3 = Ok (roots g1 g2 g3).
Proof.
  unfold format_error_pos, roots. change (range 0 16) with (seq 0 16).
  match goal with |- foldM ?f _ _ = Ok (flat_map ?g _) =>
    assert (G : forall l, (forall i, In i l -> (i < 16)%nat) -> forall acc,
      foldM f l acc = Ok (acc ++ flat_map g l)) end.
  { induction l as [|i l IH]; intros Hl acc; [cbn; now rewrite app_nil_r|].
    cbn [foldM flat_map]. cbv zeta.
    destruct (N.eqb _ 0).
    - rewrite (get_nth LOG4 i 0) by (apply Hl; now left). cbn [bind].
      rewrite IH by (intros; apply Hl; now right).
      destruct (N.eqb (nth i LOG4 0) 0); [reflexivity|now rewrite <- app_assoc].
    - cbn [bind]. rewrite IH by (intros; apply Hl; now right). reflexivity. }
  rewrite G; [reflexivity|]. intros i H. apply in_seq in H. lia.
Qed.

Lemma roots_range g1 g2 g3 p : In p (roots g1 g2 g3) -> p < 15.
Proof.
  unfold roots. cbv zeta. intros H. apply in_flat_map in H as (i & Hi & H).
  destruct (N.eqb _ 0); [|destruct H]. destruct (N.eqb (nth i LOG4 0) 0); [destruct H|].
  destruct H as [<-|[]]. apply in_seq in Hi.
  assert (E : In (nth i LOG4 0) LOG4) by (apply nth_In; cbn; lia).
  revert E. apply (proj1 (Forall_forall (fun e => e < 15) LOG4)). repeat constructor.
Qed.

Definition flips (ps : list N) : N := fold_left (fun a p => N.lxor a (2 ^ p)) ps 0.

Lemma flip_one w p : p < 15 ->
  (i <- sub_nat (length (word_bits w)) (N.to_nat p + 1) ;;
   b <- get (word_bits w) i ;; set (word_bits w) i (N.lxor b 1))
  = Ok (word_bits (N.lxor w (2 ^ p))).
Proof.
  revert p. apply (below _ 15).
  assert (F : forall b, N.lxor (bit b) 1 = bit (xorb b true)) by now intros [].
  assert (F0 : forall b, bit b = bit (xorb b false)) by now intros [].
  change (map N.of_nat (seq 0 15)) with [0;1;2;3;4;5;6;7;8;9;10;11;12;13;14].
  repeat apply Forall_cons; [..|apply Forall_nil];
    unfold word_bits; cbn [map]; rewrite ?N.lxor_spec;
    cbv [sub_nat N.to_nat Pos.to_nat Pos.iter_op Nat.add length Nat.ltb Nat.leb bind Nat.sub
         get nth_error set update]; rewrite ?F;
    apply (f_equal (@Ok _)); repeat (apply (f_equal2 (@cons N)); [first [reflexivity|apply F0]|]);
    reflexivity.
Qed.

Lemma flips_ok ps w : (forall p, In p ps -> p < 15) ->
  foldM (fun f error => i <- sub_nat (length f) (N.to_nat error + 1) ;;
                        b <- get f i ;; set f i (N.lxor b 1)) ps (word_bits w)
  = Ok (word_bits (N.lxor w (flips ps))).
Proof.
  intros H.
  assert (G : forall a b, fold_left (fun a p => N.lxor a (2 ^ p)) ps (N.lxor a b)
            = N.lxor a (fold_left (fun a p => N.lxor a (2 ^ p)) ps b)).
  { clear H. induction ps as [|p ps IH]; intros a b; [reflexivity|]. cbn [fold_left].
    rewrite N.lxor_assoc. apply IH. }
  replace (N.lxor w (flips ps)) with (fold_left (fun a p => N.lxor a (2 ^ p)) ps w).
  2:{ unfold flips. rewrite <- G. now rewrite N.lxor_0_r. }
  clear G. revert w. induction ps as [|p ps IH]; intros w; [reflexivity|].
  cbn [foldM fold_left]. rewrite flip_one by (apply H; now left). cbn [bind].
  apply IH. intros; apply H; now right.
Qed.

(** *** The correction as a function of words *)
Definition corr (w : N) : option N :=
  if N.eqb (synd 1 w) 0 then Some w
  else
    let w' := N.lxor w (flips (candidates (synd 1 w) (synd 3 w) (synd 5 w))) in
    if N.eqb (synd 1 w') 0 then Some w' else None.

Lemma correct_corr w :
  format_correct (word_bits w)
  = match corr w with Some w' => Ok (word_bits w') | None => Err EFormatCorrupted end.
Proof.
  unfold format_correct, corr, candidates. cbv zeta. rewrite syndrome_ok. cbn [bind].
  destruct (N.eqb (synd 1 w) 0); [reflexivity|].
  rewrite !syndrome_ok. cbn [bind]. rewrite error_pos_ok. cbn [bind].
  rewrite flips_ok by apply roots_range. cbn [bind].
  rewrite syndrome_ok. cbn [bind]. now destruct (N.eqb _ 0).
Qed.

Lemma corr_shift c e : synd 1 c = 0 -> synd 3 c = 0 -> synd 5 c = 0 ->
  corr (N.lxor c e) = option_map (N.lxor c) (corr e).
Proof.
  intros H1 H3 H5. unfold corr. rewrite !synd_linear, H1, H3, H5, !N.lxor_0_l.
  destruct (N.eqb (synd 1 e) 0); [reflexivity|].
  destruct (N.eqb (N.lxor (synd 1 e) _) 0); [|reflexivity]. cbn [option_map].
  now rewrite N.lxor_assoc.
Qed.

Lemma corr_accepted w w' : corr w = Some w' -> synd 1 w' = 0.
Proof.
  unfold corr. destruct (N.eqb_spec (synd 1 w) 0); [congruence|].
  destruct (N.eqb_spec (synd 1 (N.lxor w (flips (candidates (synd 1 w) (synd 3 w) (synd 5 w))))) 0); congruence.
Qed.

(** *** Reading modules *)
Lemma qindex_ok v d q x y : shows v d q ->
  (0 <= x < side_of v)%Z -> (0 <= y < side_of v)%Z ->
  qindex q x y = Ok (bit (d x y)).
Proof.
  intros (HV & HS & HL & HD) Hx Hy. unfold qindex. rewrite HS.
  rewrite (get_nth _ _ 0).
  2:{ rewrite HL. apply Nat2Z.inj_lt. rewrite !Z2Nat.id by nia. nia. }
  cbn [bind]. specialize (HD x y Hx Hy).
  destruct (N.eqb_spec (nth (Z.to_nat (y * side_of v + x)) (qdata q) 0) 0) as [E|E].
  - apply HD in E. now rewrite E.
  - destruct (d x y); [|reflexivity]. exfalso. apply E. now apply HD.
Qed.

Lemma xor_mask_ok w : xor_mask (word_bits w) = Ok (word_bits (N.lxor w format_mask)).
Proof.
  unfold word_bits. cbn [map]. rewrite !N.lxor_spec.
  repeat match goal with |- context [N.testbit format_mask ?i] =>
    let b := eval vm_compute in (N.testbit format_mask i) in
    change (N.testbit format_mask i) with b end.
  repeat match goal with |- context [N.testbit w ?i] => generalize (N.testbit w i); intros ? end.
  assert (F : forall b c, N.lxor (bit b) (bit c) = bit (xorb b c)) by now intros [] [].
  repeat match goal with |- context [bit (xorb ?b ?c)] => rewrite <- (F b c) end.
  reflexivity.
Qed.

Lemma format1_ok v d q w : shows v d q -> (0 <= v)%Z -> carries d copy1 w ->
  format1 q = format_correct (word_bits (N.lxor w format_mask)).
Proof.
  intros HS Hv HC. assert (Hside : (17 <= side_of v)%Z) by (unfold side_of; lia).
  unfold format1. cbn [mapM].
  rewrite !(qindex_ok v d q) by (auto; lia). cbn [bind app].
  match goal with |- bind (xor_mask ?l) _ = _ => replace l with (word_bits w) end.
  - rewrite xor_mask_ok. reflexivity.
  - unfold word_bits. cbn [map].
    pose proof (HC 0%Z ltac:(lia)) as H0. pose proof (HC 1%Z ltac:(lia)) as H1.
    pose proof (HC 2%Z ltac:(lia)) as H2. pose proof (HC 3%Z ltac:(lia)) as H3.
    pose proof (HC 4%Z ltac:(lia)) as H4. pose proof (HC 5%Z ltac:(lia)) as H5.
    pose proof (HC 6%Z ltac:(lia)) as H6. pose proof (HC 7%Z ltac:(lia)) as H7.
    pose proof (HC 8%Z ltac:(lia)) as H8. pose proof (HC 9%Z ltac:(lia)) as H9.
    pose proof (HC 10%Z ltac:(lia)) as H10. pose proof (HC 11%Z ltac:(lia)) as H11.
    pose proof (HC 12%Z ltac:(lia)) as H12. pose proof (HC 13%Z ltac:(lia)) as H13.
    pose proof (HC 14%Z ltac:(lia)) as H14.
    cbv [copy1 fst snd Z.leb Z.eqb Z.compare Pos.compare Pos.compare_cont Z.to_N Pos.eqb Z.sub Z.opp Z.add Z.pos_sub
         Z.pred_double Z.double Pos.pred_double Z.succ_double] in *.
    now rewrite H0, H1, H2, H3, H4, H5, H6, H7, H8, H9, H10, H11, H12, H13, H14.
Qed.

Lemma format2_ok v d q w : shows v d q -> (0 <= v)%Z -> carries d (copy2 v) w ->
  format2 q = format_correct (word_bits (N.lxor w format_mask)).
Proof.
  intros HS Hv HC. assert (Hside : (17 <= side_of v)%Z) by (unfold side_of; lia).
  unfold format2. assert (ES : qside q = side_of v) by apply HS. rewrite ES.
  rewrite !sub_Z_ok by lia. cbn [bind].
  replace (side_of v - (side_of v - 7))%Z with 7%Z by lia.
  replace (side_of v - (side_of v - 8))%Z with 8%Z by lia.
  change (range 0 (Z.to_nat 7)) with (seq 0 7). change (range 0 (Z.to_nat 8)) with (seq 0 8).
  cbn [seq map rev app mapM].
  rewrite !(qindex_ok v d q) by (auto; lia). cbn [bind app].
  match goal with |- bind (xor_mask ?l) _ = _ => replace l with (word_bits w) end.
  - rewrite xor_mask_ok. reflexivity.
  - unfold word_bits. cbn [map].
    assert (G : forall i x y, (0 <= i < 15)%Z -> copy2 v i = (x, y) ->
                bit (N.testbit w (Z.to_N i)) = bit (d x y)).
    { intros i x y Hi E. rewrite <- (HC i Hi), E. reflexivity. }
    repeat (apply (f_equal2 (@cons N));
      [match goal with |- bit (N.testbit w ?i) = _ =>
         let z := eval vm_compute in (Z.of_N i) in
         apply (G z); [lia|unfold copy2;
           first [change (z <=? 7)%Z with true | change (z <=? 7)%Z with false];
           cbv iota; f_equal; lia] end|]).
    reflexivity.
Qed.

(** *** The values read from a word *)
Definition word_level (w : N) : eclevel :=
  match N.testbit w 14, N.testbit w 13 with
  | false, true => LOW | false, false => MEDIUM | true, true => QUARTILE | true, false => HIGH
  end.
Definition word_mask (w : N) : N :=
  4 * bit (N.testbit w 12) + 2 * bit (N.testbit w 11) + bit (N.testbit w 10).

Definition read_word (w : N) : option (eclevel * N) :=
  option_map (fun w' => (word_level w', word_mask w')) (corr (N.lxor w format_mask)).

Lemma format_ok v d q w1 w2 : shows v d q -> (0 <= v)%Z ->
  carries d copy1 w1 -> carries d (copy2 v) w2 ->
  format q = match read_word w1 with
             | Some r => Ok r
             | None => match read_word w2 with
                       | Some r => Ok r
                       | None => Err EFormatCorrupted end end.
Proof.
  intros HS Hv H1 H2. unfold format, read_word.
  rewrite (format1_ok v d q w1), (format2_ok v d q w2) by auto. rewrite !correct_corr.
  assert (G : forall w', (f0 <- get (word_bits w') 0 ;; f1 <- get (word_bits w') 1 ;;
     correction <- unwrap (error_correction (2 * f0 + f1)) ;;
     f2 <- get (word_bits w') 2 ;; f3 <- get (word_bits w') 3 ;; f4 <- get (word_bits w') 4 ;;
     m <- unwrap (mask (4 * f2 + 2 * f3 + f4)) ;; Ok (correction, m))
     = Ok (word_level w', word_mask w')).
  { intros w'. unfold word_bits, word_level, word_mask. cbn [map].
    cbv [get nth_error bind].
    destruct (N.testbit w' 14), (N.testbit w' 13), (N.testbit w' 12), (N.testbit w' 11),
      (N.testbit w' 10); reflexivity. }
  destruct (corr (N.lxor w1 format_mask)) as [w'|]; [apply G|].
  destruct (corr (N.lxor w2 format_mask)) as [w'|]; [apply G|]. reflexivity.
Qed.

(** every symbol carries some word in each place *)
Definition word_at (d : matrix) (place : Z -> Z * Z) : N :=
  fold_left (fun a i => 2 * a + bit (d (fst (place i)) (snd (place i))))
    [14; 13; 12; 11; 10; 9; 8; 7; 6; 5; 4; 3; 2; 1; 0]%Z 0.

Lemma word_at_carries d place : carries d place (word_at d place).
Proof.
  intros i Hi. unfold word_at. cbn [fold_left].
  assert (E : In i (map Z.of_nat (seq 0 15))).
  { apply in_map_iff. exists (Z.to_nat i). split; [lia|]. apply in_seq. lia. }
  revert i E Hi.
  assert (F0 : forall a b, N.testbit (2 * a + bit b) 0 = b).
  { intros a []; cbn [bit]; [now rewrite N.testbit_odd_0|].
    rewrite N.add_0_r. apply N.testbit_even_0. }
  assert (FS : forall a b n, N.testbit (2 * a + bit b) (N.succ n) = N.testbit a n).
  { intros a [] n; cbn [bit]; [now rewrite N.testbit_odd_succ by lia|].
    rewrite N.add_0_r. apply N.testbit_even_succ. lia. }
  assert (G : forall l a n, (n < length l)%nat ->
     N.testbit (fold_left (fun a i => 2 * a + bit (d (fst (place i)) (snd (place i)))) l a) (N.of_nat n)
     = d (fst (place (nth n (rev l) 0%Z))) (snd (place (nth n (rev l) 0%Z)))).
  { intros l. pattern l. apply rev_ind; clear l.
    - cbn [length]. intros a n H. lia.
    - intros x l IH a n H. rewrite fold_left_app. cbn [fold_left]. rewrite rev_app_distr. cbn [rev app].
      destruct n as [|n]; [apply F0|]. rewrite Nat2N.inj_succ, FS. cbn [nth].
      apply IH. rewrite app_length in H. cbn [length] in H. lia. }
  intros i E Hi. apply in_map_iff in E as (n & <- & Hn). apply in_seq in Hn.
  specialize (G [14; 13; 12; 11; 10; 9; 8; 7; 6; 5; 4; 3; 2; 1; 0]%Z 0 n ltac:(cbn [length]; lia)).
  cbn [fold_left] in G. replace (Z.to_N (Z.of_nat n)) with (N.of_nat n) by lia. rewrite G.
  replace (nth n (rev [14; 13; 12; 11; 10; 9; 8; 7; 6; 5; 4; 3; 2; 1; 0]%Z) 0%Z) with (Z.of_nat n); [reflexivity|].
  clear - Hn. do 15 (destruct n as [|n]; [reflexivity|]). lia.
Qed.

(** *** All error patterns of low weight *)
Fixpoint patterns (n w : nat) : list N :=
  match n with
  | O => [0]
  | S n =>
      map N.double (patterns n w) ++
      match w with O => [] | S w => map N.succ_double (patterns n w) end
  end.

Lemma patterns_all n : forall w e, e < 2 ^ N.of_nat n -> ones e <= N.of_nat w -> In e (patterns n w).
Proof.
  induction n as [|n IH]; intros w e He Hw.
  - left. change (2 ^ N.of_nat 0) with 1 in He. lia.
  - rewrite Nat2N.inj_succ, N.pow_succ_r' in He. cbn [patterns]. apply in_or_app.
    destruct e as [|[p|p|]].
    + left. apply (in_map N.double _ 0). apply IH; [|cbn; lia]. clear. induction n; cbn; lia.
    + right. change (ones (N.pos p~1)) with (1 + ones (N.pos p)) in Hw.
      destruct w as [|w]; [lia|]. apply (in_map N.succ_double _ (N.pos p)).
      apply IH; lia.
    + left. change (ones (N.pos p~0)) with (ones (N.pos p)) in Hw.
      apply (in_map N.double _ (N.pos p)). apply IH; lia.
    + right. change (ones 1) with 1 in Hw. destruct w as [|w]; [lia|].
      apply (in_map N.succ_double _ 0). apply IH; [|cbn; lia]. clear. induction n; cbn; lia.
Qed.

Definition check_pattern (e : N) : bool :=
  if fair e then
    match corr e with
    | Some 0 => negb (N.testbit e 0)
    | Some _ => false
    | None => N.testbit e 0
    end
  else true.

Lemma all_patterns : forallb check_pattern (patterns 15 3) = true.
Proof. vm_compute. reflexivity. Qed.

Lemma corr_fair e : e < 2 ^ 15 -> fair e = true ->
  corr e = if N.testbit e 0 then None else Some 0.
Proof.
  intros He Hf.
  assert (Hw : ones e <= 3).
  { unfold fair in Hf. destruct (N.ltb_spec (ones e) 3); [lia|].
    destruct (N.eqb_spec (ones e) 3); [lia|discriminate]. }
  pose proof (proj1 (forallb_forall _ _) all_patterns e (patterns_all 15 3 e He Hw)) as H.
  unfold check_pattern in H. rewrite Hf in H.
  destruct (corr e) as [[|p]|]; [|discriminate|]; destruct (N.testbit e 0); now try discriminate.
Qed.

Lemma bch_codewords d : d < 32 -> synd 1 (bch_word d) = 0 /\ synd 3 (bch_word d) = 0 /\ synd 5 (bch_word d) = 0.
Proof.
  revert d. apply (below (fun d => synd 1 (bch_word d) = 0 /\ synd 3 (bch_word d) = 0 /\ synd 5 (bch_word d) = 0) 32).
  repeat (apply Forall_cons; [repeat split; vm_compute; reflexivity|]). apply Forall_nil.
Qed.

Lemma bch_values l m : m < 8 ->
  8 * level_bits l + m < 32 /\
  word_level (bch_word (8 * level_bits l + m)) = eclevel_of l /\
  word_mask (bch_word (8 * level_bits l + m)) = m.
Proof.
  revert m. apply (below (fun m => 8 * level_bits l + m < 32 /\
    word_level (bch_word (8 * level_bits l + m)) = eclevel_of l /\
    word_mask (bch_word (8 * level_bits l + m)) = m) 8).
  destruct l; repeat (apply Forall_cons; [repeat split; vm_compute; reflexivity|]); apply Forall_nil.
Qed.

Lemma read_damaged l m e : m < 8 ->
  read_word (N.lxor (format_word l m) e) =
  option_map (fun r => (word_level (N.lxor (bch_word (8 * level_bits l + m)) r),
                        word_mask (N.lxor (bch_word (8 * level_bits l + m)) r))) (corr e).
Proof.
  intros Hm. destruct (bch_values l m Hm) as (Hd & _).
  destruct (bch_codewords _ Hd) as (H1 & H3 & H5).
  unfold read_word, format_word.
  replace (N.lxor (N.lxor (N.lxor (bch_word (8 * level_bits l + m)) format_mask) e) format_mask)
    with (N.lxor (bch_word (8 * level_bits l + m)) e).
  - rewrite corr_shift by assumption. now destruct (corr e).
  - generalize (bch_word (8 * level_bits l + m)) format_mask. intros a b.
    apply N.bits_inj. intros i. rewrite !N.lxor_spec.
    destruct (N.testbit a i), (N.testbit b i), (N.testbit e i); reflexivity.
Qed.

Lemma read_fair l m e : m < 8 -> e < 2 ^ 15 -> fair e = true ->
  read_word (N.lxor (format_word l m) e) = if N.testbit e 0 then None else Some (eclevel_of l, m).
Proof.
  intros Hm He Hf. rewrite read_damaged by exact Hm. rewrite corr_fair by assumption.
  destruct (N.testbit e 0); [reflexivity|]. cbn [option_map]. rewrite N.lxor_0_r.
  destruct (bch_values l m Hm) as (_ & -> & ->). reflexivity.
Qed.

(** *** Delivering a symbol *)
Definition deliver (v : Z) (d : matrix) : qrdata :=
  mkQRData (flat_map (fun y => map (fun x => if d (Z.of_nat x) (Z.of_nat y) then 0 else 255)
                                   (seq 0 (Z.to_nat (side_of v))))
                     (seq 0 (Z.to_nat (side_of v)))) v (side_of v).

Lemma nth_grid {A} (f : nat -> nat -> A) n m x y dflt : (x < n)%nat -> (y < m)%nat ->
  nth (y * n + x) (flat_map (fun y => map (fun x => f x y) (seq 0 n)) (seq 0 m)) dflt = f x y.
Proof.
  intros Hx Hy.
  assert (G : forall k s y, (y < k)%nat ->
    nth (y * n + x) (flat_map (fun y => map (fun x => f x y) (seq 0 n)) (seq s k)) dflt = f x (s + y)%nat).
  { clear y Hy. induction k as [|k IH]; intros s y Hy; [lia|]. cbn [seq flat_map].
    destruct y as [|y].
    - rewrite app_nth1 by (rewrite map_length, seq_length; lia).
      rewrite (nth_indep _ dflt (f 0%nat s)) by (rewrite map_length, seq_length; lia).
      cbn [Nat.mul Nat.add].
      change (f 0%nat s) with ((fun x => f x s) 0%nat). rewrite map_nth, seq_nth by lia.
      f_equal; lia.
    - rewrite app_nth2 by (rewrite map_length, seq_length; lia).
      rewrite map_length, seq_length.
      replace (S y * n + x - n)%nat with (y * n + x)%nat by lia.
      rewrite IH by lia. f_equal; lia. }
  now rewrite G.
Qed.

Lemma length_grid {A} (f : nat -> nat -> A) n m :
  length (flat_map (fun y => map (fun x => f x y) (seq 0 n)) (seq 0 m)) = (m * n)%nat.
Proof.
  generalize 0%nat at 2. induction m as [|m IH]; intros s; [reflexivity|]. cbn [seq flat_map].
  rewrite app_length, map_length, seq_length, IH. reflexivity.
Qed.

Lemma deliver_shows v d : (0 <= v)%Z -> shows v d (deliver v d).
Proof.
  intros Hv. assert (HS : (17 <= side_of v)%Z) by (unfold side_of; lia).
  repeat split.
  - cbn [qdata deliver].
    rewrite (length_grid (fun x y => if d (Z.of_nat x) (Z.of_nat y) then 0 else 255)). lia.
  - cbn [qdata deliver]. intros E.
    replace (Z.to_nat (y * side_of v + x))
      with (Z.to_nat y * Z.to_nat (side_of v) + Z.to_nat x)%nat by lia.
    rewrite (nth_grid (fun x y => if d (Z.of_nat x) (Z.of_nat y) then 0 else 255)) by lia.
    rewrite !Z2Nat.id by lia. now rewrite E.
  - cbn [qdata deliver].
    replace (Z.to_nat (y * side_of v + x))
      with (Z.to_nat y * Z.to_nat (side_of v) + Z.to_nat x)%nat by lia.
    rewrite (nth_grid (fun x y => if d (Z.of_nat x) (Z.of_nat y) then 0 else 255)) by lia.
    rewrite !Z2Nat.id by lia. now destruct (d x y).
Qed.

(** a symbol that shows two given format words and is light elsewhere *)
Definition draw (v : Z) (w1 w2 : N) : matrix := draw_on v w1 w2 (fun _ _ => false).

Lemma below_Z (P : Z -> Prop) n : Forall P (map Z.of_nat (seq 0 n)) -> forall i, (0 <= i < Z.of_nat n)%Z -> P i.
Proof.
  intros H e He. rewrite Forall_forall in H. apply H. apply in_map_iff.
  exists (Z.to_nat e). split; [lia|]. apply in_seq. lia.
Qed.

Lemma draw_1 w1 w2 : carries (draw 1 w1 w2) copy1 w1.
Proof.
  unfold carries. apply (below_Z _ 15). repeat (apply Forall_cons; [vm_compute; reflexivity|]). apply Forall_nil.
Qed.

Lemma draw_2 w1 w2 : carries (draw 1 w1 w2) (copy2 1) w2.
Proof.
  unfold carries. apply (below_Z _ 15). repeat (apply Forall_cons; [vm_compute; reflexivity|]). apply Forall_nil.
Qed.

Lemma sum1_synd w : sum1 w = synd 1 w.
Proof.
  unfold synd, sum1, wrong_bits.
  assert (G : forall l s, (forall i, In i l -> (i < 15)%nat) ->
     fold_left (fun s i => if N.testbit w (N.of_nat i)
                        then N.lxor s (nth ((1 * i) mod 15) EXP4 0) else s) l s
     = N.lxor s (fold_right N.lxor 0 (map gf16_power (filter (fun i => N.testbit w (N.of_nat i)) l)))).
  { induction l as [|i l IH]; intros s Hl; [cbn; now rewrite N.lxor_0_r|]. cbn [fold_left filter].
    rewrite IH by (intros; apply Hl; now right).
    destruct (N.testbit w (N.of_nat i)); [|reflexivity]. cbn [map fold_right].
    rewrite <- N.lxor_assoc. f_equal. f_equal.
    assert (Hi : (i < 15)%nat) by (apply Hl; now left). clear - Hi.
    do 15 (destruct i as [|i]; [reflexivity|]). lia. }
  rewrite G; [now rewrite N.lxor_0_l|]. intros i H. apply in_seq in H. lia.
Qed.
