(** From the blocks of a symbol to its text. *)
From Coq Require Import NArith ZArith List Lia Bool Arith.
From Verif.Model Require Import QRDecoder.
From Verif.Spec Require Import Bits Segments GF256 RS Symbol Layout Bridge Message.
From Verif.Proofs Require Import BaseP BitsP GaloisP FormatP LayoutP CountP BlocksP StreamBytesP CorrectP RSBridgeP StreamP.
From Verif.Props Require Import CorrectProps.
Import ListNotations.
Local Open Scope N_scope.

(** *** Correcting all blocks *)
Definition fixed (pair : list N * block_info_t) (r : list N * N) : Prop :=
  correct_with_error_count (fst pair) (snd pair) = Ok r.

Definition sumN (l : list N) : N := fold_right N.add 0 l.

Lemma collect_info_ok pairs rs : Forall2 fixed pairs rs -> forall all n,
  foldM (fun '(all_blocks, total_errors) '(block, bi) =>
           '(corrected, error_count) <- correct_with_error_count block bi ;;
           Ok (all_blocks ++ firstn (data_per bi) corrected, total_errors + error_count))
        pairs (all, n)
  = Ok (all ++ concat (map (fun '(p, r) => firstn (data_per (snd p)) (fst r)) (combine pairs rs)),
        n + sumN (map snd rs)).
Proof.
  induction 1 as [|[b bi] [c k] pairs rs H HF IH]; intros all n.
  - cbn. now rewrite app_nil_r, N.add_0_r.
  - cbn [foldM]. unfold fixed in H. cbn [fst snd] in H. rewrite H. cbn [bind].
    rewrite IH. cbn [combine map concat fst snd]. rewrite app_assoc. f_equal. f_equal.
    unfold sumN. cbn [fold_right]. lia.
Qed.

(** either all blocks are corrected, or the first that is not decides *)
Lemma collect_cases pairs :
  (exists rs, Forall2 fixed pairs rs) \/
  exists pre b bi post rs, pairs = pre ++ (b, bi) :: post /\ Forall2 fixed pre rs /\
    forall r, correct_with_error_count b bi <> Ok r.
Proof.
  induction pairs as [|[b bi] pairs IH]; [left; exists []; constructor|].
  destruct (correct_with_error_count b bi) as [r|e|p] eqn:E.
  - destruct IH as [(rs & H)|(pre & b' & bi' & post & rs & -> & HF & H)].
    + left. exists (r :: rs). now constructor.
    + right. exists ((b, bi) :: pre), b', bi', post, (r :: rs). split; [reflexivity|]. split; [now constructor|exact H].
  - right. exists [], b, bi, pairs, []. rewrite E. repeat split; [constructor|discriminate].
  - right. exists [], b, bi, pairs, []. rewrite E. repeat split; [constructor|discriminate].
Qed.

Lemma collect_stuck pre b bi post rs : Forall2 fixed pre rs ->
  (forall r, correct_with_error_count b bi <> Ok r) ->
  collect_with_info (pre ++ (b, bi) :: post)
  = (_ <- correct_with_error_count b bi ;; Ok ([], 0)).
Proof.
  intros HF H. unfold collect_with_info. rewrite foldM_app, (collect_info_ok pre rs HF). cbn [bind foldM].
  destruct (correct_with_error_count b bi) as [r| |]; [now contradiction (H r)|reflexivity..].
Qed.

Lemma collect_info pairs rs : Forall2 fixed pairs rs -> collect_with_info pairs
  = Ok (concat (map (fun '(p, r) => firstn (data_per (snd p)) (fst r)) (combine pairs rs)), sumN (map snd rs)).
Proof. intros HF. unfold collect_with_info. now rewrite (collect_info_ok pairs rs HF). Qed.

(** the two ways to collect agree *)
Definition forget {A B} (x : res (A * B)) : res A :=
  match x with Ok (a, _) => Ok a | Err e => Err e | Panic p => Panic p end.

Lemma collect_forget pairs : collect pairs = forget (collect_with_info pairs).
Proof.
  unfold collect, collect_with_info.
  assert (G : forall all n, foldM (fun all_blocks '(block, bi) =>
           corrected <- correct block bi ;;
           Ok (all_blocks ++ firstn (data_per bi) corrected)) pairs all
    = forget (foldM (fun '(all_blocks, total_errors) '(block, bi) =>
           '(corrected, error_count) <- correct_with_error_count block bi ;;
           Ok (all_blocks ++ firstn (data_per bi) corrected, total_errors + error_count))
        pairs (all, n))).
  { induction pairs as [|[b bi] pairs IH]; intros all n; [reflexivity|]. cbn [foldM]. unfold correct at 1.
    destruct (correct_with_error_count b bi) as [[c k]| |]; cbn [bind]; [apply IH|reflexivity..]. }
  apply G.
Qed.

Lemma decode_forget x : qr_decode x = forget (qr_decode_with_info x).
Proof.
  unfold qr_decode, qr_decode_with_info. destruct x as [q| |]; cbn [bind]; [|reflexivity..].
  destruct (format q) as [[l m]| |]; cbn [bind]; [|reflexivity..].
  destruct (blocks q l m) as [blks| |]; cbn [bind]; [|reflexivity..].
  destruct (block_info (qversion q) l) as [bis| |]; cbn [bind]; [|reflexivity..].
  rewrite collect_forget. destruct (collect_with_info (combine blks bis)) as [[all n]| |]; cbn [forget bind]; [|reflexivity..].
  destruct (data all (qversion q)); reflexivity.
Qed.

(** *** The table of a symbol *)
Lemma level_of l : exists l', l = eclevel_of l'.
Proof. destruct l; [exists L|exists M|exists Q|exists H]; reflexivity. Qed.

Lemma info_in_table v l bis bi : block_info v (eclevel_of l) = Ok bis -> In bi bis ->
  exists tbl, block_table v (eclevel_of l) = Some tbl /\ In bi tbl.
Proof.
  unfold block_info. destruct (block_table v (eclevel_of l)) as [tbl|]; [|discriminate]. intros E HI.
  injection E as <-. exists tbl. split; [reflexivity|]. unfold unwind in HI.
  apply in_flat_map in HI as (x & Hx & HI). apply repeat_spec in HI. now subst.
Qed.

(** a symbol's blocks beside their entries of the table *)
Definition pairs_of (parts : list (list N * list N)) (bis : list block_info_t) :=
  combine (map whole parts) bis.

Record entry_of v l (p : list N * list N) (bi : block_info_t) : Prop := {
  entry_table : exists tbl, block_table v (eclevel_of l) = Some tbl /\ In bi tbl;
  entry_data : data_per bi = length (fst p);
  entry_total : total_per bi = length (whole p);
  entry_ec : (data_per bi + ec_codewords v l)%nat = total_per bi;
  entry_cap : ec_cap bi = correctable v l }.

Lemma entries v l bis parts : (1 <= v <= 40)%Z -> block_info v (eclevel_of l) = Ok bis -> block_shape v l parts ->
  Forall2 (entry_of v l) parts bis.
Proof.
  intros Hv EI HS. destruct (info_facts v l Hv) as (bis' & EI' & _ & ED & EC & HF & _).
  rewrite EI in EI'. injection EI' as <-.
  assert (HIn : forall bi, In bi bis -> exists tbl, block_table v (eclevel_of l) = Some tbl /\ In bi tbl)
    by (intros; eapply info_in_table; eauto).
  assert (HC : Forall (fun bi => ec_cap bi = correctable v l) bis).
  { apply Forall_forall. intros bi Hbi. apply (in_map ec_cap) in Hbi. rewrite EC in Hbi. now apply repeat_spec in Hbi. }
  destruct HS as [H1 H2]. rewrite <- H1 in ED. clear H1 EI EC. revert bis ED HF HIn HC.
  induction H2 as [|p parts Hp HP IH]; intros [|bi bis] ED HF HIn HC; try discriminate; constructor.
  - injection ED as E1 E2. inversion HF as [|? ? Hb Hbs]; subst. inversion HC; subst.
    constructor; auto; [apply HIn; now left| |lia].
    unfold whole. rewrite app_length. lia.
  - injection ED as E1 E2. inversion HF; inversion HC; subst. apply IH; auto. intros; apply HIn; now right.
Qed.

(** *** Decoding what a symbol holds *)
Lemma decode_holds v l m d q parts bis : (1 <= v <= 40)%Z -> m < 8 -> shows v d q ->
  format q = Ok (eclevel_of l, m) -> holds v l m d parts -> block_info v (eclevel_of l) = Ok bis ->
  qr_decode_with_info (Ok q) =
  ('(all_blocks, total_errors) <- collect_with_info (pairs_of parts bis) ;;
   text <- data all_blocks v ;;
   Ok (text, mkQRInfo v (eclevel_of l) (N.of_nat (length all_blocks) * 8) total_errors)).
Proof.
  intros Hv Hm HS HF HH EI. unfold qr_decode_with_info. cbn [bind]. rewrite HF. cbn [bind].
  rewrite (blocks_ok v l m d q parts Hv Hm HS HH). cbn [bind].
  assert (EV : qversion q = v) by apply HS. rewrite EV, EI. cbn [bind]. reflexivity.
Qed.

(** every result of [format] names one of the eight masks *)
Lemma format_result v d q l m : (0 <= v)%Z -> shows v d q -> format q = Ok (l, m) -> m < 8.
Proof.
  intros Hv HS E.
  rewrite (format_ok v d q _ _ HS Hv (word_at_carries d copy1) (word_at_carries d (copy2 v))) in E.
  assert (G : forall w r, read_word w = Some r -> snd r < 8).
  { intros w r H. unfold read_word in H. destruct (corr _) as [w'|]; [|discriminate]. injection H as <-.
    cbn [snd]. unfold word_mask. destruct (N.testbit w' 12), (N.testbit w' 11), (N.testbit w' 10); reflexivity. }
  destruct (read_word (word_at d copy1)) as [r|] eqn:E1.
  - injection E as ->. exact (G _ _ E1).
  - destruct (read_word (word_at d (copy2 v))) as [r|] eqn:E2; [|discriminate].
    injection E as ->. exact (G _ _ E2).
Qed.

Lemma readable_format v l m d q : (0 <= v)%Z -> m < 8 -> shows v d q -> format_readable v l m d ->
  format q = Ok (eclevel_of l, m).
Proof.
  intros Hv Hm HS (e & He & Hf & H1 & H).
  destruct H as [H0|(e2 & He2 & Hf2 & H02 & H2)].
  - rewrite (format_ok v d q _ _ HS Hv H1 (word_at_carries d (copy2 v))), read_fair, H0 by auto. reflexivity.
  - rewrite (format_ok v d q _ _ HS Hv H1 H2), !read_fair, H02 by auto. now destruct (N.testbit e 0).
Qed.

(** *** Repair *)
Lemma errors_none c : forall b, length c = length b -> errors c b = [] -> c = b.
Proof.
  induction c as [|x c IH]; intros [|y b] HL H; try discriminate; [reflexivity|].
  cbn [errors] in H. destruct (N.eqb_spec x y); [|discriminate]. subst. f_equal. apply IH; auto.
Qed.

Lemma bit_distance_refl b : bit_distance b b = 0.
Proof. induction b as [|x b IH]; [reflexivity|]. cbn [bit_distance]. rewrite N.lxor_nilpotent, IH. reflexivity. Qed.

Lemma repair v l bi tbl c b : block_table v l = Some tbl -> In bi tbl ->
  bytes c -> bytes b -> length c = total_per bi -> length b = total_per bi ->
  codeword (total_per bi - data_per bi) c -> repairable (total_per bi) (ec_cap bi) c b ->
  correct_with_error_count b bi = Ok (c, bit_distance b c).
Proof.
  intros HT HI HBc HBb HLc HLb HC HR. unfold repairable in HR. cbv zeta in HR.
  destruct (errors c b) as [|pe es] eqn:EE.
  - apply errors_none in EE; [|congruence]. subst b. rewrite bit_distance_refl.
    now apply (C15_undamaged v l tbl bi HT HI).
  - destruct HR as [HR|(HL & HReg & Q & HBQ & HLQ & HV & HM)]; [discriminate|].
    rewrite <- EE in *. assert (HE : errors c b <> []) by congruence.
    now apply (C16_restored_partial v l tbl bi HT HI c b Q HBc HBb HLc HLb HC HE HL HReg HBQ HLQ HV).
Qed.

Definition block_bytes (parts : list (list N * list N)) : Prop :=
  Forall (fun b => Forall is_byte (fst b) /\ Forall is_byte (snd b)) parts.

Lemma whole_bytes p : Forall is_byte (fst p) /\ Forall is_byte (snd p) -> bytes (whole p).
Proof. intros [H1 H2]. apply Forall_app. auto. Qed.

(** the correction turns the received block into the sent one *)
Definition corrects (v : Z) (l : level) (s r : list N * list N) : Prop :=
  forall tbl bi, block_table v (eclevel_of l) = Some tbl -> In bi tbl -> total_per bi = length (whole s) ->
    exists n, correct_with_error_count (whole r) bi = Ok (whole s, n).

Lemma repaired_pairs v l sent received bis : Forall2 (entry_of v l) sent bis -> Forall2 (entry_of v l) received bis ->
  block_bytes received -> Forall2 (corrects v l) sent received ->
  let rs := map (fun p => (whole (fst p), bit_distance (whole (snd p)) (whole (fst p)))) (combine sent received) in
  Forall2 fixed (pairs_of received bis) rs /\
  concat (map (fun '(p, r) => firstn (data_per (snd p)) (fst r)) (combine (pairs_of received bis) rs)) = concat (map fst sent) /\
  sumN (map snd rs) = wrong_bits_in sent received.
Proof.
  intros HS HR HBR HA. cbv zeta. unfold wrong_bits_in, sumN.
  revert bis HS HR HBR. induction HA as [|s r sent received HA HAs IH]; intros bis HS HR HBR.
  - inversion HS; subst. cbn. repeat split. constructor.
  - inversion HS as [|? bi ? bis' Hs Hss]; subst. inversion HR as [|? ? ? ? Hr Hrs]; subst.
    inversion HBR as [|? ? Br Brs]; subst.
    destruct (IH bis' Hss Hrs Brs) as (I1 & I2 & I3).
    destruct Hs as [(tbl & ET & EI) Es1 Es2 Es3 Es4]. destruct Hr as [_ Er1 Er2 _ _].
    cbn [combine map pairs_of fst snd]. split; [|split].
    + constructor; [|exact I1]. unfold fixed. cbn [fst snd].
      destruct (HA tbl bi ET EI Es2) as (n & E). rewrite E. do 2 f_equal.
      exact (proj2 (C18_error_count v _ tbl bi ET EI _ _ n (whole_bytes r Br) (eq_sym Er2) E)).
    + cbn [concat]. rewrite Es1. unfold whole at 1. rewrite firstn_app, firstn_all, Nat.sub_diag. cbn [firstn].
      rewrite app_nil_r. f_equal. exact I2.
    + cbn [fold_right]. f_equal. exact I3.
Qed.

Lemma table_total v l tbl bi : block_table v (eclevel_of l) = Some tbl -> In bi tbl ->
  exists bis, block_info v (eclevel_of l) = Ok bis.
Proof. intros E _. unfold block_info. rewrite E. eauto. Qed.

Lemma repairable_corrects v l s r tbl bi : block_table v (eclevel_of l) = Some tbl -> In bi tbl ->
  Forall is_byte (fst s) /\ Forall is_byte (snd s) -> Forall is_byte (fst r) /\ Forall is_byte (snd r) ->
  total_per bi = length (whole s) -> length (whole r) = length (whole s) ->
  (total_per bi - data_per bi)%nat = ec_codewords v l -> ec_cap bi = correctable v l ->
  codeword (ec_codewords v l) (whole s) ->
  repairable (length (whole s)) (correctable v l) (whole s) (whole r) ->
  exists n, correct_with_error_count (whole r) bi = Ok (whole s, n).
Proof.
  intros ET EI Bs Br HL HLr HE HC HW HA. eexists.
  apply (repair v (eclevel_of l) bi tbl); auto using whole_bytes; [congruence| |].
  - now rewrite HE.
  - now rewrite HL, HC.
Qed.

Lemma shape_length v l parts : block_shape v l parts -> length (concat (map fst parts)) = data_codewords v l.
Proof.
  intros [H _]. unfold data_codewords. rewrite <- H. clear. induction parts as [|p parts IH]; [reflexivity|].
  cbn [map concat list_sum fold_right]. rewrite app_length, IH. reflexivity.
Qed.

(** all entries of a table but for the numbers of blocks *)
Lemma table_entry v l tbl bi : (1 <= v <= 40)%Z -> block_table v (eclevel_of l) = Some tbl -> In bi tbl ->
  (total_per bi - data_per bi)%nat = ec_codewords v l /\ ec_cap bi = correctable v l.
Proof.
  intros Hv ET EI.
  assert (G : forallb (fun v => forallb (fun l => match block_table v (eclevel_of l) with
    Some tbl => forallb (fun bi => Nat.eqb (total_per bi - data_per bi) (ec_codewords v l) &&
                                   Nat.eqb (ec_cap bi) (correctable v l)) tbl
    | None => false end) [L; M; Q; H]) (map Z.of_nat (seq 1 40)) = true) by (vm_compute; reflexivity).
  rewrite forallb_forall in G.
  specialize (G v ltac:(apply in_map_iff; exists (Z.to_nat v); split; [lia|apply in_seq; lia])).
  rewrite forallb_forall in G.
  specialize (G l ltac:(destruct l; cbn; tauto)). rewrite ET, forallb_forall in G. specialize (G bi EI).
  apply andb_true_iff in G. rewrite !Nat.eqb_eq in G. exact G.
Qed.

Lemma shapes_length v l sent received : block_shape v l sent -> block_shape v l received ->
  Forall2 (fun s r => length (whole r) = length (whole s)) sent received.
Proof.
  intros [H1 H2] [H3 H4]. rewrite <- H3 in H1. clear H3. unfold whole.
  revert received H1 H4. induction H2 as [|s sent Hs HS IH]; intros [|r received] H1 H4; try discriminate; constructor.
  - cbn [map] in H1. injection H1 as H1 _. inversion H4; subst. rewrite !app_length. congruence.
  - cbn [map] in H1. injection H1 as _ H1. inversion H4; subst. auto.
Qed.

Lemma decode_corrected v l m d q sent received segs texts :
  (1 <= v <= 40)%Z -> m < 8 -> shows v d q ->
  format q = Ok (eclevel_of l, m) -> holds v l m d received ->
  block_shape v l sent -> block_bytes sent -> encodes v l sent segs ->
  Forall (raw_wf v) segs -> Forall2 raw_text segs texts ->
  Forall2 (corrects v l) sent received ->
  qr_decode_with_info (Ok q)
  = Ok (concat texts, mkQRInfo v (eclevel_of l) (8 * N.of_nat (data_codewords v l)) (wrong_bits_in sent received)).
Proof.
  intros Hv Hm HS HF HH Hsh HB (HC & tail & Ht & HBits) HW HT HA.
  destruct (info_facts v l Hv) as (bis & EI & _).
  rewrite (decode_holds v l m d q received bis) by auto.
  pose proof HH as (Hsh' & HB' & _).
  destruct (repaired_pairs v l sent received bis) as (H1 & H2 & H3); auto using entries.
  rewrite (collect_info _ _ H1), H2, H3. cbn [bind].
  assert (HD : data (concat (map fst sent)) v = Ok (concat texts)).
  { apply (data_stream v _ segs texts tail Done Hv); auto; [|now apply ending_done].
    clear - HB. induction HB as [|p parts [Hp _] HB IH]; cbn [map concat]; [constructor|]. apply Forall_app. auto. }
  rewrite HD. cbn [bind]. rewrite (shape_length v l) by exact Hsh. f_equal. f_equal. f_equal. lia.
Qed.

Lemma all_corrects v l sent received : (1 <= v <= 40)%Z -> block_shape v l sent -> block_shape v l received ->
  block_bytes sent -> block_bytes received -> Forall (fun b => codeword (ec_codewords v l) (whole b)) sent ->
  all_repairable v l sent received -> Forall2 (corrects v l) sent received.
Proof.
  intros Hv H1 H2 B1 B2 HC HA. pose proof (shapes_length v l sent received H1 H2) as HL. clear H1 H2.
  revert HL B1 B2 HC. induction HA as [|s r sent received HA HAs IH]; intros HL B1 B2 HC; constructor.
  - inversion HL; inversion B1; inversion B2; inversion HC; subst. intros tbl bi ET EI ETot.
    destruct (table_entry v l tbl bi Hv ET EI). apply (repairable_corrects v l s r tbl bi); auto.
  - inversion HL; inversion B1; inversion B2; inversion HC; subst. auto.
Qed.

Lemma errors_refl c : errors c c = [].
Proof. induction c as [|x c IH]; [reflexivity|]. cbn [errors]. now rewrite N.eqb_refl. Qed.

Lemma undamaged_repairable v l parts : all_repairable v l parts parts.
Proof.
  unfold all_repairable. induction parts as [|p parts IH]; constructor; [|exact IH].
  left. apply errors_refl.
Qed.

Lemma undamaged_bits parts : wrong_bits_in parts parts = 0.
Proof.
  unfold wrong_bits_in. induction parts as [|p parts IH]; [reflexivity|]. cbn [combine map fold_right fst snd].
  rewrite bit_distance_refl, IH. reflexivity.
Qed.

(** *** Any symbol *)
Lemma corrected_bytes v l tbl bi b b' n : block_table v l = Some tbl -> In bi tbl ->
  bytes b -> length b = total_per bi -> correct_with_error_count b bi = Ok (b', n) -> bytes b'.
Proof.
  intros HT HI HB HL E. destruct (lift_bytes b HB) as [g ->]. rewrite map_length in HL.
  destruct (run_accepted bi g _ b' n (correct_run bi g (TL v l tbl bi HT HI) HL) E) as (g' & -> & _).
  apply Forall_forall. intros a Ha. apply in_map_iff in Ha. destruct Ha as (x & <- & _). exact (gv_lt x).
Qed.

Lemma every_data q : (0 <= qversion q)%Z -> qside q = side_of (qversion q) ->
  length (qdata q) = Z.to_nat (qside q * qside q) -> exists d, shows (qversion q) d q.
Proof.
  intros Hv HS HL.
  exists (fun x y => N.eqb (nth (Z.to_nat (y * side_of (qversion q) + x)) (qdata q) 0) 0).
  split; [reflexivity|]. split; [exact HS|]. split; [now rewrite <- HS|].
  intros x y _ _. apply N.eqb_eq.
Qed.

Lemma format_no_panic v d q : (0 <= v)%Z -> shows v d q ->
  (exists l m, format q = Ok (eclevel_of l, m) /\ m < 8) \/ format q = Err EFormatCorrupted.
Proof.
  intros Hv HS. destruct (format q) as [[l m]|e|p] eqn:E.
  - left. destruct (level_of l) as (l' & ->). exists l', m. split; [reflexivity|]. exact (format_result v d q _ m Hv HS E).
  - right. rewrite (format_ok v d q _ _ HS Hv (word_at_carries d copy1) (word_at_carries d (copy2 v))) in E.
    destruct (read_word _); [discriminate|]. destruct (read_word _); [discriminate|]. now symmetry.
  - rewrite (format_ok v d q _ _ HS Hv (word_at_carries d copy1) (word_at_carries d (copy2 v))) in E.
    destruct (read_word _); [discriminate|]. destruct (read_word _); discriminate.
Qed.

Lemma pairs_bytes v l received bis : Forall2 (entry_of v l) received bis -> block_bytes received ->
  Forall (fun p => exists tbl, block_table v (eclevel_of l) = Some tbl /\ In (snd p) tbl /\
                   bytes (fst p) /\ length (fst p) = total_per (snd p)) (pairs_of received bis).
Proof.
  unfold pairs_of. induction 1 as [|r bi received bis Hr HF IH]; intros HB; cbn [map combine]; constructor.
  - inversion HB as [|? ? Br Brs]; subst. destruct Hr as [(tbl & ET & EI) E1 E2 E3 E4].
    exists tbl. cbn [fst snd]. auto using whole_bytes.
  - inversion HB; subst. auto.
Qed.

Lemma table_unique v l tbl bi bi' : block_table v (eclevel_of l) = Some tbl -> In bi tbl -> In bi' tbl ->
  total_per bi = total_per bi' -> bi = bi'.
Proof.
  intros ET EI EI' EL. pose proof (block_table_range v (eclevel_of l) ltac:(congruence)) as Hv.
  assert (G : forallb (fun v => forallb (fun l => match block_table v (eclevel_of l) with
    Some tbl => forallb (fun b => forallb (fun b' => negb (Nat.eqb (total_per b) (total_per b')) ||
       (Nat.eqb (block_count b) (block_count b') && Nat.eqb (data_per b) (data_per b') && Nat.eqb (ec_cap b) (ec_cap b'))) tbl) tbl
    | None => false end) [L; M; Q; H]) (map Z.of_nat (seq 1 40)) = true) by (vm_compute; reflexivity).
  rewrite forallb_forall in G.
  specialize (G v ltac:(apply in_map_iff; exists (Z.to_nat v); split; [lia|apply in_seq; lia])).
  rewrite forallb_forall in G.
  specialize (G l ltac:(destruct l; cbn; tauto)). rewrite ET, forallb_forall in G. specialize (G bi EI).
  rewrite forallb_forall in G. specialize (G bi' EI'). rewrite EL, Nat.eqb_refl in G. cbn [negb orb] in G.
  rewrite !andb_true_iff, !Nat.eqb_eq in G. destruct bi, bi'. cbn in *. destruct G as [[-> ->] ->]. now subst.
Qed.

(** what becomes of any symbol of versions 1 to 40 *)
Lemma decode_any v d q l m : (1 <= v <= 40)%Z -> shows v d q -> format q = Ok (eclevel_of l, m) ->
  exists received, holds v l m d received /\
  ((exists e, qr_decode_with_info (Ok q) = Err e /\
      exists b tbl bi, In b received /\ block_table v (eclevel_of l) = Some tbl /\ In bi tbl /\
        total_per bi = length (whole b) /\ correct_with_error_count (whole b) bi = Err e) \/
   (exists corrected, block_shape v l corrected /\ block_bytes corrected /\ Forall2 (corrects v l) corrected received /\
      qr_decode_with_info (Ok q) =
      (text <- data (concat (map fst corrected)) v ;;
       Ok (text, mkQRInfo v (eclevel_of l) (8 * N.of_nat (data_codewords v l)) (wrong_bits_in corrected received))))).
Proof.
  intros Hv HS HF. pose proof (format_result v d q _ m ltac:(lia) HS HF) as Hm.
  destruct (holds_some v l m d Hv) as (received & HH). destruct (info_facts v l Hv) as (bis & EI & _).
  exists received. split; [exact HH|].
  rewrite (decode_holds v l m d q received bis) by auto.
  pose proof HH as (Hsh & HB & _).
  pose proof (entries v l bis received Hv EI Hsh) as HE.
  pose proof (pairs_bytes v l received bis HE HB) as HP.
  destruct (collect_cases (pairs_of received bis)) as [(rs & H)|(pre & b & bi & post & rs & E & H1 & H2)].
  - right.
    assert (HT : exists corrected, Forall2 (entry_of v l) corrected bis /\ block_bytes corrected /\
       Forall2 (corrects v l) corrected received /\
       map (fun p => length (fst p)) corrected = map (fun p => length (fst p)) received /\
       Forall (fun b => length (snd b) = ec_codewords v l) corrected).
    { revert HE HP H. clear. unfold pairs_of. intros HE. revert rs.
      induction HE as [|r bi received bis Hr HE IH]; intros rs HP H; cbn [map combine] in *.
      - exists []. repeat split; constructor.
      - inversion H as [|? [c n] ? rs' Hc Hcs]; subst. inversion HP as [|? ? Hp Hps]; subst.
        destruct (IH rs' Hps Hcs) as (cs & I1 & I2 & I3 & I4 & I5).
        destruct Hp as (tbl & ET & EI & HBb & HL). cbn [fst snd] in *. unfold fixed in Hc. cbn [fst snd] in Hc.
        destruct (C18_error_count v (eclevel_of l) tbl bi ET EI (whole r) c n HBb HL Hc) as [HL' _].
        pose proof (corrected_bytes v _ tbl bi _ c n ET EI HBb HL Hc) as HCB.
        destruct Hr as [_ E1 E2 E3 E4].
        assert (W : whole (firstn (data_per bi) c, skipn (data_per bi) c) = c) by apply firstn_skipn.
        assert (L1 : length (firstn (data_per bi) c) = data_per bi) by (rewrite firstn_length; lia).
        exists ((firstn (data_per bi) c, skipn (data_per bi) c) :: cs). split; [|split; [|split; [|split]]].
        + constructor; [|exact I1]. constructor; eauto; rewrite ?W; cbn [fst snd]; congruence.
        + constructor; [|exact I2]. cbn [fst snd]. rewrite <- (firstn_skipn (data_per bi) c) in HCB.
          apply Forall_app in HCB. exact HCB.
        + constructor; [|exact I3]. intros tbl' bi' ET' EI' EL'. rewrite W in *.
          rewrite ET in ET'. injection ET' as <-.
          assert (bi' = bi) by (apply (table_unique v l tbl); auto; congruence). subst bi'. eauto.
        + cbn [map fst]. congruence.
        + constructor; [|exact I5]. cbn [snd]. rewrite skipn_length. lia. }
    destruct HT as (cs & I1 & I2 & I3 & I4 & I5).
    assert (SC : block_shape v l cs) by (split; [rewrite I4; apply Hsh|exact I5]).
    exists cs. split; [exact SC|]. split; [exact I2|]. split; [exact I3|].
    destruct (repaired_pairs v l cs received bis) as (R1 & R2 & R3); auto.
    rewrite (collect_info _ _ R1), R2, R3. cbn [bind]. rewrite (shape_length v l) by exact SC.
    destruct (data _ v); cbn [bind]; [|reflexivity..]. f_equal. f_equal. f_equal. lia.
  - left. rewrite E, (collect_stuck pre b bi post rs H1 H2).
    assert (HI : In (b, bi) (pairs_of received bis)) by (rewrite E; apply in_elt).
    pose proof (proj1 (Forall_forall _ _) HP _ HI) as (tbl & ET & EIn & HBb & HL). cbn [fst snd] in *.
    destruct (correct_with_error_count b bi) as [r|e|p] eqn:EC; [now contradiction (H2 r)| |].
    + exists e. split; [reflexivity|].
      unfold pairs_of in HI. pose proof (in_combine_l _ _ _ _ HI) as HI'. apply in_map_iff in HI'.
      destruct HI' as (b' & <- & HI'). exists b', tbl, bi. auto.
    + exfalso. exact (proj1 (C19_correct_never_panics v (eclevel_of l) tbl bi ET EIn b HBb HL p) EC).
Qed.
