(** From the bits of a symbol to its blocks. *)
From Coq Require Import NArith ZArith List Lia Bool Arith Permutation.
From Verif.Model Require Import Blocks.
From Verif.Spec Require Import Bits Symbol Layout Bridge.
From Verif.Proofs Require Import BaseP BitsP FormatP LayoutP InterleaveP CountP BlocksP RSBridgeP.
Import ListNotations.
Local Open Scope Z_scope.

(** *** Bits to bytes *)
Lemma add_bits_partial b rest : (length rest < 8)%nat ->
  foldM add_bit (map bit rest) (mkCodewords 0 0 b)
  = Ok (mkCodewords (bval rest) (N.of_nat (length rest)) b).
Proof.
  induction rest as [|x rest IH] using rev_ind; intros H; [reflexivity|].
  rewrite app_length in H. cbn [length] in H.
  rewrite map_app, foldM_app, IH by lia. cbn [bind map foldM].
  unfold add_bit. cbn [cw_current cw_count cw_blocks].
  pose proof (bval_bound rest) as HB.
  assert (HP : (2 ^ N.of_nat (length rest) <= 2 ^ 6)%N) by (apply N.pow_le_mono_r; lia).
  change (2 ^ 6)%N with 64%N in HP.
  unfold mul_u8, add_u8. 
  destruct (N.leb_spec 256 (bval rest * 2)); [lia|]. cbn [bind].
  assert (Hb : (bit x <= 1)%N) by (destruct x; cbn; lia).
  destruct (N.leb_spec 256 (bval rest * 2 + bit x)); [lia|]. cbn [bind].
  destruct (N.leb_spec 256 (N.of_nat (length rest) + 1)); [lia|]. cbn [bind].
  destruct (N.eqb_spec (N.of_nat (length rest) + 1) 8); [lia|]. cbn [bind].
  f_equal. f_equal.
  - rewrite bval_app. cbn [length]. change (2 ^ N.of_nat 1)%N with 2%N. now destruct x.
  - rewrite app_length. cbn [length]. lia.
Qed.

Lemma add_byte b x : length x = 8%nat ->
  foldM add_bit (map bit x) (mkCodewords 0 0 b)
  = (b' <- blocks_push b (bval x) ;; Ok (mkCodewords 0 0 b')).
Proof.
  intros H. destruct (exists_last (l := x)) as (r & a & ->); [now destruct x|].
  rewrite app_length in H. cbn [length] in H.
  rewrite map_app, foldM_app, add_bits_partial by lia. cbn [bind map foldM].
  unfold add_bit. cbn [cw_current cw_count cw_blocks].
  pose proof (bval_bound r) as HB. replace (length r) with 7%nat in * by lia.
  change (2 ^ N.of_nat 7)%N with 128%N in HB.
  unfold mul_u8, add_u8. 
  destruct (N.leb_spec 256 (bval r * 2)); [lia|]. cbn [bind].
  assert (Hb : (bit a <= 1)%N) by (destruct a; cbn; lia).
  destruct (N.leb_spec 256 (bval r * 2 + bit a)); [lia|]. cbn [bind].
  change (256 <=? N.of_nat 7 + 1)%N with false. cbn [bind].
  change (N.of_nat 7 + 1 =? 8)%N with true. cbv iota.
  replace (bval (r ++ [a])) with (bval r * 2 + bit a)%N.
  2:{ rewrite bval_app. cbn [length]. change (2 ^ N.of_nat 1)%N with 2%N. now destruct a. }
  destruct (blocks_push b _); reflexivity.
Qed.

Lemma add_bytes bytes rest : Forall is_byte bytes -> (length rest < 8)%nat -> forall b,
  foldM add_bit (map bit (bits bytes ++ rest)) (mkCodewords 0 0 b)
  = (b' <- foldM blocks_push bytes b ;; Ok (mkCodewords (bval rest) (N.of_nat (length rest)) b')).
Proof.
  intros HF HR. induction HF as [|x bytes Hx HF IH]; intros b.
  - cbn [bits flat_map app foldM bind]. now apply add_bits_partial.
  - change (bits (x :: bytes)) with (byte_bits x ++ bits bytes).
    rewrite <- app_assoc, map_app, foldM_app, add_byte, bval_byte by (exact Hx || reflexivity).
    cbn [foldM]. destruct (blocks_push b x) as [b'| |]; cbn [bind]; [apply IH|reflexivity..].
Qed.

Lemma bits_split l : exists bytes rest, l = bits bytes ++ rest /\ Forall is_byte bytes /\
  length bytes = (length l / 8)%nat /\ (length rest < 8)%nat.
Proof.
  remember (length l) as n eqn:E. revert l E. induction n as [n IH] using lt_wf_ind. intros l E.
  destruct (Nat.lt_ge_cases n 8) as [H|H].
  - exists [], l. rewrite Nat.div_small by lia. repeat split; auto; lia.
  - destruct (IH (n - 8)%nat ltac:(lia) (skipn 8 l)) as (bytes & rest & E1 & F & E2 & HR).
    { rewrite skipn_length. lia. }
    assert (EL : length (firstn 8 l) = 8%nat) by (rewrite firstn_length; lia).
    exists (bval (firstn 8 l) :: bytes), rest.
    assert (HB : (bval (firstn 8 l) < 256)%N).
    { pose proof (bval_bound (firstn 8 l)) as HB. rewrite EL in HB. exact HB. }
    repeat split; auto.
    + change (bits (bval (firstn 8 l) :: bytes)) with (byte_bits (bval (firstn 8 l)) ++ bits bytes).
      rewrite <- bits_byte_bits8 by exact HB. rewrite <- app_assoc, <- E1.
      pose proof (nbits_bval (firstn 8 l)) as HN. rewrite EL in HN. rewrite HN. now rewrite firstn_skipn.
    + cbn [length]. rewrite E2. replace n with (n - 8 + 1 * 8)%nat at 2 by lia.
      rewrite Nat.div_add by lia. lia.
Qed.

(** *** Every stream is the interleaving of some blocks *)
Lemma flat_map_app_perm {A B} (f g : A -> list B) l :
  Permutation (flat_map (fun a => f a ++ g a) l) (flat_map f l ++ flat_map g l).
Proof.
  induction l as [|a l IH]; [constructor|]. cbn [flat_map]. rewrite IH, <- !app_assoc.
  apply Permutation_app_head. rewrite !app_assoc. apply Permutation_app_tail, Permutation_app_comm.
Qed.

Lemma flat_map_nth {A} (l : list A) : forall M, (length l <= M)%nat ->
  flat_map (fun r => match nth_error l r with Some c => [c] | None => [] end) (seq 0 M) = l.
Proof.
  induction l as [|a l IH]; intros M H.
  - induction (seq 0 M) as [|r s IHs]; [reflexivity|]. cbn [flat_map]. now destruct r.
  - destruct M as [|M]; [cbn in H; lia|]. cbn [seq flat_map nth_error app]. f_equal.
    rewrite <- seq_shift. rewrite flat_map_concat_map, map_map, <- flat_map_concat_map.
    apply IH. cbn in H. lia.
Qed.

Lemma columns_perm_from parts : forall M, (list_max (map (@length N) parts) <= M)%nat ->
  Permutation (flat_map (fun r => column r parts) (seq 0 M)) (concat parts).
Proof.
  induction parts as [|p parts IH]; intros M H.
  - cbn [concat]. unfold column. cbn [flat_map]. now induction (seq 0 M).
  - cbn [map list_max fold_right] in H.
    change (fold_right Nat.max 0%nat (map (@length N) parts)) with (list_max (map (@length N) parts)) in H.
    unfold column. cbn [flat_map].
    rewrite (flat_map_app_perm (fun r => match nth_error p r with Some c => [c] | None => [] end)
               (fun r => column r parts)).
    rewrite flat_map_nth by lia. cbn [concat]. apply Permutation_app_head, IH. lia.
Qed.

Lemma columns_perm parts : Permutation (columns parts) (concat parts).
Proof. apply columns_perm_from. reflexivity. Qed.

Lemma column_map f r parts : column r (map (map f) parts) = map f (column r parts).
Proof.
  induction parts as [|p parts IH]; [reflexivity|]. unfold column in *. cbn [map flat_map].
  rewrite map_app, IH, nth_error_map. f_equal. now destruct (nth_error p r).
Qed.

Lemma columns_map f parts : columns (map (map f) parts) = map f (columns parts).
Proof.
  unfold columns. rewrite map_map.
  replace (map (fun x => length (map f x)) parts) with (map (@length N) parts).
  2:{ apply map_ext. intros x. now rewrite map_length. }
  induction (seq 0 _) as [|r s IH]; [reflexivity|]. cbn [flat_map]. now rewrite IH, map_app, column_map.
Qed.

Definition map_part (f : N -> N) (p : list N * list N) : list N * list N := (map f (fst p), map f (snd p)).

Lemma interleave_map f parts : interleave (map (map_part f) parts) = map f (interleave parts).
Proof.
  unfold interleave. rewrite map_app, <- !columns_map, !map_map. reflexivity.
Qed.

Lemma interleave_perm parts : Permutation (interleave parts) (concat (map (fun p => fst p ++ snd p) parts)).
Proof.
  unfold interleave. rewrite !columns_perm.
  induction parts as [|p parts IH]; [constructor|]. cbn [map concat].
  rewrite <- IH, <- !app_assoc. apply Permutation_app_head.
  rewrite !app_assoc. apply Permutation_app_tail, Permutation_app_comm.
Qed.

(** parts of given lengths with consecutive entries *)
Fixpoint labels (from : nat) (lens : list (nat * nat)) : list (list N * list N) :=
  match lens with
  | [] => []
  | (d, e) :: lens =>
      (map N.of_nat (seq from d), map N.of_nat (seq (from + d) e)) :: labels (from + d + e) lens
  end.

Definition total_of (lens : list (nat * nat)) : nat := list_sum (map (fun p => fst p + snd p)%nat lens).

Lemma labels_concat lens : forall from,
  concat (map (fun p => fst p ++ snd p) (labels from lens)) = map N.of_nat (seq from (total_of lens)).
Proof.
  induction lens as [|[d e] lens IH]; intros from; [reflexivity|].
  cbn [labels map concat fst snd]. unfold total_of. cbn [map list_sum fold_right fst snd].
  change (fold_right Nat.add 0%nat (map (fun p => (fst p + snd p)%nat) lens)) with (total_of lens).
  rewrite IH, <- !map_app, <- seq_app. f_equal. rewrite <- Nat.add_assoc, <- seq_app. reflexivity.
Qed.

Lemma labels_lens lens : forall from,
  map (fun p => (length (fst p), length (snd p))) (labels from lens) = lens.
Proof.
  induction lens as [|[d e] lens IH]; intros from; [reflexivity|].
  cbn [labels map fst snd]. now rewrite IH, !map_length, !seq_length.
Qed.

Fixpoint position (l : list N) (x : N) : nat :=
  match l with [] => 0 | y :: l => if N.eqb x y then 0 else S (position l x) end.

Lemma lookup l : NoDup l -> forall s : list N, length s = length l ->
  map (fun x => nth (position l x) s 0%N) l = s.
Proof.
  induction 1 as [|x l Hx HN IH]; intros [|a s] E; try discriminate; [reflexivity|].
  cbn [map position]. rewrite N.eqb_refl. cbn [nth]. f_equal.
  etransitivity; [|apply (IH s); cbn in E; lia]. apply map_ext_in. intros y Hy.
  destruct (N.eqb_spec y x); [congruence|reflexivity].
Qed.

Lemma interleave_onto lens s : length s = total_of lens -> exists parts,
  interleave parts = s /\ map (fun p => (length (fst p), length (snd p))) parts = lens.
Proof.
  intros E. set (P := interleave (labels 0 lens)).
  assert (HP : Permutation P (map N.of_nat (seq 0 (total_of lens)))).
  { unfold P. rewrite interleave_perm, labels_concat. reflexivity. }
  assert (HN : NoDup P).
  { eapply Permutation_NoDup; [apply Permutation_sym, HP|]. apply FinFun.Injective_map_NoDup; [intros a b; lia|apply seq_NoDup]. }
  exists (map (map_part (fun x => nth (position P x) s 0%N)) (labels 0 lens)). split.
  - rewrite interleave_map. apply lookup; [exact HN|].
    fold P. apply Permutation_length in HP. rewrite HP, map_length, seq_length. exact E.
  - rewrite map_map. rewrite <- (labels_lens lens 0) at 2. apply map_ext. intros p.
    unfold map_part. cbn [fst snd]. now rewrite !map_length.
Qed.

(** *** The table *)
Definition list_nat_eqb (a b : list nat) : bool := if list_eq_dec Nat.eq_dec a b then true else false.

Definition info_ok (v : Z) (l : level) : bool :=
  match block_info v (eclevel_of l) with
  | Ok bis =>
      list_nat_eqb (map total_per bis) (block_totals v l) &&
      list_nat_eqb (map data_per bis) (block_data v l) &&
      list_nat_eqb (map ec_cap bis) (repeat (correctable v l) (block_number v l)) &&
      forallb (fun bi => (1 <=? data_per bi)%nat && (data_per bi + ec_codewords v l =? total_per bi)%nat) bis &&
      (list_sum (block_totals v l) =? codeword_count v)%nat
  | _ => false
  end.

Lemma infos_ok : forallb (fun v => forallb (info_ok v) [L; M; Q; H]) (map Z.of_nat (seq 1 40)) = true.
Proof. vm_compute. reflexivity. Qed.

Lemma nonempty : forallb (fun v => forallb (fun l => match block_info v (eclevel_of l) with
  Ok [] => false | _ => true end) [L; M; Q; H]) (map Z.of_nat (seq 1 40)) = true.
Proof. vm_compute. reflexivity. Qed.

Lemma app_inj_len {A} (a b c d : list A) : length a = length c -> a ++ b = c ++ d -> a = c /\ b = d.
Proof.
  revert c. induction a as [|x a IH]; intros [|y c] HL E; try discriminate; [auto|].
  injection E as -> E. injection HL as HL. destruct (IH c HL E) as [-> ->]. auto.
Qed.

Lemma info_facts v l : 1 <= v <= 40 -> exists bis, block_info v (eclevel_of l) = Ok bis /\
  map total_per bis = block_totals v l /\ map data_per bis = block_data v l /\
  map ec_cap bis = repeat (correctable v l) (block_number v l) /\
  Forall (fun bi => 1 <= data_per bi /\ data_per bi + ec_codewords v l = total_per bi)%nat bis /\
  list_sum (block_totals v l) = codeword_count v.
Proof.
  intros Hv. pose proof (proj1 (forallb_forall _ _) infos_ok v (in_versions v Hv)) as H. cbv beta in H.
  assert (HI : info_ok v l = true).
  { rewrite forallb_forall in H. apply H. destruct l; cbn; tauto. }
  clear H. unfold info_ok in HI. destruct (block_info v (eclevel_of l)) as [bis| |]; try discriminate.
  exists bis. rewrite !andb_true_iff in HI. destruct HI as ((((H1 & H2) & H3) & H4) & H5).
  assert (EQ : forall a b, list_nat_eqb a b = true -> a = b).
  { intros a b. unfold list_nat_eqb. now destruct (list_eq_dec Nat.eq_dec a b). }
  apply EQ in H1, H2, H3. apply Nat.eqb_eq in H5. rewrite forallb_forall in H4.
  repeat split; auto. apply Forall_forall. intros bi Hbi. specialize (H4 bi Hbi).
  rewrite andb_true_iff, Nat.leb_le, Nat.eqb_eq in H4. exact H4.
Qed.

Lemma check_ok bis (bl : list (list N)) : map total_per bis = map (@length N) bl -> check_lengths bis bl = Ok tt.
Proof.
  intros E. unfold check_lengths.
  destruct (foldM_ok (fun _ : unit => True)
    (fun (_ : unit) i =>
           b <- get bis i ;; blk <- get bl i ;;
           if Nat.eqb (total_per b) (length blk) then Ok tt
           else Err (ECodewordCount (total_per b) i (length blk)))
    (range 0 (length bl)) tt I) as ([] & H & _); [|exact H].
  intros i u Hi _. apply in_range_iff in Hi.
  assert (EL : length bis = length bl) by (rewrite <- (map_length total_per), E; apply map_length).
  destruct (nth_error bl i) as [blk|] eqn:E1; [|apply nth_error_None in E1; lia].
  destruct (nth_error bis i) as [bi|] eqn:E2; [|apply nth_error_None in E2; lia].
  rewrite (get_ok bis i bi E2), (get_ok bl i blk E1). cbn [bind].
  assert (E3 : Some (total_per bi) = Some (length blk)).
  { change (option_map total_per (Some bi) = option_map (@length N) (Some blk)).
    rewrite <- E1, <- E2, <- !nth_error_map. now rewrite E. }
  injection E3 as ->. rewrite Nat.eqb_refl. eauto.
Qed.

Lemma shape_totals v l bis parts : block_shape v l parts -> map data_per bis = block_data v l ->
  Forall (fun bi => 1 <= data_per bi /\ data_per bi + ec_codewords v l = total_per bi)%nat bis ->
  map total_per bis = map (fun p => (length (fst p) + length (snd p))%nat) parts /\
  Forall (fun p => (1 <= length (fst p))%nat /\ length (snd p) = ec_codewords v l) parts.
Proof.
  intros [H1 H2] H3 H4. rewrite <- H1 in H3. clear H1. revert bis H3 H4.
  induction H2 as [|p parts Hp HF IH]; intros [|bi bis] H3 H4; try discriminate; [auto|].
  inversion H4 as [|? ? Hb Hbs]; subst. cbn [map] in H3. injection H3 as E1 E2.
  destruct (IH bis E2 Hbs) as [H5 H6]. split.
  - cbn [map]. rewrite H5. f_equal. lia.
  - constructor; auto. lia.
Qed.

Lemma alignment_exists v : 1 <= v <= 40 -> exists loc, alignment_location v = Ok loc.
Proof. intros Hv. destruct (alignment_facts v Hv) as (loc & E & _). eauto. Qed.

Lemma interleave_Forall (P : N -> Prop) parts :
  Forall P (interleave parts) <-> Forall (fun b => Forall P (fst b) /\ Forall P (snd b)) parts.
Proof.
  assert (E : Forall P (interleave parts) <-> Forall P (concat (map (fun p => fst p ++ snd p) parts))).
  { split; apply Permutation_Forall; [apply interleave_perm|symmetry; apply interleave_perm]. }
  rewrite E. clear E. induction parts as [|p parts IH]; cbn [map concat]; [split; constructor|].
  rewrite !Forall_app, IH. split.
  - intros [[H1 H2] H3]. now constructor.
  - intros H. inversion H; subst. tauto.
Qed.

Lemma blocks_ok v l m d q parts : 1 <= v <= 40 -> (m < 8)%N -> shows v d q ->
  holds v l m d parts -> blocks q (eclevel_of l) m = Ok (map (fun p => fst p ++ snd p) parts).
Proof.
  intros Hv Hm HS (HShape & HB & rest & ES & HR). unfold blocks.
  destruct (info_facts v l Hv) as (bis & EI & ET & ED & EC & HF & _).
  destruct (shape_totals v l bis parts HShape ED HF) as [HT HP].
  destruct (alignment_exists v Hv) as (loc & EA).
  pose proof HS as (EV & ESide & _). rewrite EV, ESide, EI. cbn [bind].
  rewrite sub_Z_ok by (unfold side_of; lia). cbn [bind]. rewrite EA. cbn [bind].
  rewrite (read_all v d q m loc Hv HS Hm EA), ES. unfold codewords_new.
  rewrite add_bytes; [|now apply interleave_Forall|exact HR].
  pose proof (undo_interleave bis parts (ec_codewords v l)) as HU.
  assert (HN : (1 <= length parts)%nat).
  { destruct parts; [|cbn; lia]. exfalso. destruct HShape as [H _]. cbn [map] in H.
    destruct bis; [|rewrite <- ED in H; discriminate].
    clear - EI Hv. pose proof (proj1 (forallb_forall _ _) nonempty v (in_versions v Hv)) as H. cbv beta in H.
    rewrite forallb_forall in H. specialize (H l ltac:(destruct l; cbn; tauto)). rewrite EI in H. discriminate. }
  specialize (HU HN). rewrite ED in HU. destruct HShape as [HS1 HS2]. specialize (HU (eq_sym HS1) HP).
  unfold out in HU. destruct (foldM blocks_push (interleave parts) (blocks_new bis)) as [b| |]; cbn [bind] in *; try discriminate.
  injection HU as HU. cbn [cw_blocks]. rewrite HU.
  assert (EL : length bis = length parts).
  { rewrite <- (map_length data_per), ED, <- HS1. apply map_length. }
  rewrite map_length, EL, Nat.eqb_refl, check_ok; [reflexivity|].
  rewrite HT, map_map. apply map_ext. intros p. now rewrite app_length.
Qed.

Lemma data_count_mod v : 1 <= v <= 40 -> 0 <= data_module_count v.
Proof. intros Hv. rewrite <- data_order_length by exact Hv. lia. Qed.

(** every symbol holds some blocks *)
Lemma holds_some v l m d : 1 <= v <= 40 -> exists parts, holds v l m d parts.
Proof.
  intros Hv. destruct (bits_split (symbol_bits v d m)) as (bytes & rest & E & HB & EL & HR).
  destruct (info_facts v l Hv) as (bis & EI & ET & ED & _ & HF & HS).
  set (lens := map (fun t => (t - ec_codewords v l, ec_codewords v l)%nat) (block_totals v l)).
  assert (ELen : length (symbol_bits v d m) = Z.to_nat (data_module_count v)).
  { unfold symbol_bits. rewrite map_length. pose proof (data_order_length v Hv). lia. }
  assert (ETot : total_of lens = codeword_count v).
  { rewrite <- HS. unfold total_of, lens. rewrite map_map. f_equal. cbn [fst snd].
    rewrite <- ET, map_map. apply map_ext_in. intros bi Hbi. rewrite Forall_forall in HF.
    specialize (HF bi Hbi). lia. }
  destruct (interleave_onto lens bytes) as (parts & EP & Elens).
  { rewrite EL, ELen, ETot. unfold codeword_count. rewrite Z2Nat.inj_div by (try lia; now apply data_count_mod).
    reflexivity. }
  exists parts. split; [split|split].
  - unfold block_data. transitivity (map fst lens).
    + rewrite <- Elens, map_map. reflexivity.
    + unfold lens. rewrite map_map. reflexivity.
  - apply Forall_forall. intros p Hp.
    assert (HI : In (length (fst p), length (snd p)) lens).
    { rewrite <- Elens. apply in_map_iff. eauto. }
    unfold lens in HI. apply in_map_iff in HI as (t & Et & _). now injection Et.
  - rewrite <- interleave_Forall, EP. exact HB.
  - exists rest. rewrite EP. auto.
Qed.

(** and only these *)
Lemma holds_unique v l m d p1 p2 : 1 <= v <= 40 -> (m < 8)%N -> holds v l m d p1 -> holds v l m d p2 -> p1 = p2.
Proof.
  intros Hv Hm H1 H2.
  pose proof (blocks_ok v l m d _ p1 Hv Hm (deliver_shows v d ltac:(lia)) H1) as E1.
  rewrite (blocks_ok v l m d _ p2 Hv Hm (deliver_shows v d ltac:(lia)) H2) in E1.
  injection E1 as E. destruct H1 as [[S1 _] _], H2 as [[S2 _] _]. rewrite <- S1 in S2. clear - S2 E.
  revert p2 S2 E. induction p1 as [|a p1 IH]; intros [|b p2] S2 E; try discriminate; [reflexivity|].
  cbn [map] in *. injection S2 as S2 S3. injection E as E E3. f_equal; [|now apply IH].
  destruct a as [a1 a2], b as [b1 b2]. cbn [fst snd] in *.
  apply app_inj_len in E as [-> ->]; [reflexivity|congruence].
Qed.
