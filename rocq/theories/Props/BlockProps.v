(** Where the codewords are: C25 to C29. *)
From Coq Require Import NArith ZArith List Lia Bool Arith.
From Verif.Model Require Import Blocks.
From Verif.Spec Require Import Bits Symbol Layout Bridge Encoder.
From Verif.Proofs Require Import BaseP BitsP FormatP LayoutP CountP InterleaveP BlocksP StreamBytesP DrawP.
Import ListNotations.
Local Open Scope Z_scope.

(** *** C25: masks *)

(** the value read is the module's, inverted where the mask says so *)
Theorem C25_mask v d q m x y : shows v d q -> inside v x y -> (m < 8)%N ->
  qrmask m q x y = Ok (bit (xorb (d x y) (mask_bit m x y))).
Proof. intros HS HI Hm. now apply (qrmask_ok v). Qed.

(** a symbol that was masked is read unmasked *)
Theorem C25_involution v d q m x y : 0 <= v -> shows v (fun x y => xorb (d x y) (mask_bit m x y)) q ->
  inside v x y -> (m < 8)%N -> qrmask m q x y = Ok (bit (d x y)).
Proof.
  intros Hv HS HI Hm. rewrite (qrmask_ok _ _ _ _ _ _ HS HI Hm). f_equal. f_equal.
  now destruct (d x y), (mask_bit m x y).
Qed.

Example C25_example :
  map (fun m => qrmask m (deliver 1 (fun _ _ => false)) 10 9) [0; 1; 2; 3; 4; 5; 6; 7]%N
  = map (@Ok N) [0; 0; 0; 0; 0; 1; 1; 0]%N.
Proof. reflexivity. Qed.

(** *** C26: data modules *)

Theorem C26_data v q loc x y : 1 <= v <= 40 -> qversion q = v -> qside q = side_of v ->
  alignment_location v = Ok loc -> inside v x y ->
  (is_data q loc x y = Ok true <-> data_module v x y) /\
  (is_data q loc x y = Ok false <-> ~ data_module v x y).
Proof.
  intros Hv E1 E2 HL HI. rewrite (is_data_ok v q loc x y Hv E1 E2 HL HI), <- data_moduleb_iff.
  destruct (data_moduleb v x y); split; split; intros H; try congruence; try reflexivity.
Qed.

(** and every version of the standard has its alignment patterns in the table *)
Theorem C26_versions v : 1 <= v <= 40 <-> exists loc, alignment_location v = Ok loc.
Proof.
  split; [apply alignment_exists|]. intros (loc & E).
  destruct v as [|p|p]; [discriminate| |discriminate].
  destruct (Z_le_gt_dec (Z.pos p) 40) as [|Hgt]; [lia|]. exfalso.
  do 6 (destruct p as [p|p|]; try lia; try discriminate).
Qed.

(** version 7: the module (22, 22) is the centre of an alignment pattern, (19, 22) is next to one *)
Example C26_example :
  ~ data_module 7 22 22 /\ data_module 7 19 22 /\ ~ data_module 7 34 5 /\ data_module 7 33 5 /\
  ~ data_module 7 22 6 /\ data_module 7 22 9 /\ data_module 7 36 9.
Proof. repeat split; rewrite <- ?data_moduleb_iff; try (vm_compute; congruence); apply data_moduleb_iff; reflexivity. Qed.

(** *** C27: order *)

(** the standard's order visits each data module once and nothing else *)
Theorem C27_each_once v : 1 <= v <= 40 ->
  NoDup (data_order v) /\ (forall x y, In (x, y) (data_order v) <-> data_module v x y) /\
  Z.of_nat (length (data_order v)) = data_module_count v.
Proof.
  intros Hv. split; [apply data_order_NoDup; lia|]. split; [|now apply data_order_length].
  intros x y. apply data_order_In. lia.
Qed.

(** The codewords read are the bits in that order, eight at a time, most significant
    first, and only the remainder bits are dropped. *)
Theorem C27_order v d q l m : 1 <= v <= 40 -> shows v d q -> (m < 8)%N ->
  exists codewords rest parts,
    symbol_bits v d m = bits codewords ++ rest /\
    Forall is_byte codewords /\ length codewords = codeword_count v /\
    Z.of_nat (length rest) = data_module_count v mod 8 /\
    interleave parts = codewords /\ block_shape v l parts /\
    blocks q (eclevel_of l) m = Ok (map (fun p => fst p ++ snd p) parts).
Proof.
  intros Hv HS Hm. destruct (holds_some v l m d Hv) as (parts & H).
  pose proof H as (HSh & HB & rest & E & HR). exists (interleave parts), rest, parts.
  assert (EL : length (symbol_bits v d m) = Z.to_nat (data_module_count v)).
  { unfold symbol_bits. rewrite map_length. pose proof (data_order_length v Hv). lia. }
  rewrite E, app_length, bits_length in EL.
  pose proof (data_count_mod v Hv) as H0.
  assert (ER : Z.of_nat (length rest) = data_module_count v mod 8).
  { apply (Z.mod_unique _ _ (Z.of_nat (length (interleave parts)))); lia. }
  assert (EC : length (interleave parts) = codeword_count v).
  { unfold codeword_count. assert (EQ : Z.of_nat (length (interleave parts)) = data_module_count v / 8).
    { apply (Z.div_unique _ _ _ (Z.of_nat (length rest))); lia. }
    lia. }
  repeat split; auto.
  - now apply interleave_Forall.
  - apply HSh.
  - apply HSh.
  - now apply (blocks_ok v l m d).
Qed.

(** the first codeword of every symbol of version 1 is read upwards from the lower
    right corner *)
Example C27_example : firstn 8 (data_order 1)
  = [(20, 20); (19, 20); (20, 19); (19, 19); (20, 18); (19, 18); (20, 17); (19, 17)].
Proof. reflexivity. Qed.

(** every bit string of the right length is the content of some symbol, whatever its
    function modules are *)
Theorem C27_onto v m bs base : 1 <= v <= 40 -> Z.of_nat (length bs) = data_module_count v ->
  exists d, symbol_bits v d m = bs /\ forall x y, ~ data_module v x y -> d x y = base x y.
Proof.
  intros Hv HL. exists (engrave v m bs base). split; [now apply engrave_bits|].
  intros x y H. apply engrave_other; [lia|exact H].
Qed.

(** *** C28: blocks *)

(** pushing the interleaved codewords gives the blocks *)
Theorem C28_push v l bis parts : 1 <= v <= 40 -> block_info v (eclevel_of l) = Ok bis ->
  block_shape v l parts ->
  (b <- foldM blocks_push (interleave parts) (blocks_new bis) ;; Ok (b_blocks b))
  = Ok (map (fun p => fst p ++ snd p) parts).
Proof.
  intros Hv EI HS. destruct (info_facts v l Hv) as (bis' & EI' & _ & ED & _ & HF & _).
  rewrite EI in EI'. injection EI' as <-.
  destruct (shape_totals v l bis parts HS ED HF) as [_ HP].
  apply (undo_interleave bis parts (ec_codewords v l)).
  - rewrite <- (map_length (fun b => length (fst b))). destruct HS as [-> _]. rewrite <- ED, map_length.
    destruct bis; [|cbn; lia]. pose proof (proj1 (forallb_forall _ _) nonempty v (in_versions v Hv)) as H.
    cbv beta in H. rewrite forallb_forall in H. specialize (H l ltac:(destruct l; cbn; tauto)).
    rewrite EI in H. discriminate.
  - rewrite ED. symmetry. apply HS.
  - exact HP.
Qed.

(** the blocks of a symbol are the ones it holds; no others fit *)
Theorem C28_blocks v l m d q parts : 1 <= v <= 40 -> (m < 8)%N -> shows v d q ->
  holds v l m d parts -> blocks q (eclevel_of l) m = Ok (map (fun p => fst p ++ snd p) parts).
Proof. apply blocks_ok. Qed.

Theorem C28_unique v l m d : 1 <= v <= 40 -> (m < 8)%N ->
  exists parts, holds v l m d parts /\ forall parts', holds v l m d parts' -> parts' = parts.
Proof.
  intros Hv Hm. destruct (holds_some v l m d Hv) as (parts & H). exists parts. split; [exact H|].
  intros parts' H'. now apply (holds_unique v l m d).
Qed.

(** version 5-Q: two blocks with 15 and two with 16 data codewords, 18 correction
    codewords each *)
Definition example_parts : list (list N * list N) :=
  let run a n := map N.of_nat (seq a n) in
  [(run 0 15, run 100 18); (run 20 15, run 120 18); (run 40 16, run 140 18); (run 60 16, run 160 18)]%nat.
Example C28_example :
  block_shape 5 Q example_parts /\
  firstn 6 (interleave example_parts) = [0; 20; 40; 60; 1; 21]%N /\
  firstn 6 (skipn 58 (interleave example_parts)) = [54; 74; 55; 75; 100; 120]%N /\
  (b <- foldM blocks_push (interleave example_parts) (blocks_new (repeat (BI 2 33 15 9) 2 ++ repeat (BI 2 34 16 9) 2)) ;;
   Ok (b_blocks b)) = Ok (map (fun p => fst p ++ snd p) example_parts).
Proof.
  assert (S : block_shape 5 Q example_parts) by (split; [reflexivity|repeat constructor]).
  split; [exact S|]. split; [reflexivity|]. split; [reflexivity|].
  now apply (C28_push 5 Q).
Qed.

(** *** C29: block table *)

Theorem C29_table v l : 1 <= v <= 40 -> exists bis, block_info v (eclevel_of l) = Ok bis /\
  map total_per bis = block_totals v l /\
  map data_per bis = block_data v l /\
  map ec_cap bis = repeat (correctable v l) (block_number v l).
Proof.
  intros Hv. destruct (info_facts v l Hv) as (bis & H1 & H2 & H3 & H4 & _). eauto.
Qed.

(** the blocks fill the symbol up to the remainder bits, and never claim to repair more
    than the correction codewords allow *)
Theorem C29_capacity v l bis : 1 <= v <= 40 -> block_info v (eclevel_of l) = Ok bis ->
  Z.of_nat (list_sum (map total_per bis)) = Z.of_nat (length (data_order v)) / 8 /\
  Forall (fun bi => data_per bi + ec_codewords v l = total_per bi /\ 2 * ec_cap bi <= ec_codewords v l)%nat bis.
Proof.
  intros Hv EI. destruct (info_facts v l Hv) as (bis' & EI' & ET & _ & EC & HF & HS).
  rewrite EI in EI'. injection EI' as <-. split.
  - rewrite ET, HS, data_order_length by exact Hv. unfold codeword_count.
    rewrite Z2Nat.id; [reflexivity|]. apply Z.div_pos; [now apply data_count_mod|lia].
  - apply Forall_forall. intros bi Hbi. rewrite Forall_forall in HF. split; [now apply HF|].
    assert (E : ec_cap bi = correctable v l).
    { apply (in_map ec_cap) in Hbi. rewrite EC in Hbi. now apply repeat_spec in Hbi. }
    rewrite E. unfold correctable.
    pose proof (Nat.div_mod (ec_codewords v l - misdecode_protection v l) 2 ltac:(lia)). lia.
Qed.

Example C29_example :
  block_totals 5 Q = [33; 33; 34; 34]%nat /\ block_data 5 Q = [15; 15; 16; 16]%nat /\ correctable 5 Q = 9%nat /\
  codeword_count 40 = 3706%nat /\ block_number 40 H = 81%nat /\ correctable 1 L = 2%nat.
Proof. repeat split; reflexivity. Qed.
