(** Damaged symbols and what is reported about them: C33 to C37. *)
From Coq Require Import NArith ZArith List Lia Bool Arith.
From Verif.Model Require Import QRDecoder.
From Verif.Spec Require Import Bits Segments GF256 RS Symbol Layout Bridge Message Encoder.
From Verif.Proofs Require Import BaseP BitsP GaloisP FormatP LayoutP CountP BlocksP StreamBytesP CorrectP RSBridgeP
  StreamP EncodeP DrawP EncoderP DecodeP.
From Verif.Props Require Import CorrectProps FormatProps DataProps DecoderProps.
Import ListNotations.
Local Open Scope N_scope.

(** *** C33: no panic *)

(** the data codewords that the correction makes of a symbol *)
Definition reads (v : Z) (l : level) (m : N) (d : matrix) (q : qrdata) (all : list N) : Prop :=
  format q = Ok (eclevel_of l, m) /\
  exists received corrected, holds v l m d received /\ block_shape v l corrected /\ block_bytes corrected /\
    Forall2 (corrects v l) corrected received /\ all = concat (map fst corrected).

Lemma reads_decode v l m d q all : (1 <= v <= 40)%Z -> shows v d q -> reads v l m d q all ->
  qr_decode (Ok q) = data all v.
Proof.
  intros Hv HS (HF & received & corrected & HH & Hsh & HB & HC & ->). rewrite decode_forget.
  destruct (info_facts v l Hv) as (bis & EI & _).
  pose proof (format_result v d q _ m ltac:(lia) HS HF) as Hm.
  rewrite (decode_holds v l m d q received bis) by auto.
  pose proof HH as (Hsh' & HB' & _).
  destruct (repaired_pairs v l corrected received bis) as (R1 & R2 & R3); auto using entries.
  rewrite (collect_info _ _ R1), R2. cbn [bind]. now destruct (data _ v).
Qed.

Lemma reads_bytes v l m d q all : reads v l m d q all -> Forall is_byte all.
Proof.
  intros (_ & _ & corrected & _ & _ & HB & _ & ->). induction HB as [|p ps [Hp _] HB IH]; [constructor|].
  cbn [map concat]. apply Forall_app. auto.
Qed.

(** the full statement, for the squares that QRData::new makes *)
Definition C33_statement : Prop := forall q,
  (0 <= qversion q)%Z -> qside q = side_of (qversion q) -> length (qdata q) = Z.to_nat (qside q * qside q) ->
  forall p, qr_decode (Ok q) <> Panic p /\ qr_decode_with_info (Ok q) <> Panic p.

(** exactly when decoding panics: the payload has an alphanumeric segment of odd length
    whose last character is none.  Neither the version, the format, the codeword placement
    nor the error correction can panic. *)
Theorem C33_panics_partial v d q p : (1 <= v <= 40)%Z -> shows v d q ->
  (qr_decode (Ok q) = Panic p <->
   p = PIndex /\
   exists l m all segs texts s rest, reads v l m d q all /\
     Forall (raw_wf v) segs /\ Forall2 raw_text segs texts /\ raw_wf v s /\ overrun s /\
     bits all = concat (map (raw_bits v) segs) ++ raw_bits v s ++ rest).
Proof.
  intros Hv HS. split.
  - intros E. pose proof E as E'. rewrite decode_forget in E'.
    destruct (format_no_panic v d q ltac:(lia) HS) as [(l & m & EF & Hm)|EF].
    2:{ unfold qr_decode in E. cbn [bind] in E. rewrite EF in E. discriminate. }
    destruct (decode_any v d q l m Hv HS EF) as (received & HH & [(e & Ee & _)|(cs & Hsh & HB & HC & Ed)]).
    { rewrite Ee in E'. discriminate. }
    assert (HR : reads v l m d q (concat (map fst cs))).
    { split; [exact EF|]. exists received, cs. auto. }
    rewrite (reads_decode v l m d q _ Hv HS HR) in E.
    apply C12_payload_panics_partial in E; [|exact Hv|exact (reads_bytes _ _ _ _ _ _ HR)].
    destruct E as [-> (segs & texts & s & rest & A)]. split; [reflexivity|].
    exists l, m, (concat (map fst cs)), segs, texts, s, rest. tauto.
  - intros [-> (l & m & all & segs & texts & s & rest & HR & A)].
    rewrite (reads_decode v l m d q _ Hv HS HR).
    apply C12_payload_panics_partial; [exact Hv|exact (reads_bytes _ _ _ _ _ _ HR)|]. split; [reflexivity|].
    exists segs, texts, s, rest. tauto.
Qed.

(** other versions never panic *)
Theorem C33_unknown_versions_partial v d q p : (0 <= v)%Z -> ~ (1 <= v <= 40)%Z -> shows v d q ->
  qr_decode (Ok q) <> Panic p.
Proof. intros Hv HN HS. destruct (C32_rejected v d q Hv HN HS) as (e & E & _). congruence. Qed.

(** a symbol that follows all rules but for one character of value 63 *)
Definition overrun_segment : raw := Raw 2 1 [63].
Definition overrun_symbol : matrix := encode_symbol 1 L 0 [overrun_segment] (fun _ _ => false).

Lemma overrun_reads : reads 1 L 0 overrun_symbol (deliver 1 overrun_symbol) (data_part 1 19 [overrun_segment]).
Proof.
  assert (HL : (length (segment_bits 1 [overrun_segment]) <= 8 * data_codewords 1 L)%nat) by (vm_compute; lia).
  destruct (encode_blocks_ok 1 L [overrun_segment] HL) as (H1 & H2 & H3 & _).
  split.
  - apply (C21_intact 1 overrun_symbol); [lia|apply deliver_shows; lia|reflexivity|].
    apply encode_format. lia.
  - exists (encode_blocks 1 L [overrun_segment]), (encode_blocks 1 L [overrun_segment]).
    split; [apply encode_holds; [lia|exact HL]|]. split; [exact H1|]. split; [exact H2|].
    split; [apply all_corrects; auto; [lia|apply undamaged_repairable]|vm_compute; reflexivity].
Qed.

Example C33_panics_example : qr_decode (Ok (deliver 1 overrun_symbol)) = Panic PIndex.
Proof.
  apply (C33_panics_partial 1 overrun_symbol _ PIndex); [lia|apply deliver_shows; lia|].
  split; [reflexivity|]. exists L, 0, (data_part 1 19 [overrun_segment]), [], [], overrun_segment, (skipn 19 (bits (data_part 1 19 [overrun_segment]))).
  split; [apply overrun_reads|]. split; [constructor|]. split; [constructor|]. split; [|split; [|vm_compute; reflexivity]].
  - repeat split; [now right; left|repeat constructor].
  - split; [reflexivity|]. exists [], 63. repeat split; auto. lia.
Qed.

Theorem C33_refuted : ~ C33_statement.
Proof.
  intros HA. apply (proj1 (HA (deliver 1 overrun_symbol) ltac:(cbn; lia) eq_refl ltac:(reflexivity) PIndex)).
  apply C33_panics_example.
Qed.

(** *** C34: the two decoders *)
Theorem C34_agree x :
  (forall text, qr_decode x = Ok text <-> exists info, qr_decode_with_info x = Ok (text, info)) /\
  (forall e, qr_decode x = Err e <-> qr_decode_with_info x = Err e) /\
  (forall p, qr_decode x = Panic p <-> qr_decode_with_info x = Panic p).
Proof.
  rewrite decode_forget. destruct (qr_decode_with_info x) as [[t i]|e|p]; cbn [forget bind fst].
  - split; [intros text; split; [intros [= ->]; eauto|intros (info & [= -> ->]); reflexivity]|].
    split; intros; split; discriminate.
  - split; [intros text; split; [discriminate|intros (info & E); discriminate]|].
    split; intros; split; congruence.
  - split; [intros text; split; [discriminate|intros (info & E); discriminate]|].
    split; intros; split; congruence.
Qed.

(** *** C36: errors of the extraction *)
Theorem C36_passed_on e : qr_decode (Err e) = Err e /\ qr_decode_with_info (Err e) = Err e.
Proof. split; reflexivity. Qed.

(** *** C35: what is reported *)

(** the full statement: [total_data] counts data and error correction codewords *)
Definition C35_statement : Prop := forall v d q text info, shows v d q ->
  qr_decode_with_info (Ok q) = Ok (text, info) ->
  itotal_data info = 8 * N.of_nat (codeword_count v).

(** the error correction codewords are not counted.
    Missing from the full statement: [total_data] is the size of the data only. *)
Theorem C35_info_partial v d q text info : (0 <= v)%Z -> shows v d q ->
  qr_decode_with_info (Ok q) = Ok (text, info) ->
  exists l m received corrected, format q = Ok (eclevel_of l, m) /\ holds v l m d received /\
    block_shape v l corrected /\ Forall2 (corrects v l) corrected received /\
    data (concat (map fst corrected)) v = Ok text /\
    iversion info = v /\ iec_level info = eclevel_of l /\
    itotal_data info = 8 * N.of_nat (data_codewords v l) /\
    ierrors info = wrong_bits_in corrected received.
Proof.
  intros Hv HS E. assert (V : qversion q = v) by apply HS.
  assert (Hv' : (1 <= v <= 40)%Z).
  { destruct (Z_le_dec 1 v) as [A|A]; [destruct (Z_le_dec v 40) as [B|B]; [auto|]|];
      exfalso; apply (proj2 (C32_no_text q ltac:(lia)) (text, info) E). }
  destruct (format_no_panic v d q Hv HS) as [(l & m & EF & Hm)|EF].
  2:{ unfold qr_decode_with_info in E. cbn [bind] in E. rewrite EF in E. discriminate. }
  destruct (decode_any v d q l m Hv' HS EF) as (received & HH & [(e & Ee & _)|(cs & Hsh & HB & HC & Ed)]).
  { rewrite Ee in E. discriminate. }
  exists l, m, received, cs. rewrite Ed in E. destruct (data _ v) as [t| |] eqn:ED; try discriminate.
  cbn [bind] in E. injection E as <- <-. cbn [iversion iec_level itotal_data ierrors]. auto 10.
Qed.

Theorem C35_refuted : ~ C35_statement.
Proof.
  intros HA. assert (NE : 8 * N.of_nat (data_codewords 1 M) <> 8 * N.of_nat (codeword_count 1)) by (vm_compute; discriminate).
  set (d := encode_symbol 1 M 5 [encode_alnum hello] (fun _ _ => true)).
  assert (HL : (length (segment_bits 1 [encode_alnum hello]) <= 8 * data_codewords 1 M)%nat) by (vm_compute; lia).
  destruct (C30_undamaged 1 M 5 d (deliver 1 d) (encode_blocks 1 M [encode_alnum hello]) [encode_alnum hello] [hello])
    as [_ E].
  - lia.
  - reflexivity.
  - apply deliver_shows. lia.
  - apply encode_format. lia.
  - apply encode_holds; [lia|exact HL].
  - now apply encode_blocks_ok.
  - constructor; [apply encode_alnum_wf; [apply hello_alphabet|reflexivity]|constructor].
  - constructor; [|constructor]. unfold raw_text. cbn [encode_alnum r_mode r_count r_vals].
    destruct (encode_alnum_ok hello hello_alphabet) as (_ & H1 & H2). auto.
  - specialize (HA 1%Z d _ _ _ (deliver_shows 1 d ltac:(lia)) E). cbn [itotal_data] in HA. exact (NE HA).
Qed.

(** *** C37: damaged symbols *)

(** each block is turned into the one that was sent: the payload is returned and the
    wrong bits are counted *)
Theorem C37_corrected v l m d q sent received segs texts :
  (1 <= v <= 40)%Z -> m < 8 -> shows v d q ->
  format_readable v l m d -> holds v l m d received ->
  block_shape v l sent -> block_bytes sent -> encodes v l sent segs ->
  Forall (raw_wf v) segs -> Forall2 raw_text segs texts ->
  Forall2 (corrects v l) sent received ->
  qr_decode (Ok q) = Ok (concat texts) /\
  qr_decode_with_info (Ok q)
    = Ok (concat texts, mkQRInfo v (eclevel_of l) (8 * N.of_nat (data_codewords v l)) (wrong_bits_in sent received)).
Proof.
  intros Hv Hm HS HF HH Hsh HB HE HW HT HC.
  pose proof (readable_format v l m d q ltac:(lia) Hm HS HF) as EF.
  pose proof (decode_corrected v l m d q sent received segs texts Hv Hm HS EF HH Hsh HB HE HW HT HC) as E.
  split; [|exact E]. now rewrite decode_forget, E.
Qed.

(** the same with the damage described by the field alone: at most [correctable]
    errors in each block, which do not meet a zero in the elimination *)
Theorem C37_damaged v l m d q sent received segs texts :
  (1 <= v <= 40)%Z -> m < 8 -> shows v d q ->
  format_readable v l m d -> holds v l m d received ->
  block_shape v l sent -> block_bytes sent -> encodes v l sent segs ->
  Forall (raw_wf v) segs -> Forall2 raw_text segs texts ->
  all_repairable v l sent received ->
  qr_decode (Ok q) = Ok (concat texts) /\
  qr_decode_with_info (Ok q)
    = Ok (concat texts, mkQRInfo v (eclevel_of l) (8 * N.of_nat (data_codewords v l)) (wrong_bits_in sent received)).
Proof.
  intros Hv Hm HS HF HH Hsh HB HE HW HT HA. apply (C37_corrected v l m d q sent received segs texts); auto.
  pose proof HH as (H1 & H2 & _). apply all_corrects; auto. apply HE.
Qed.

(** at most one wrong codeword per block: it is found unless a codeword further to the
    left gives the polynomial the same value *)
Definition single_ok (total cap : nat) (c b : list N) : Prop :=
  errors c b = [] \/
  exists p e, errors c b = [(p, e)] /\
    forall i, (p < i < total)%nat ->
      N.lxor (fpow (fpow 2 i) cap) (fpow (fpow 2 i) (cap - 1)) <> N.lxor (fpow (fpow 2 p) cap) (fpow (fpow 2 p) (cap - 1)).

Theorem C37_single v l m d q sent received segs texts :
  (1 <= v <= 40)%Z -> m < 8 -> shows v d q ->
  format_readable v l m d -> holds v l m d received ->
  block_shape v l sent -> block_bytes sent -> encodes v l sent segs ->
  Forall (raw_wf v) segs -> Forall2 raw_text segs texts ->
  Forall2 (fun s r => single_ok (length (whole s)) (correctable v l) (whole s) (whole r)) sent received ->
  qr_decode (Ok q) = Ok (concat texts) /\
  qr_decode_with_info (Ok q)
    = Ok (concat texts, mkQRInfo v (eclevel_of l) (8 * N.of_nat (data_codewords v l)) (wrong_bits_in sent received)).
Proof.
  intros Hv Hm HS HF HH Hsh HB HE HW HT HA. apply (C37_corrected v l m d q sent received segs texts); auto.
  pose proof HH as (H1 & H2 & _). pose proof (shapes_length v l sent received Hsh H1) as HL.
  destruct HE as [HC _]. clear - Hv HA HL HB H2 HC.
  revert HL HB H2 HC. induction HA as [|s r sent received HA HAs IH]; intros HL B1 B2 HC; constructor.
  - inversion HL; inversion B1; inversion B2; inversion HC; subst. intros tbl bi ET EI ETot.
    destruct (table_entry v l tbl bi Hv ET EI) as [EC EK].
    destruct HA as [HA|(p & e & HA & HI)].
    + apply (repairable_corrects v l s r tbl bi); auto. now left.
    + eexists. apply (C20_single_partial v (eclevel_of l) tbl bi ET EI (whole s) (whole r) p e);
        auto using whole_bytes; [congruence|now rewrite EC|]. rewrite ETot, EK. exact HI.
  - inversion HL; inversion B1; inversion B2; inversion HC; subst. auto.
Qed.

(** "HELLO WORLD" at version 1-M with two wrong codewords, three wrong bits in the first
    copy of the format information and the second copy erased *)
Definition cut (b : list N) : list N * list N := (firstn 16 b, skipn 16 b).
Definition scratched : matrix :=
  symbol_of 1 5 [cut (hit 3 5 (hit 10 77 hello_M))] (N.lxor (format_word M 5) 0x4012) 0 (fun _ _ => false).

Lemma scratched_repairable : repairable 26 4 hello_M (hit 3 5 (hit 10 77 hello_M)).
Proof.
  assert (E : errors hello_M (hit 3 5 (hit 10 77 hello_M)) = [(10%nat, 77); (3%nat, 5)]) by (vm_compute; reflexivity).
  unfold repairable. rewrite E. cbv zeta. right. cbn [length]. split; [lia|]. split.
  - unfold regular. cbn [length]. apply below_2.
    + exists []. split; [constructor|]. split; [simpl; lia|]. split; [intros; lia|].
      intros b Hb. assert (Hb' : In b [0; 1; 2; 3; 4]%nat) by (cbn; lia).
      clear Hb. revert b Hb'. clear. apply Forall_forall. repeat constructor; vm_compute; discriminate.
    + exists [70]. split; [repeat constructor|]. split; [simpl; lia|]. split.
      * intros b Hb. assert (b = 0)%nat by lia. subst b. reflexivity.
      * intros b Hb. assert (Hb' : In b [1; 2; 3; 4]%nat) by (cbn; lia).
        clear Hb. revert b Hb'. clear. apply Forall_forall. repeat constructor; vm_compute; discriminate.
  - exists [254; 172]. split; [repeat constructor|]. split; [cbn; lia|]. split.
    + intros p e [E'|[E'|[]]]; injection E' as <- <-; reflexivity.
    + assert (E2 : filter (fun i => locator 2 4 [254; 172] (fpow 2 i) =? 0) (seq 0 26) = [3; 10]%nat)
        by (vm_compute; reflexivity).
      rewrite E2. cbn [length]. apply below_2; vm_compute; discriminate.
Qed.

Example C37_example :
  qr_decode_with_info (Ok (deliver 1 scratched)) = Ok (hello, mkQRInfo 1 MEDIUM 128 6).
Proof.
  destruct (C37_damaged 1 M 5 scratched (deliver 1 scratched) [cut hello_M] [cut (hit 3 5 (hit 10 77 hello_M))]
              [encode_alnum hello] [hello]) as [_ E].
  - lia.
  - reflexivity.
  - apply deliver_shows. lia.
  - exists 0x4012. split; [reflexivity|]. split; [reflexivity|].
    split; [apply symbol_format; lia|now left].
  - apply symbol_holds; [lia|split; [reflexivity|repeat constructor]|].
    constructor; [|constructor]. split; now apply bytes_check.
  - split; [reflexivity|repeat constructor].
  - constructor; [|constructor]. split; now apply bytes_check.
  - split; [constructor; [exact hello_M_code|constructor]|].
    exists (skipn 74 (bits (firstn 16 hello_M))). split; [left; eexists; reflexivity|vm_compute; reflexivity].
  - constructor; [apply encode_alnum_wf; [apply hello_alphabet|reflexivity]|constructor].
  - constructor; [|constructor]. unfold raw_text. cbn [encode_alnum r_mode r_count r_vals].
    destruct (encode_alnum_ok hello hello_alphabet) as (_ & H1 & H2). auto.
  - constructor; [exact scratched_repairable|constructor].
  - rewrite E. vm_compute. reflexivity.
Qed.

(** the level and the number of wrong bits as the theorem on the report gives them *)
Example C35_example : exists info, qr_decode_with_info (Ok (deliver 1 scratched)) = Ok (hello, info) /\
  iversion info = 1%Z /\ ierrors info = 6 /\ itotal_data info = 128 /\ codeword_count 1 = 26%nat.
Proof. eexists. split; [apply C37_example|]. repeat split. Qed.

Example C34_example : qr_decode (Ok (deliver 1 scratched)) = Ok hello.
Proof. apply C34_agree. eexists. apply C37_example. Qed.
