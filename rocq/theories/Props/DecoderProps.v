(** From the modules of a symbol to its text: C30 to C32. *)
From Coq Require Import NArith ZArith List Lia Bool Arith.
From Verif.Model Require Import QRDecoder.
From Verif.Spec Require Import Bits Segments GF256 RS Symbol Layout Bridge Message Encoder.
From Verif.Proofs Require Import BaseP BitsP GaloisP FormatP LayoutP CountP BlocksP StreamBytesP CorrectP RSBridgeP
  StreamP EncodeP DrawP EncoderP DecodeP.
From Verif.Props Require Import CorrectProps FormatProps DataProps.
Import ListNotations.
Local Open Scope N_scope.

(** *** C30: undamaged symbols *)

(** whatever the padding, the remainder bits, the function modules and the second copy
    of the format information are *)
Theorem C30_undamaged v l m d q blocks segs texts :
  (1 <= v <= 40)%Z -> m < 8 -> shows v d q ->
  carries d copy1 (format_word l m) -> holds v l m d blocks -> encodes v l blocks segs ->
  Forall (raw_wf v) segs -> Forall2 raw_text segs texts ->
  qr_decode (Ok q) = Ok (concat texts) /\
  qr_decode_with_info (Ok q)
    = Ok (concat texts, mkQRInfo v (eclevel_of l) (8 * N.of_nat (data_codewords v l)) 0).
Proof.
  intros Hv Hm HS HF HH HE HW HT. pose proof HH as (Hsh & HB & _).
  assert (E : qr_decode_with_info (Ok q)
    = Ok (concat texts, mkQRInfo v (eclevel_of l) (8 * N.of_nat (data_codewords v l)) 0)).
  { rewrite (decode_corrected v l m d q blocks blocks segs texts); auto.
    - now rewrite undamaged_bits.
    - apply (C21_intact v d q l m); auto. lia.
    - apply all_corrects; auto; [apply HE|apply undamaged_repairable]. }
  split; [|exact E]. now rewrite decode_forget, E.
Qed.

(** every list of segments that fits is encoded by a symbol, and every matrix that has
    the data modules and the first copy of the format information of that symbol
    decodes to the text *)
Theorem C30_roundtrip v l m segs texts base d q :
  (1 <= v <= 40)%Z -> m < 8 ->
  Forall (raw_wf v) segs -> Forall2 raw_text segs texts ->
  (length (segment_bits v segs) <= 8 * data_codewords v l)%nat ->
  shows v d q ->
  (forall x y, data_module v x y -> d x y = encode_symbol v l m segs base x y) ->
  carries d copy1 (format_word l m) ->
  qr_decode (Ok q) = Ok (concat texts).
Proof.
  intros Hv Hm HW HT HL HS HD HF.
  destruct (encode_blocks_ok v l segs HL) as (Hsh & HB & HE).
  destruct (encode_holds v l m segs base Hv HL) as (_ & _ & rest & ER & HR).
  apply (C30_undamaged v l m d q (encode_blocks v l segs) segs texts); auto.
  split; [exact Hsh|]. split; [exact HB|]. exists rest. split; [|exact HR]. rewrite <- ER.
  unfold symbol_bits. apply map_ext_in. intros [x y] HI. cbn [fst snd]. rewrite HD; [reflexivity|].
  apply data_order_In; [lia|exact HI].
Qed.

(** the three modes *)
Theorem C30_numeric v l m digits base : (1 <= v <= 40)%Z -> m < 8 ->
  Forall (fun d => d < 10) digits -> N.of_nat (length digits) < 2 ^ N.of_nat (count_bits v 1) ->
  (length (raw_bits v (encode_numeric digits)) <= 8 * data_codewords v l)%nat ->
  qr_decode (Ok (deliver v (encode_symbol v l m [encode_numeric digits] base))) = Ok (map (fun d => 48 + d) digits).
Proof.
  intros Hv Hm HD HN HL. rewrite <- (app_nil_r (map _ _)).
  apply (C30_roundtrip v l m [encode_numeric digits] [map (fun d => 48 + d) digits] base
           (encode_symbol v l m [encode_numeric digits] base)); auto.
  - constructor; [now apply encode_numeric_wf|constructor].
  - constructor; [|constructor]. unfold raw_text. simpl. symmetry. now apply encode_numeric_ok.
  - unfold segment_bits. cbn [map concat]. now rewrite app_nil_r.
  - apply deliver_shows. lia.
  - apply encode_format. lia.
Qed.

Theorem C30_alphanumeric v l m text base : (1 <= v <= 40)%Z -> m < 8 ->
  Forall (fun c => In c alphabet) text -> N.of_nat (length text) < 2 ^ N.of_nat (count_bits v 2) ->
  (length (raw_bits v (encode_alnum text)) <= 8 * data_codewords v l)%nat ->
  qr_decode (Ok (deliver v (encode_symbol v l m [encode_alnum text] base))) = Ok text.
Proof.
  intros Hv Hm HD HN HL. rewrite <- (app_nil_r text) at 2.
  apply (C30_roundtrip v l m [encode_alnum text] [text] base (encode_symbol v l m [encode_alnum text] base)); auto.
  - constructor; [now apply encode_alnum_wf|constructor].
  - constructor; [|constructor]. unfold raw_text. cbn [encode_alnum r_mode r_count r_vals].
    destruct (encode_alnum_ok text HD) as (_ & H1 & H2). auto.
  - unfold segment_bits. cbn [map concat]. now rewrite app_nil_r.
  - apply deliver_shows. lia.
  - apply encode_format. lia.
Qed.

Theorem C30_latin1 v l m text base : (1 <= v <= 40)%Z -> m < 8 ->
  Forall is_byte text -> ~ In 195 text -> N.of_nat (length text) < 2 ^ N.of_nat (count_bits v 4) ->
  (length (raw_bits v (encode_bytes text)) <= 8 * data_codewords v l)%nat ->
  qr_decode (Ok (deliver v (encode_symbol v l m [encode_bytes text] base))) = Ok text.
Proof.
  intros Hv Hm HD HC HN HL. rewrite <- (app_nil_r text) at 2.
  apply (C30_roundtrip v l m [encode_bytes text] [text] base (encode_symbol v l m [encode_bytes text] base)); auto.
  - constructor; [now apply encode_bytes_wf|constructor].
  - constructor; [|constructor]. now left.
  - unfold segment_bits. cbn [map concat]. now rewrite app_nil_r.
  - apply deliver_shows. lia.
  - apply encode_format. lia.
Qed.

(** "HELLO WORLD" at version 1-M and version 7-H (five blocks of two lengths), with the
    function modules dark *)
Definition hello : list N := [72; 69; 76; 76; 79; 32; 87; 79; 82; 76; 68].

Lemma hello_alphabet : Forall (fun c => In c alphabet) hello.
Proof. repeat (apply Forall_cons; [vm_compute; tauto|]). apply Forall_nil. Qed.

Example C30_example_1 :
  qr_decode (Ok (deliver 1 (encode_symbol 1 M 5 [encode_alnum hello] (fun _ _ => true)))) = Ok hello /\
  map whole (encode_blocks 1 M [encode_alnum hello]) = [hello_M].
Proof.
  split; [|vm_compute; reflexivity].
  apply C30_alphanumeric; [lia|reflexivity|apply hello_alphabet|reflexivity|vm_compute; lia].
Qed.

Example C30_example_7 :
  qr_decode (Ok (deliver 7 (encode_symbol 7 H 2 [encode_alnum hello] (fun _ _ => true)))) = Ok hello /\
  map (fun b => length (whole b)) (encode_blocks 7 H [encode_alnum hello]) = [39; 39; 39; 39; 40]%nat.
Proof.
  split; [|vm_compute; reflexivity].
  apply C30_alphanumeric; [lia|reflexivity|apply hello_alphabet|reflexivity|vm_compute; lia].
Qed.

(** *** C31: which modules matter *)
Definition same_at (places : Z -> Z * Z) (d1 d2 : matrix) : Prop :=
  forall i, (0 <= i < 15)%Z -> d1 (fst (places i)) (snd (places i)) = d2 (fst (places i)) (snd (places i)).

Lemma same_format v d1 d2 q1 q2 : (0 <= v)%Z -> shows v d1 q1 -> shows v d2 q2 ->
  same_at copy1 d1 d2 -> same_at (copy2 v) d1 d2 -> format q1 = format q2.
Proof.
  intros Hv H1 H2 F1 F2.
  rewrite (format_ok v d1 q1 _ _ H1 Hv (word_at_carries d1 copy1) (word_at_carries d1 (copy2 v))).
  rewrite (format_ok v d2 q2 (word_at d1 copy1) (word_at d1 (copy2 v)) H2 Hv); [reflexivity| |].
  - intros i Hi. rewrite <- F1 by exact Hi. now apply word_at_carries.
  - intros i Hi. rewrite <- F2 by exact Hi. now apply word_at_carries.
Qed.

Lemma unknown_blocks q l m : ~ (1 <= qversion q <= 40)%Z -> blocks q l m = Err (EVersionLevel (qversion q) l).
Proof.
  intros Hv. unfold blocks, block_info. destruct (block_table (qversion q) l) eqn:E; [|reflexivity].
  exfalso. apply Hv. apply (block_table_range _ l). congruence.
Qed.

Theorem C31_modules v d1 d2 q1 q2 : (0 <= v)%Z -> shows v d1 q1 -> shows v d2 q2 ->
  same_at copy1 d1 d2 -> same_at (copy2 v) d1 d2 ->
  (forall x y, data_module v x y -> d1 x y = d2 x y) ->
  qr_decode (Ok q1) = qr_decode (Ok q2) /\ qr_decode_with_info (Ok q1) = qr_decode_with_info (Ok q2).
Proof.
  intros Hv H1 H2 F1 F2 HD. rewrite !decode_forget.
  assert (E : qr_decode_with_info (Ok q1) = qr_decode_with_info (Ok q2)); [|now rewrite E].
  pose proof (same_format v d1 d2 q1 q2 Hv H1 H2 F1 F2) as EF.
  destruct (format_no_panic v d1 q1 Hv H1) as [(l & m & E1 & Hm)|E1].
  2:{ unfold qr_decode_with_info. cbn [bind]. now rewrite <- EF, E1. }
  assert (V1 : qversion q1 = v) by apply H1. assert (V2 : qversion q2 = v) by apply H2.
  destruct (Z_le_dec 1 v) as [A|A]; [destruct (Z_le_dec v 40) as [B|B]|].
  - destruct (holds_some v l m d1 (conj A B)) as (parts & HH).
    destruct (info_facts v l (conj A B)) as (bis & EI & _).
    rewrite (decode_holds v l m d1 q1 parts bis) by auto.
    rewrite (decode_holds v l m d2 q2 parts bis); auto; [now rewrite <- EF|].
    destruct HH as (Hsh & HB & rest & ER & HR). split; [exact Hsh|]. split; [exact HB|].
    exists rest. split; [|exact HR]. rewrite <- ER. unfold symbol_bits. apply map_ext_in.
    intros [x y] HI. cbn [fst snd]. rewrite HD; [reflexivity|]. apply data_order_In; [lia|exact HI].
  - unfold qr_decode_with_info. cbn [bind]. rewrite <- EF, E1. cbn [bind].
    rewrite !unknown_blocks by lia. now rewrite V1, V2.
  - unfold qr_decode_with_info. cbn [bind]. rewrite <- EF, E1. cbn [bind].
    rewrite !unknown_blocks by lia. now rewrite V1, V2.
Qed.

(** a symbol whose finder, timing and alignment patterns are inverted *)
Definition vandalise (v : Z) (d : matrix) : matrix := fun x y =>
  if data_moduleb v x y || existsb (fun i => Z.eqb (fst (copy1 i)) x && Z.eqb (snd (copy1 i)) y ||
        Z.eqb (fst (copy2 v i)) x && Z.eqb (snd (copy2 v i)) y) (map Z.of_nat (seq 0 15))
  then d x y else negb (d x y).

Example C31_example :
  let d := encode_symbol 7 L 3 [encode_alnum hello] (fun x y => (Z.odd (x * y))) in
  qr_decode_with_info (Ok (deliver 7 (vandalise 7 d))) = qr_decode_with_info (Ok (deliver 7 d)) /\
  qr_decode (Ok (deliver 7 d)) = Ok hello /\ vandalise 7 d 0%Z 0%Z <> d 0%Z 0%Z /\ vandalise 7 d 23%Z 23%Z <> d 23%Z 23%Z.
Proof.
  intros d. split; [|split].
  - symmetry. apply (C31_modules 7 d (vandalise 7 d)); try (apply deliver_shows; lia); [lia| | |].
    + intros i Hi. unfold vandalise.
      rewrite (proj2 (existsb_exists _ _)); [now rewrite orb_true_r|].
      exists i. split; [now apply fifteen|]. now rewrite !Z.eqb_refl.
    + intros i Hi. unfold vandalise.
      rewrite (proj2 (existsb_exists _ _)); [now rewrite orb_true_r|].
      exists i. split; [now apply fifteen|]. now rewrite !Z.eqb_refl, orb_true_r.
    + intros x y H. unfold vandalise. apply data_moduleb_iff in H. now rewrite H.
  - apply C30_alphanumeric; [lia|reflexivity|apply hello_alphabet|reflexivity|vm_compute; lia].
  - split; vm_compute; discriminate.
Qed.

(** *** C32: unknown versions *)
Theorem C32_rejected v d q : (0 <= v)%Z -> ~ (1 <= v <= 40)%Z -> shows v d q ->
  exists e, qr_decode (Ok q) = Err e /\ qr_decode_with_info (Ok q) = Err e.
Proof.
  intros Hv HN HS. assert (V : qversion q = v) by apply HS.
  destruct (format_no_panic v d q Hv HS) as [(l & m & E & _)|E].
  - exists (EVersionLevel v (eclevel_of l)). unfold qr_decode, qr_decode_with_info. cbn [bind]. rewrite E. cbn [bind].
    rewrite unknown_blocks by lia. now rewrite V.
  - exists EFormatCorrupted. unfold qr_decode, qr_decode_with_info. cbn [bind]. rewrite E. auto.
Qed.

(** whatever the size of the square and of the data are, there is no text *)
Theorem C32_no_text q : ~ (1 <= qversion q <= 40)%Z ->
  (forall text, qr_decode (Ok q) <> Ok text) /\ (forall r, qr_decode_with_info (Ok q) <> Ok r).
Proof.
  intros HN. assert (G : forall r, qr_decode_with_info (Ok q) <> Ok r).
  { intros r. unfold qr_decode_with_info. cbn [bind]. destruct (format q) as [[l m]| |]; cbn [bind]; try discriminate.
    now rewrite unknown_blocks. }
  split; [|exact G]. intros t. rewrite decode_forget. destruct (qr_decode_with_info (Ok q)) as [r| |]; try discriminate.
  now contradiction (G r).
Qed.

Example C32_example : exists d, shows 41 d (deliver 41 d) /\
  qr_decode (Ok (deliver 41 d)) = Err (EVersionLevel 41 QUARTILE).
Proof.
  exists (draw 41 (format_word Q 6) 0). split; [apply deliver_shows; lia|].
  unfold qr_decode. cbn [bind].
  rewrite (C21_intact 41 (draw 41 (format_word Q 6) 0) _ Q 6);
    [|lia|apply deliver_shows; lia|reflexivity|apply draw_on_1].
  cbn [bind]. now rewrite unknown_blocks by (cbn; lia).
Qed.
