(** C05-C13: the payload decoder of decode/qr/data.rs.  The streams are those of
    Spec/Segments.v; [data input v] is the decoder on the bytes [input]. *)
From Coq Require Import Lia.
From Verif.Model Require Import Data.
From Verif.Spec Require Import Bits Segments.
From Verif.Proofs Require Import BaseP BitsP DataP StreamP EncodeP.
Open Scope N_scope.

(** C09.  A stream of complete segments, whatever may follow them. *)
Theorem C09_mixed_segments v input segs texts tail :
  version_ok v -> Forall is_byte input ->
  Forall (raw_wf v) segs -> Forall2 raw_text segs texts -> tail_ok tail ->
  bits input = concat (map (raw_bits v) segs) ++ tail ->
  data input v = Ok (concat texts).
Proof.
  intros Hv HB HW HT Ht HR.
  exact (data_stream v input segs texts tail Done Hv HB HW HT HR (ending_done v tail Ht)).
Qed.

(** a numeric, an alphanumeric and a byte segment, terminator and padding *)
Example C09_case :
  let segs := [encode_numeric [1; 2; 3; 4]; encode_alnum [65; 67; 58]; encode_bytes [104; 195; 169]] in
  let input := [16; 16; 123; 66; 1; 156; 235; 16; 13; 163; 14; 164; 0; 236; 17] in
  exists tail,
    Forall (raw_wf 1) segs /\
    Forall2 raw_text segs [[49; 50; 51; 52]; [65; 67; 58]; [104; 233]] /\ tail_ok tail /\
    bits input = concat (map (raw_bits 1) segs) ++ tail /\
    data input 1 = Ok [49; 50; 51; 52; 65; 67; 58; 104; 233].
Proof.
  exists (skipn 94 (bits [16; 16; 123; 66; 1; 156; 235; 16; 13; 163; 14; 164; 0; 236; 17])).
  split; [|split; [|split; [|split]]].
  - constructor; [|constructor; [|constructor; [|constructor]]].
    + apply encode_numeric_wf; [repeat constructor|reflexivity].
    + apply encode_alnum_wf; [|reflexivity].
      repeat constructor; vm_compute; tauto.
    + apply encode_bytes_wf; [repeat constructor|reflexivity].
  - constructor; [|constructor; [|constructor; [|constructor]]].
    + reflexivity.
    + apply (encode_alnum_ok [65; 67; 58]). repeat constructor; vm_compute; tauto.
    + right. split; [vm_compute; tauto|]. split; [|reflexivity]. repeat constructor.
  - left. eexists. reflexivity.
  - vm_compute. reflexivity.
  - vm_compute. reflexivity.
Qed.

Lemma one_segment v input s t tail :
  version_ok v -> Forall is_byte input -> raw_wf v s -> raw_text s t -> tail_ok tail ->
  bits input = raw_bits v s ++ tail -> data input v = Ok t.
Proof.
  intros Hv HB HW HT Ht HR.
  rewrite (C09_mixed_segments v input [s] [t] tail); auto.
  - simpl. now rewrite app_nil_r.
  - cbn [map concat]. now rewrite app_nil_r.
Qed.

(** C05.  [digits] are the digits' values; the text holds their characters. *)
Theorem C05_numeric_roundtrip v input digits tail :
  version_ok v -> Forall is_byte input -> tail_ok tail ->
  Forall (fun d => d < 10) digits ->
  N.of_nat (length digits) < 2 ^ N.of_nat (count_bits v 1) ->
  bits input = raw_bits v (encode_numeric digits) ++ tail ->
  data input v = Ok (map (fun d => 48 + d) digits).
Proof.
  intros Hv HB Ht HD HL HR. eapply one_segment; eauto.
  - now apply encode_numeric_wf.
  - unfold raw_text. simpl. symmetry. now apply encode_numeric_ok.
Qed.

(** "0123456789012345", the standard's own example (7.4.3, version 1) *)
Example C05_case :
  let digits := [0; 1; 2; 3; 4; 5; 6; 7; 8; 9; 0; 1; 2; 3; 4; 5] in
  let input := [16; 64; 12; 86; 106; 110; 20; 234; 80] in
  bits input = raw_bits 1 (encode_numeric digits) ++ nbits 4 0 ++ [] /\
  data input 1 = Ok (map (fun d => 48 + d) digits).
Proof. split; vm_compute; reflexivity. Qed.

(** C06 *)
Theorem C06_alphanumeric_roundtrip v input text tail :
  version_ok v -> Forall is_byte input -> tail_ok tail ->
  Forall (fun c => In c alphabet) text ->
  N.of_nat (length text) < 2 ^ N.of_nat (count_bits v 2) ->
  bits input = raw_bits v (encode_alnum text) ++ tail ->
  data input v = Ok text.
Proof.
  intros Hv HB Ht HD HL HR. eapply one_segment; eauto.
  - now apply encode_alnum_wf.
  - unfold raw_text. cbn [encode_alnum r_mode r_count r_vals].
    destruct (encode_alnum_ok text HD) as (_ & H1 & H2). auto.
Qed.

(** "AC-42", the standard's own example (7.4.4, version 1) *)
Example C06_case :
  let text := [65; 67; 45; 52; 50] in
  let input := [32; 41; 206; 231; 33; 0] in
  (exists tail, tail_ok tail /\ bits input = raw_bits 1 (encode_alnum text) ++ tail) /\
  data input 1 = Ok text.
Proof.
  split; [exists (skipn 41 (bits [32; 41; 206; 231; 33; 0]))|vm_compute; reflexivity].
  split; [left; eexists; reflexivity|vm_compute; reflexivity].
Qed.

(** C07.  The characters of ISO 8859-1 are its bytes. *)
Theorem C07_latin1_roundtrip v input text tail :
  version_ok v -> Forall is_byte input -> tail_ok tail ->
  Forall is_byte text -> ~ In 195 text ->
  N.of_nat (length text) < 2 ^ N.of_nat (count_bits v 4) ->
  bits input = raw_bits v (encode_bytes text) ++ tail ->
  data input v = Ok text.
Proof.
  intros Hv HB Ht HD HN HL HR. eapply one_segment; eauto.
  - now apply encode_bytes_wf.
  - left. auto.
Qed.

(** "aé" in ISO 8859-1 *)
Example C07_case :
  bits [64; 38; 30; 144] = raw_bits 1 (encode_bytes [97; 233]) ++ nbits 4 0 /\
  data [64; 38; 30; 144] 1 = Ok [97; 233].
Proof. split; vm_compute; reflexivity. Qed.

(** C08 does not hold: "€" comes back as the three characters of its UTF-8 bytes. *)
Theorem C08_utf8_refuted :
  ~ (forall v input text tail,
       version_ok v -> Forall is_byte input -> tail_ok tail ->
       Forall scalar text ->
       N.of_nat (length (utf8 text)) < 2 ^ N.of_nat (count_bits v 4) ->
       bits input = raw_bits v (encode_bytes (utf8 text)) ++ tail ->
       data input v = Ok text).
Proof.
  intros H.
  assert (E : data [64; 62; 40; 42; 192] 1 = Ok [8364]).
  { apply (H 1%Z _ [8364] (nbits 4 0)).
    - unfold version_ok. lia.
    - repeat constructor.
    - left. exists []. reflexivity.
    - repeat constructor.
    - vm_compute. reflexivity.
    - vm_compute. reflexivity. }
  vm_compute in E. discriminate E.
Qed.

(** What holds: the text comes back exactly when it is pure ASCII or its encoding holds
    a byte 0xC3 (it has one of the characters U+00C0..U+00FF).  Missing for C08: all
    other texts; those come back as one character per byte. *)
Theorem C08_utf8_partial v input text tail :
  version_ok v -> Forall is_byte input -> tail_ok tail ->
  Forall scalar text ->
  N.of_nat (length (utf8 text)) < 2 ^ N.of_nat (count_bits v 4) ->
  bits input = raw_bits v (encode_bytes (utf8 text)) ++ tail ->
  (data input v = Ok text <-> In 195 (utf8 text) \/ Forall (fun c => c < 128) text) /\
  (~ In 195 (utf8 text) -> data input v = Ok (utf8 text)).
Proof.
  intros Hv HB Ht HS HL HR.
  assert (HW : raw_wf v (encode_bytes (utf8 text))).
  { apply encode_bytes_wf; auto. now apply utf8_bytes. }
  assert (H1 : In 195 (utf8 text) -> data input v = Ok text).
  { intros H. eapply one_segment; eauto. right. auto. }
  assert (H2 : ~ In 195 (utf8 text) -> data input v = Ok (utf8 text)).
  { intros H. eapply one_segment; eauto. left. auto. }
  split; [|exact H2].
  destruct (in_dec N.eq_dec 195 (utf8 text)) as [H|H]; [tauto|].
  rewrite (H2 H). split.
  - intros E. injection E as E. right. apply utf8_ascii; auto.
  - intros [H3|H3]; [contradiction|]. apply utf8_ascii in H3; auto. now rewrite H3.
Qed.

(** "é€" *)
Example C08_case :
  In 195 (utf8 [233; 8364]) /\
  bits [64; 92; 58; 158; 40; 42; 192] = raw_bits 1 (encode_bytes (utf8 [233; 8364])) ++ nbits 4 0 /\
  data [64; 92; 58; 158; 40; 42; 192] 1 = Ok [233; 8364].
Proof. split; [vm_compute; tauto|]. split; vm_compute; reflexivity. Qed.

(** C10.  After any complete segments, a mode indicator whose count or characters are
    cut off. *)
Theorem C10_truncated_rejected v input segs texts m l :
  version_ok v -> Forall is_byte input ->
  Forall (raw_wf v) segs -> Forall2 raw_text segs texts ->
  supported m -> truncated v m l ->
  bits input = concat (map (raw_bits v) segs) ++ nbits 4 m ++ l ->
  exists e, data input v = Err e.
Proof.
  intros Hv HB HW HT Hm Hl HR.
  exact (data_stream v input segs texts _ Truncated Hv HB HW HT HR (ending_truncated v _ m l eq_refl Hm Hl)).
Qed.

(** In particular: any stream cut inside a segment, after its mode indicator. *)
Theorem C10_prefix_rejected v input segs texts s k :
  version_ok v -> Forall is_byte input ->
  Forall (raw_wf v) segs -> Forall2 raw_text segs texts -> raw_wf v s ->
  (4 <= k < length (raw_bits v s))%nat ->
  bits input = concat (map (raw_bits v) segs) ++ firstn k (raw_bits v s) ->
  exists e, data input v = Err e.
Proof.
  intros Hv HB HW HT Hs Hk HR.
  destruct (truncated_prefix v s k Hs Hk) as (r & E & Ht). rewrite E in HR.
  eapply C10_truncated_rejected; eauto. apply Hs.
Qed.

(** "AC-42" without its last byte *)
Example C10_case :
  bits [32; 41; 206; 231; 33] = firstn 40 (raw_bits 1 (encode_alnum [65; 67; 45; 52; 50])) /\
  length (raw_bits 1 (encode_alnum [65; 67; 45; 52; 50])) = 41%nat /\
  data [32; 41; 206; 231; 33] 1 = Err (EReadBits 6).
Proof. repeat split; vm_compute; reflexivity. Qed.

(** C11 *)
Theorem C11_unsupported_mode v input segs texts m l :
  version_ok v -> Forall is_byte input ->
  Forall (raw_wf v) segs -> Forall2 raw_text segs texts ->
  m < 16 -> m <> 0 -> ~ supported m ->
  bits input = concat (map (raw_bits v) segs) ++ nbits 4 m ++ l ->
  data input v = Err (EMode m).
Proof.
  intros Hv HB HW HT H16 H0 Hm HR.
  exact (data_stream v input segs texts _ (Unsupported m) Hv HB HW HT HR
           (ending_unsupported v _ m l eq_refl H16 H0 Hm)).
Qed.

(** a byte segment, then Kanji mode *)
Example C11_case :
  bits [64; 22; 24; 1] = raw_bits 1 (encode_bytes [97]) ++ nbits 4 8 ++ nbits 8 1 /\
  data [64; 22; 24; 1] 1 = Err (EMode 8).
Proof. split; vm_compute; reflexivity. Qed.

(** C12 does not hold: one alphanumeric character of value 63 indexes past the table. *)
Theorem C12_payload_never_panics_refuted :
  ~ (forall v input, version_ok v -> Forall is_byte input ->
       forall p, data input v <> Panic p).
Proof.
  intros H. apply (H 1%Z [32; 15; 224]) with (p := PIndex).
  - unfold version_ok. lia.
  - repeat constructor.
  - vm_compute. reflexivity.
Qed.

(** What holds, exactly: the decoder aborts on these streams and on no other. *)
Theorem C12_payload_panics_partial v input p :
  version_ok v -> Forall is_byte input ->
  (data input v = Panic p <->
   p = PIndex /\
   exists segs texts s rest,
     Forall (raw_wf v) segs /\ Forall2 raw_text segs texts /\ raw_wf v s /\ overrun s /\
     bits input = concat (map (raw_bits v) segs) ++ raw_bits v s ++ rest).
Proof.
  intros Hv HB. split.
  - intros HP. destruct (data_classified v input Hv HB) as (segs & texts & l & d & A1 & A2 & A3 & A4 & A5).
    rewrite HP in A5. destruct A4; simpl in A5; try discriminate; try (destruct A5; discriminate).
    injection A5 as ->. split; auto. exists segs, texts, s, r. rewrite <- H. auto.
  - intros (-> & segs & texts & s & r & A1 & A2 & A3 & A4 & A5).
    exact (data_stream v input segs texts _ Overrun Hv HB A1 A2 A5 (ending_overrun v _ s r eq_refl A3 A4)).
Qed.

(** With a number that is no version there is never a panic. *)
Theorem C12_payload_no_version_partial v input p :
  ~ version_ok v -> Forall is_byte input -> data input v <> Panic p.
Proof.
  intros Hv HB HP.
  destruct (stream_exists 1 ltac:(unfold version_ok; lia) _ (bits input) (le_n _))
    as (segs & texts & l & d & A1 & A2 & A3 & A4).
  assert (Hsup : forall m r, supported m -> bits input = nbits 4 m ++ r -> False).
  { intros m r Hm Hr. rewrite (data_bad_version v input m r Hv HB Hm Hr) in HP. discriminate. }
  destruct segs as [|s segs].
  - simpl in A1. subst l. destruct A4 as [HT|m r E H16 H0 HN|m r E HS HT|s r E HW HN HO|s r E HW HO].
    + rewrite data_no_segment in HP by auto. discriminate.
    + rewrite (data_unsupported_first v input m r) in HP by auto. discriminate.
    + eapply Hsup; eauto.
    + unfold raw_bits in E. rewrite <- app_assoc in E. eapply Hsup; eauto. apply HW.
    + unfold raw_bits in E. rewrite <- app_assoc in E. eapply Hsup; eauto. apply HW.
  - cbn [map concat] in A1. unfold raw_bits at 1 in A1. rewrite <- !app_assoc in A1.
    inversion A2; subst. eapply Hsup; eauto. apply H1.
Qed.

(** an overrun after a complete segment *)
Example C12_case :
  overrun (Raw 2 3 [1044; 45]) /\ raw_wf 1 (Raw 2 3 [1044; 45]) /\
  bits [64; 22; 18; 1; 193; 75; 90] =
    raw_bits 1 (encode_bytes [97]) ++ raw_bits 1 (Raw 2 3 [1044; 45]) ++ nbits 6 26 /\
  data [64; 22; 18; 1; 193; 75; 90] 1 = Panic PIndex.
Proof.
  split; [|split; [|split; vm_compute; reflexivity]].
  - split; [reflexivity|]. exists [1044], 45. repeat split; auto; [|lia].
    repeat constructor.
  - split; [auto|]. split; [reflexivity|]. repeat constructor.
Qed.

(** C13 does not hold: a three digit group of 1000 or more prints four digits. *)
Theorem C13_numeric_length_refuted :
  ~ (forall v input n vals tail t,
       version_ok v -> Forall is_byte input -> tail_ok tail ->
       raw_wf v (Raw 1 n vals) ->
       bits input = raw_bits v (Raw 1 n vals) ++ tail ->
       data input v = Ok t -> N.of_nat (length t) = n).
Proof.
  intros H.
  assert (E : N.of_nat (length [49; 48; 50; 51]) = 3).
  { apply (H 1%Z [16; 15; 255; 0] 3 [1023] (nbits 8 0) [49; 48; 50; 51]).
    - unfold version_ok. lia.
    - repeat constructor.
    - left. exists (nbits 4 0). reflexivity.
    - split; [auto|]. split; [reflexivity|]. repeat constructor.
    - vm_compute. reflexivity.
    - vm_compute. reflexivity. }
  discriminate E.
Qed.

(** What holds: the segment always decodes, to decimal digits, at least [n] of them, and
    exactly [n] if and only if each group is one that an encoder can write. *)
Theorem C13_numeric_length_partial v input n vals tail :
  version_ok v -> Forall is_byte input -> tail_ok tail ->
  raw_wf v (Raw 1 n vals) ->
  bits input = raw_bits v (Raw 1 n vals) ++ tail ->
  exists t, data input v = Ok t /\
    Forall (fun c => 48 <= c <= 57) t /\ n <= N.of_nat (length t) /\
    (N.of_nat (length t) = n <->
     Forall2 (fun size value => value < 10 ^ N.of_nat (numeric_width size)) (field_sizes 1 n) vals).
Proof.
  intros Hv HB Ht HW HR. exists (numeric_text (field_sizes 1 n) vals). split.
  - eapply one_segment; eauto. reflexivity.
  - destruct HW as (_ & _ & HF). cbn [r_mode r_count r_vals] in HF.
    destruct (numeric_sizes_shape n) as [S1 S2].
    destruct (numeric_text_len _ _ HF S1) as (L1 & L2 & L3). rewrite S2 in *.
    split; [exact L1|]. split; [lia|]. rewrite <- L3. lia.
Qed.

Example C13_case :
  raw_wf 1 (Raw 1 5 [999; 126]) /\
  bits [16; 23; 231; 252; 0] = raw_bits 1 (Raw 1 5 [999; 126]) ++ nbits 9 0 /\
  data [16; 23; 231; 252; 0] 1 = Ok [57; 57; 57; 49; 50; 54].
Proof.
  split; [|split; vm_compute; reflexivity].
  split; [auto|]. split; [reflexivity|]. repeat constructor.
Qed.

Print Assumptions C09_mixed_segments.
Print Assumptions C05_numeric_roundtrip.
Print Assumptions C06_alphanumeric_roundtrip.
Print Assumptions C07_latin1_roundtrip.
Print Assumptions C08_utf8_refuted.
Print Assumptions C08_utf8_partial.
Print Assumptions C10_truncated_rejected.
Print Assumptions C10_prefix_rejected.
Print Assumptions C11_unsupported_mode.
Print Assumptions C12_payload_never_panics_refuted.
Print Assumptions C12_payload_panics_partial.
Print Assumptions C12_payload_no_version_partial.
Print Assumptions C13_numeric_length_refuted.
Print Assumptions C13_numeric_length_partial.
