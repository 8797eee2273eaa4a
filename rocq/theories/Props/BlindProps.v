(** A symbol can hide itself: C61. *)
From Coq Require Import NArith ZArith Reals List Lia Lra Bool Psatz.
From Verif.Model Require Import Prepare Detect Extract Pipeline.
From Flocq Require Import Core.
From Verif.Spec Require Import Bits Segments Symbol Layout Bridge Message Encoder Plane Drawing.
From Verif.Proofs Require Import BaseP EncodeP EncoderP PrepareP ExtractP AlignP.
From Verif.Props Require Import DetectProps ExtractProps DecoderProps CleanProps FinderProps WholeProps.
Import ListNotations.
Local Open Scope Z_scope.

(** a correct symbol drawn alone on white paper *)
Definition symbol_on_paper (g : gray) (m ox oy v : Z) (l : level) (mask : N) (segs : list raw) (texts : list (list N)) (d : matrix) : Prop :=
  symbol_drawn g m ox oy v d /\ finder_corners (side_of v) (fun r c => d c r) /\ white_around (pixel g) m ox oy (side_of v) /\
  ox + side_of v * m < gw g /\ gw g <= 2 ^ 26 /\ gh g <= 2 ^ 26 /\
  (v = 1 \/ bottom_right_alignment (side_of v) (fun r c => d c r)) /\
  Forall (raw_wf v) segs /\ Forall2 raw_text segs texts /\ (length (segment_bits v segs) <= 8 * data_codewords v l)%nat /\
  (forall base x y, data_module v x y -> d x y = encode_symbol v l mask segs base x y) /\
  carries d copy1 (format_word l mask) /\ carries d (copy2 v) (format_word l mask).

Definition C61_statement : Prop := forall g m ox oy v l mask segs texts d locs, wf_gray g -> 1 <= v <= 40 -> 2 <= m -> (mask < 8)%N ->
  symbol_on_paper g m ox oy v l mask segs texts d -> detect g = Ok locs ->
  exists loc, In loc locs /\ located m ox oy (side_of v) loc /\ version loc = v.

(** version 3, level L, mask 0 *)
Definition base_3 : matrix := fun x y =>
  let ring cx cy k := Z.max (Z.abs (x - cx)) (Z.abs (y - cy)) =? k in
  let finder cx cy := ring cx cy 0 || ring cx cy 1 || ring cx cy 3 in
  finder 3 3 || finder 25 3 || finder 3 25 || ring 22 22 0 || ring 22 22 2 || (Z.eqb x 8 && Z.eqb y 21)
  || (Z.eqb x 6 || Z.eqb y 6) && Z.even (x + y) && (7 <? x + y - 6) && (x + y - 6 <? 21).
(** https://example.org/?M17-the-third-La5-row-is-allMost *)
Definition blind_text : list N := [104; 116; 116; 112; 115; 58; 47; 47; 101; 120; 97; 109; 112; 108; 101; 46; 111; 114; 103; 47;
  63; 77; 49; 55; 45; 116; 104; 101; 45; 116; 104; 105; 114; 100; 45; 76; 97; 53; 45; 114; 111; 119; 45; 105; 115; 45; 97; 108; 108; 77; 111; 115; 116]%N.
Definition blind : list raw := [encode_bytes blind_text].
Definition order_3 : list (Z * Z) := Eval vm_compute in data_order 3.
Definition bits_3 : list bool := Eval vm_compute in
  map (fun p => xorb (snd p) (mask_bit 0 (fst (fst p)) (snd (fst p))))
      (combine order_3 (bits (interleave (encode_blocks 3 L blind)) ++ repeat false (Z.to_nat (data_module_count 3 mod 8)))).
Definition word_3 : N := Eval vm_compute in format_word L 0.
Definition symbol_3 : list (list bool) := Eval vm_compute in
  let d := place order_3 bits_3 (draw_on 3 word_3 word_3 base_3) in
  map (fun y => map (fun x => d (Z.of_nat x) (Z.of_nat y)) (seq 0 29)) (seq 0 29).
Definition modules_3 : matrix := fun x y => nth (Z.to_nat x) (nth (Z.to_nat y) symbol_3 []) false.

(** the columns 9 to 21 of the third row are light, and something dark is to the left of them *)
Example blind_row : map (fun x => modules_3 (Z.of_nat x) 2) (seq 8 15) =
  [true; false; false; false; false; false; false; false; false; false; false; false; false; false; true].
Proof. vm_compute. reflexivity. Qed.

Definition blind_paper : gray := painted 66 66 2 4 4 3 modules_3.

Lemma blind_on_paper : symbol_on_paper blind_paper 2 4 4 3 L 0 blind [blind_text] modules_3.
Proof.
  unfold symbol_on_paper. split; [apply painted_drawn; unfold side_of; lia|]. split; [apply check_corners_ok; vm_compute; reflexivity|].
  split; [intros x y u Px Py HO P; unfold pixel in P; pose proof (pixel_inside _ _ _ _ P) as [Lx Ly]; unfold blind_paper in Lx, Ly, P; cbn [painted image_of gw gh] in Lx, Ly;
    rewrite painted_outside in P by lia; now injection P|].
  split; [reflexivity|]. split; [cbn; lia|]. split; [cbn; lia|].
  split.
  { right. intros i j Hi Hj. assert (A : i = -2 \/ i = -1 \/ i = 0 \/ i = 1 \/ i = 2) by lia. assert (B : j = -2 \/ j = -1 \/ j = 0 \/ j = 1 \/ j = 2) by lia.
    destruct A as [->|[->|[->|[->| ->]]]], B as [->|[->|[->|[->| ->]]]]; vm_compute; reflexivity. }
  split; [constructor; [|constructor]; apply encode_bytes_wf; [repeat (constructor; [vm_compute; reflexivity|]); constructor|vm_compute; reflexivity]|].
  split; [constructor; [|constructor]; left; split; [intros HI; vm_compute in HI; intuition discriminate|reflexivity]|].
  split; [vm_compute; lia|].
  split; [|split].
  - intros base. apply (table_encodes 3 L 0 blind base modules_3 order_3 bits_3 word_3); [lia|vm_compute; reflexivity..].
  - apply (table_encodes 3 L 0 blind base_3 modules_3 order_3 bits_3 word_3); [lia|vm_compute; reflexivity..].
  - intros i Hi. change (format_word L 0) with word_3. apply Bool.eqb_prop.
    assert (K : forallb (fun i => Bool.eqb (modules_3 (fst (copy2 3 i)) (snd (copy2 3 i))) (N.testbit word_3 (Z.to_N i))) (map Z.of_nat (seq 0 15)) = true) by (vm_compute; reflexivity).
    rewrite forallb_forall in K. apply K. apply in_map_iff. exists (Z.to_nat i). split; [lia|apply in_seq; lia].
Qed.

Theorem C61_refuted : ~ C61_statement.
Proof.
  intros H. destruct (H blind_paper 2 4 4 3 L 0%N blind [blind_text] modules_3 []) as (c & [] & _); [|lia|lia|lia|exact blind_on_paper|].
  - apply painted_wf; unfold u32_max; lia.
  - vm_compute. reflexivity.
Qed.

(** when the third row changes colour at least every ten modules in front of the upper right finder
    pattern, and nothing looks like a finder pattern close to one of the three.  Missing from the
    full statement: these two conditions. *)
Theorem C61_varied_partial g m ox oy v l mask segs texts d cs locs : wf_gray g -> 1 <= v <= 40 -> 2 <= m ->
  symbol_on_paper g m ox oy v l mask segs texts d -> third_row_varied (side_of v) (fun r c => d c r) ->
  find_candidates g = Ok cs -> no_decoys m ox oy v cs -> detect g = Ok locs ->
  exists loc, In loc locs /\ located m ox oy (side_of v) loc /\ version loc = v.
Proof.
  intros HW Hv Hm (HD & HF & HA & H1 & H2 & H3 & _) HT E ND ED. apply (C60_located g m ox oy v d HW Hv Hm) with cs; auto. repeat (split; [assumption|]). assumption.
Qed.
