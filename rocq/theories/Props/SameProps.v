(** A symbol without decoys is decoded exactly as its modules are: C90. *)
From Coq Require Import NArith ZArith Reals List Lia Bool.
From Verif.Model Require Import Base QRDecoder Prepare Detect Extract Pipeline.
From Verif.Spec Require Import Bits Segments GF256 RS Symbol Layout Bridge Message Encoder Plane Drawing Margin Decoy.
From Verif.Proofs Require Import BaseP FormatP BlocksP CorrectP EncodeP EncoderP DecodeP PrepareP DetectP ExtractP AlignP LocateP CornersP WholeP MarginP DecoyP.
From Verif.Props Require Import PrepareProps DetectProps DecoderProps CorrectProps ReportProps PipelineProps ExtractProps CleanProps FinderProps WholeProps TurnProps PictureProps MarginProps DecoyProps.
Import ListNotations.
Local Open Scope Z_scope.

Theorem C90_same {D T : Type} (dec : decoder D gray T) (img : D) g k m ox oy v d : usual_stages dec -> wf_gray g -> d_prepare dec img = Ok g ->
  (k < 4)%nat -> 1 <= v <= 40 -> 2 <= m -> symbol_on_white g k m ox oy v d -> (v = 1 \/ bottom_right_alignment (side_of v) (fun r c => d c r)) ->
  decode dec img = match d_decode dec (Ok (deliver v d)) with Ok t => Ok [inl t] | Err e => Ok [inr e] | Panic p => Panic p end.
Proof.
  intros (U1 & U2) HW HP Hk Hv Hm HS HA. destruct (find_candidates_ok g HW) as (cs & E & _). destruct (white_clear g k m ox oy v d HW Hk Hv Hm HS cs E) as [ND L].
  pose proof (white_near g k m ox oy v d HW Hk Hv Hm HS) as SN. destruct (near_inside g k m ox oy v d Hk Hv Hm SN) as (X & Y & XR & YB & BX & BY).
  destruct (C85_only g k m ox oy v d HW Hk Hv Hm SN cs E ND L) as (loc & EL & LT & V).
  assert (EX : extract g loc = Ok (deliver v d)) by (apply (turned_exact g k m ox oy); auto; try lia; exact (proj1 SN)).
  unfold decode. rewrite HP. cbn [bind]. rewrite U1, EL. cbn [bind foldM]. unfold decode_one. rewrite U2, EX.
  destruct (d_decode dec (Ok (deliver v d))); reflexivity.
Qed.

(** a symbol in one of the four directions, painted black on white *)
Definition turned_page (k : nat) (v : Z) (d : matrix) : matrix := fun c r => turned k (side_of v) (fun r c => d c r) r c.
Definition painted_well (g : gray) (k : nat) (v : Z) (d : matrix) : Prop := exists w h m ox oy,
  g = painted w h m ox oy v (turned_page k v d) /\ 5 <= m /\ 4 * m <= ox /\ 4 * m <= oy /\ ox + (side_of v + 4) * m <= w /\ oy + (side_of v + 4) * m <= h /\
  w <= 2 ^ 26 /\ h <= 2 ^ 26 /\ w * h <= 2 ^ 36 /\ undisturbed m (side_of v) (on_white (side_of v) (turned k (side_of v) (fun r c => d c r))) (module_corners k v).

Lemma painted_well_white g k v d : 1 <= v <= 40 -> finder_corners (side_of v) (fun r c => d c r) -> painted_well g k v d ->
  wf_gray g /\ prepare default_prepare g = Ok g /\ exists m ox oy, 2 <= m /\ symbol_on_white g k m ox oy v d.
Proof.
  intros Hv HFC (w & h & m & ox & oy & -> & Hm & OX & OY & WX & WY & W2 & H2 & WH & HU). assert (N : 21 <= side_of v) by (unfold side_of; lia). assert (21 * m <= side_of v * m) by nia.
  split; [apply painted_wf; unfold u32_max; lia|]. split; [apply C57_symbol; unfold u32_max; lia|]. exists m, ox, oy. split; [lia|].
  split; [|cbn [painted image_of gw gh]; repeat (split; [lia || assumption|]); assumption].
  intros x y Hx Hy. unfold pixel, painted. cbn [painted image_of gw gh] in Hx, Hy. rewrite image_of_pixel by lia. cbv zeta. f_equal.
  unfold on_white, turned_page. destruct (0 <=? (x - ox) / m), ((x - ox) / m <? side_of v), (0 <=? (y - oy) / m), ((y - oy) / m <? side_of v); reflexivity.
Qed.

Section Well.
Context {D : Type} (to_gray : D -> gray) (img : D) (k : nat) (v : Z) (d : matrix) (Hk : (k < 4)%nat) (Hv : 1 <= v <= 40).
Context (HFC : finder_corners (side_of v) (fun r c => d c r)) (HA : v = 1 \/ bottom_right_alignment (side_of v) (fun r c => d c r)) (HW : painted_well (to_gray img) k v d).

Theorem C90_default dec : default_decoder to_gray = Ok dec ->
  decode dec img = match qr_decode (Ok (deliver v d)) with Ok t => Ok [inl t] | Err e => Ok [inr e] | Panic p => Panic p end.
Proof.
  intros HD. destruct (painted_well_white _ _ _ _ Hv HFC HW) as (W & P & m & ox & oy & Hm & HS). injection HD as <-.
  refine (C90_same _ img (to_gray img) k m ox oy v d _ W _ Hk Hv Hm HS HA); [split; reflexivity|exact P].
Qed.

Theorem C90_with_info dec : default_decoder_with_info to_gray = Ok dec ->
  decode dec img = match qr_decode_with_info (Ok (deliver v d)) with Ok t => Ok [inl t] | Err e => Ok [inr e] | Panic p => Panic p end.
Proof.
  intros HD. destruct (painted_well_white _ _ _ _ Hv HFC HW) as (W & P & m & ox & oy & Hm & HS). injection HD as <-.
  refine (C90_same _ img (to_gray img) k m ox oy v d _ W _ Hk Hv Hm HS HA); [split; reflexivity|exact P].
Qed.

(** damage is repaired and reported *)
Theorem C90_damaged dec l mask sent received segs texts : default_decoder_with_info to_gray = Ok dec ->
  (mask < 8)%N -> format_readable v l mask d -> holds v l mask d received ->
  block_shape v l sent -> block_bytes sent -> encodes v l sent segs -> Forall (raw_wf v) segs -> Forall2 raw_text segs texts ->
  all_repairable v l sent received ->
  decode dec img = Ok [inl (concat texts, mkQRInfo v (eclevel_of l) (8 * N.of_nat (data_codewords v l)) (wrong_bits_in sent received))].
Proof.
  intros HD H1 H2 H3 H4 H5 H6 H7 H8 H9.
  destruct (C37_damaged v l mask d (deliver v d) sent received segs texts) as [_ E]; auto; [apply deliver_shows; lia|].
  rewrite (C90_with_info dec HD), E. reflexivity.
Qed.
End Well.

(** the size of the modules and the paper, the position and the direction do not matter *)
Theorem C90_invariant {D : Type} (to_gray : D -> gray) (img img' : D) k k' v d : (k < 4)%nat -> (k' < 4)%nat -> 1 <= v <= 40 ->
  finder_corners (side_of v) (fun r c => d c r) -> (v = 1 \/ bottom_right_alignment (side_of v) (fun r c => d c r)) ->
  painted_well (to_gray img) k v d -> painted_well (to_gray img') k' v d ->
  (forall dec, default_decoder to_gray = Ok dec -> decode dec img = decode dec img') /\
  (forall dec, default_decoder_with_info to_gray = Ok dec -> decode dec img = decode dec img').
Proof.
  intros Hk Hk' Hv HFC HA HW HW'. split; intros dec HD.
  - now rewrite (C90_default to_gray img k v d Hk Hv HFC HA HW dec HD), (C90_default to_gray img' k' v d Hk' Hv HFC HA HW' dec HD).
  - now rewrite (C90_with_info to_gray img k v d Hk Hv HFC HA HW dec HD), (C90_with_info to_gray img' k' v d Hk' Hv HFC HA HW' dec HD).
Qed.

(** *** "HELLO WORLD" at level M and with mask 1, with two wrong codewords and two wrong bits in the first copy of the format information *)
Definition scuffed_rows : list (list bool) := Eval vm_compute in
  let d := symbol_of 1 1 scratched_received (N.lxor (format_word M 1) 0x4012) (format_word M 1) base_1 in
  map (fun y => map (fun x => d (Z.of_nat x) (Z.of_nat y)) (seq 0 21)) (seq 0 21).
Definition scuffed : matrix := fun x y => nth (Z.to_nat x) (nth (Z.to_nat y) scuffed_rows []) false.

Lemma scuffed_free : forallb (fun k => decoy_free 21 (on_white 21 (turned k 21 (fun r c => scuffed c r))) (module_corners k 1)) [0; 2]%nat = true.
Proof.
  change (forallb (fun k => decoy_free_fast 21 (on_white 21 (turned k 21 (fun r c => scuffed c r))) (module_corners k 1)) [0; 2]%nat = true).
  vm_compute. reflexivity.
Qed.
Lemma scuffed_painted w h m ox oy k : In k [0; 2]%nat -> 5 <= m -> 4 * m <= ox -> 4 * m <= oy -> ox + 25 * m <= w -> oy + 25 * m <= h -> w <= 2 ^ 26 -> h <= 2 ^ 26 -> w * h <= 2 ^ 36 ->
  painted_well (painted w h m ox oy 1 (turned_page k 1 scuffed)) k 1 scuffed.
Proof.
  intros Hk Hm OX OY WX WY W2 H2 WH. exists w, h, m, ox, oy. change (side_of 1) with 21. repeat (split; [reflexivity || lia|]).
  apply decoy_free_ok; [lia|lia| |].
  - intros r c H. apply M_out. exact H.
  - exact (proj1 (forallb_forall _ _) scuffed_free k Hk).
Qed.

(** upright or upside down, wherever and however large it is: the text, and six wrong bits *)
Example C90_example {D : Type} (to_gray : D -> gray) (img : D) dec w h m ox oy k : default_decoder_with_info to_gray = Ok dec ->
  In k [0; 2]%nat -> to_gray img = painted w h m ox oy 1 (turned_page k 1 scuffed) ->
  5 <= m -> 4 * m <= ox -> 4 * m <= oy -> ox + 25 * m <= w -> oy + 25 * m <= h -> w <= 2 ^ 26 -> h <= 2 ^ 26 -> w * h <= 2 ^ 36 ->
  decode dec img = Ok [inl (DecoderProps.hello, mkQRInfo 1 MEDIUM 128 6)].
Proof.
  intros HD Hk EI Hm OX OY WX WY W2 H2 WH. assert (P : painted_well (to_gray img) k 1 scuffed) by (rewrite EI; now apply scuffed_painted).
  refine (eq_trans (C90_damaged to_gray img k 1 scuffed _ _ _ _ P dec M 1 [cut hello_M] scratched_received [encode_alnum DecoderProps.hello] [DecoderProps.hello] HD _ _ _ _ _ _ _ _ _) _).
  - destruct Hk as [<-|[<-|[]]]; lia.
  - lia.
  - apply check_corners_ok. vm_compute. reflexivity.
  - now left.
  - reflexivity.
  - exists 0x4012%N. split; [reflexivity|]. split; [reflexivity|]. split; [|left; reflexivity].
    assert (C : forallb (fun i => Bool.eqb (scuffed (fst (copy1 i)) (snd (copy1 i))) (N.testbit (N.lxor (format_word M 1) 0x4012) (Z.to_N i))) (map Z.of_nat (seq 0 15)) = true) by (vm_compute; reflexivity).
    intros i Hi. rewrite forallb_forall in C. apply Bool.eqb_prop, C, in_map_iff. exists (Z.to_nat i). split; [lia|apply in_seq; lia].
  - split; [split; [reflexivity|repeat constructor]|]. split; [constructor; [|constructor]; split; now apply bytes_check|].
    exists []. split; [vm_compute; reflexivity|cbn; lia].
  - split; [reflexivity|repeat constructor].
  - constructor; [|constructor]. split; now apply bytes_check.
  - split; [constructor; [exact hello_M_code|constructor]|].
    exists (skipn 74 (bits (firstn 16 hello_M))). split; [left; eexists; reflexivity|vm_compute; reflexivity].
  - constructor; [apply encode_alnum_wf; [apply hello_alphabet|reflexivity]|constructor].
  - constructor; [|constructor]. unfold raw_text. cbn [encode_alnum r_mode r_count r_vals].
    destruct (encode_alnum_ok DecoderProps.hello hello_alphabet) as (_ & H1 & H2'). auto.
  - constructor; [exact scratched_repairable|constructor].
  - vm_compute. reflexivity.
Qed.

(** two pictures of it that any default decoder treats alike *)
Example C90_alike : exists g g' : gray, gw g = 200 /\ gw g' = 3000 /\ g <> g' /\
  (forall dec, default_decoder (fun g => g) = Ok dec -> decode dec g = decode dec g').
Proof.
  exists (painted 200 200 5 30 40 1 (turned_page 0 1 scuffed)), (painted 3000 2500 71 300 400 1 (turned_page 2 1 scuffed)).
  split; [reflexivity|]. split; [reflexivity|]. split; [intros E; apply (f_equal gw) in E; discriminate|].
  refine (proj1 (C90_invariant (fun g => g) _ _ 0 2 1 scuffed _ _ _ _ _ _ _)); try lia; try (apply scuffed_painted; cbn [In]; auto; lia).
  - apply check_corners_ok. vm_compute. reflexivity.
Qed.
