(** A drawing of a symbol is read like its modules, whatever they are: C67. *)
From Coq Require Import NArith ZArith Reals List Lia Bool.
From Verif.Model Require Import Base QRDecoder Prepare Detect Extract Pipeline.
From Verif.Spec Require Import Bits Segments GF256 RS Symbol Layout Bridge Message Encoder Plane Drawing.
From Verif.Proofs Require Import BaseP FormatP BlocksP CorrectP EncodeP EncoderP DecodeP PrepareP DetectP ExtractP LocateP CornersP WholeP.
From Verif.Props Require Import PrepareProps DetectProps DecoderProps CorrectProps ReportProps PipelineProps ExtractProps CleanProps FinderProps WholeProps TurnProps.
Import ListNotations.
Local Open Scope Z_scope.

(** the symbol with the modules [d column row] in the picture, turned [k] times; what the data modules
    and the format information hold does not matter *)
Definition complete (g : gray) (k : nat) (m ox oy v : Z) (d : matrix) : Prop :=
  (k < 4)%nat /\ 1 <= v <= 40 /\ 2 <= m /\ symbol_in g k m ox oy v d /\ (v = 1 \/ bottom_right_alignment (side_of v) (fun r c => d c r)).

(** the entry in the list of results for an outcome of the last stage *)
Definition outcome_of {T : Type} (r : T + qrerror) : res T := match r with inl t => Ok t | inr e => Err e end.

(** a decoder that detects and extracts like the default ones *)
Definition usual_stages {D T : Type} (dec : decoder D gray T) : Prop := d_detect dec = detect /\ d_extract dec = extract.

Section Same.
Context {D T : Type} (dec : decoder D gray T) (img : D) (g : gray) (HU : usual_stages dec) (HW : wf_gray g) (HP : d_prepare dec img = Ok g).
Context (k : nat) (m ox oy v : Z) (d : matrix) (HC : complete g k m ox oy v d).

Lemma read_as_modules loc : located_turned k m ox oy (side_of v) loc -> version loc = v -> extract g loc = Ok (deliver v d).
Proof.
  intros HL HV. destruct HC as (Hk & Hv & Hm & HA & HAl). destruct (turned_inside g k m ox oy v d Hk Hv Hm HA) as (X & Y & XR & YB & BX & BY).
  apply (turned_exact g k m ox oy); auto; try lia. exact (proj1 HA).
Qed.

Theorem C67_among cs rs : find_candidates g = Ok cs -> none_in_the_way m (turned_corners k m ox oy v) cs -> decode dec img = Ok rs ->
  exists r, In r rs /\ d_decode dec (Ok (deliver v d)) = outcome_of r.
Proof.
  intros E ND ER. apply C39_one_each in ER as (g' & locs & E1 & E2 & F). rewrite HP in E1. injection E1 as <-.
  destruct HU as (U1 & U2). rewrite U1 in E2. pose proof HC as (Hk & Hv & Hm & HA & _).
  destruct (C62_located g k m ox oy v d HW Hk Hv Hm HA cs locs E ND E2) as (loc & IL & L & V).
  destruct (Forall2_in_left _ _ _ _ F IL) as (r & Er & (_ & R)). exists r. split; [exact Er|].
  rewrite U2, (read_as_modules loc L V) in R. exact R.
Qed.

Theorem C67_one cs : find_candidates g = Ok cs -> none_in_the_way m (turned_corners k m ox oy v) cs -> length cs = 3%nat ->
  decode dec img = match d_decode dec (Ok (deliver v d)) with Ok t => Ok [inl t] | Err e => Ok [inr e] | Panic p => Panic p end.
Proof.
  intros E ND H3. destruct HU as (U1 & U2). pose proof HC as (Hk & Hv & Hm & HA & _).
  destruct (C62_only g k m ox oy v d HW Hk Hv Hm HA cs E ND H3) as (loc & EL & L & V).
  assert (EX := read_as_modules loc L V).
  unfold decode. rewrite HP. cbn [bind]. rewrite U1, EL. cbn [bind foldM]. unfold decode_one. rewrite U2, EX.
  destruct (d_decode dec (Ok (deliver v d))); reflexivity.
Qed.
End Same.

(** a picture [g] of a page, a raster of modules [page column row] with at least five pixels each and a margin
    of at least ten pixels; one of the symbols on it has the modules [d] *)
Definition on_paper (g : gray) (k : nat) (m x y v : Z) (d : matrix) : Prop := exists w h ox oy V page cx cy,
  g = painted w h m ox oy V page /\ 5 <= m /\ 1 <= V /\ 10 <= ox /\ 10 <= oy /\ ox + side_of V * m + 10 <= w /\ oy + side_of V * m + 10 <= h /\
  w <= 2 ^ 26 /\ h <= 2 ^ 26 /\ w * h <= 2 ^ 36 /\ (k < 4)%nat /\ 1 <= v <= 40 /\ on_page (side_of V) page k cx cy v d /\
  (v = 1 \/ bottom_right_alignment (side_of v) (fun r c => d c r)) /\ x = ox + cx * m /\ y = oy + cy * m.

Lemma on_paper_complete g k m x y v d : on_paper g k m x y v d -> complete g k m x y v d /\ wf_gray g /\ prepare default_prepare g = Ok g.
Proof.
  intros (w & h & ox & oy & V & page & cx & cy & -> & Hm & HV & Hx & Hy & Ww & Wh & W2 & H2 & WH & Hk & Hv & HO & HA & -> & ->).
  assert (SP : 0 <= side_of V * m) by (unfold side_of; nia). split; [|split].
  - split; [exact Hk|]. split; [exact Hv|]. split; [lia|]. split; [apply page_symbol; auto; lia|exact HA].
  - apply painted_wf; unfold u32_max; lia.
  - apply C57_symbol; unfold u32_max; lia.
Qed.

Section Page.
Context {D : Type} (to_gray : D -> gray) (img : D) (k : nat) (m x y v : Z) (d : matrix) (cs : list finder_pos).
Context (HO : on_paper (to_gray img) k m x y v d) (HF : find_candidates (to_gray img) = Ok cs) (ND : none_in_the_way m (turned_corners k m x y v) cs).
Context (dec : decoder D gray (list N * qrinfo)) (HD : default_decoder_with_info to_gray = Ok dec).

Theorem C67_page :
  (forall rs, decode dec img = Ok rs -> exists r, In r rs /\ qr_decode_with_info (Ok (deliver v d)) = outcome_of r) /\
  (length cs = 3%nat -> decode dec img = match qr_decode_with_info (Ok (deliver v d)) with Ok t => Ok [inl t] | Err e => Ok [inr e] | Panic p => Panic p end).
Proof.
  destruct (on_paper_complete _ _ _ _ _ _ _ HO) as (C & W & P).
  assert (HU : usual_stages dec) by (injection HD as <-; split; reflexivity).
  assert (HP : d_prepare dec img = Ok (to_gray img)) by (injection HD as <-; exact P).
  assert (HE : d_decode dec = qr_decode_with_info) by (injection HD as <-; reflexivity).
  rewrite <- HE. split.
  - intros rs. exact (C67_among dec img _ HU W HP k m x y v d C cs rs HF ND).
  - exact (C67_one dec img _ HU W HP k m x y v d C cs HF ND).
Qed.

(** damage that the decoder of the modules repairs is repaired in the picture as well, and the same number of
    wrong bits is reported *)
Theorem C67_damaged l mask sent received segs texts :
  (mask < 8)%N -> format_readable v l mask d -> holds v l mask d received ->
  block_shape v l sent -> block_bytes sent -> encodes v l sent segs -> Forall (raw_wf v) segs -> Forall2 raw_text segs texts ->
  all_repairable v l sent received ->
  let result := (concat texts, mkQRInfo v (eclevel_of l) (8 * N.of_nat (data_codewords v l)) (wrong_bits_in sent received)) in
  (forall rs, decode dec img = Ok rs -> In (inl result) rs) /\ (length cs = 3%nat -> decode dec img = Ok [inl result]).
Proof.
  intros H1 H2 H3 H4 H5 H6 H7 H8 H9 result.
  assert (HV : 1 <= v <= 40) by (destruct (on_paper_complete _ _ _ _ _ _ _ HO) as ((_ & HV & _) & _); exact HV).
  destruct (C37_damaged v l mask d (deliver v d) sent received segs texts) as [_ E]; auto; [apply deliver_shows; lia|]. fold result in E.
  destruct C67_page as [A B]. split.
  - intros rs ER. destruct (A rs ER) as (r & Hr & Er). rewrite E in Er. destruct r as [t|e]; [|discriminate]. injection Er as <-. exact Hr.
  - intros L. rewrite (B L), E. reflexivity.
Qed.
End Page.

(** "HELLO WORLD" with two wrong codewords, three wrong bits in the first copy of the format information and
    the second copy erased, printed upside down *)
Definition scratched_received : list (list N * list N) := [cut (hit 3 5 (hit 10 77 hello_M))].
Definition scratched_rows : list (list bool) := Eval vm_compute in
  let d := symbol_of 1 5 scratched_received (N.lxor (format_word M 5) 0x4012) 0 base_1 in
  map (fun y => map (fun x => d (Z.of_nat x) (Z.of_nat y)) (seq 0 21)) (seq 0 21).
Definition scratched_1 : matrix := fun x y => nth (Z.to_nat x) (nth (Z.to_nat y) scratched_rows []) false.
Definition scratched_page : matrix := fun c r => turned 2 21 (fun r c => scratched_1 c r) r c.
Definition scratched_paper : gray := painted 125 125 5 10 10 1 scratched_page.
Definition scratched_candidates : list finder_pos := [candidate_at 5 195 27; candidate_at 5 55 97; candidate_at 5 195 97].
Lemma scratched_found : find_candidates scratched_paper = Ok scratched_candidates.
Proof. vm_compute. reflexivity. Qed.
Lemma scratched_on_paper : on_paper scratched_paper 2 5 10 10 1 scratched_1.
Proof.
  exists 125, 125, 10, 10, 1, scratched_page, 0, 0. split; [reflexivity|]. assert (S : side_of 1 = 21) by reflexivity. repeat (split; [lia|]).
  split; [apply check_page_ok; [lia|lia|vm_compute; reflexivity]|]. split; [now left|lia].
Qed.

Example C67_example : exists dec, default_decoder_with_info (fun g => g) = Ok dec /\
  decode dec scratched_paper = Ok [inl (DecoderProps.hello, mkQRInfo 1 MEDIUM 128 6)].
Proof.
  eexists. split; [reflexivity|].
  refine (eq_trans (proj2 (C67_damaged (fun g => g) scratched_paper 2 5 10 10 1 scratched_1 scratched_candidates scratched_on_paper scratched_found _ _ eq_refl
    M 5 [cut hello_M] scratched_received [encode_alnum DecoderProps.hello] [DecoderProps.hello] _ _ _ _ _ _ _ _ _) eq_refl) _).
  - apply C63_not_in_the_way; [lia| |].
    + intros fx fy fx' fy' H H'. change (In (fx, fy) [(80, 80); (10, 80); (80, 10)]) in H. change (In (fx', fy') [(80, 80); (10, 80); (80, 10)]) in H'. cbn [In] in H, H'.
      destruct H as [E|[E|[E|[]]]]; injection E as <- <-; destruct H' as [E|[E|[E|[]]]]; injection E as <- <-; (now left) || (right; lia).
    + unfold scratched_candidates. change (turned_corners 2 5 10 10 1) with [(80, 80); (10, 80); (80, 10)]. constructor; [|constructor; [|constructor; [|constructor]]].
      * exists 80, 10. split; [cbn; auto|]. apply candidate_centre; (reflexivity || lia).
      * exists 10, 80. split; [cbn; auto|]. apply candidate_centre; (reflexivity || lia).
      * exists 80, 80. split; [cbn; auto|]. apply candidate_centre; (reflexivity || lia).
  - reflexivity.
  - exists 0x4012%N. split; [reflexivity|]. split; [reflexivity|]. split; [|left; reflexivity].
    assert (C : forallb (fun i => Bool.eqb (scratched_1 (fst (copy1 i)) (snd (copy1 i))) (N.testbit (N.lxor (format_word M 5) 0x4012) (Z.to_N i))) (map Z.of_nat (seq 0 15)) = true) by (vm_compute; reflexivity).
    intros i Hi. rewrite forallb_forall in C. apply Bool.eqb_prop, C, in_map_iff. exists (Z.to_nat i). split; [lia|apply in_seq; lia].
  - split; [split; [reflexivity|repeat constructor]|]. split; [constructor; [|constructor]; split; now apply bytes_check|].
    exists []. split; [vm_compute; reflexivity|cbn; lia].
  - split; [reflexivity|repeat constructor].
  - constructor; [|constructor]. split; now apply bytes_check.
  - split; [constructor; [exact hello_M_code|constructor]|].
    exists (skipn 74 (bits (firstn 16 hello_M))). split; [left; eexists; reflexivity|vm_compute; reflexivity].
  - constructor; [apply encode_alnum_wf; [apply hello_alphabet|reflexivity]|constructor].
  - constructor; [|constructor]. unfold raw_text. cbn [encode_alnum r_mode r_count r_vals].
    destruct (encode_alnum_ok DecoderProps.hello hello_alphabet) as (_ & H1 & H2). auto.
  - constructor; [exact scratched_repairable|constructor].
  - vm_compute. reflexivity.
Qed.
