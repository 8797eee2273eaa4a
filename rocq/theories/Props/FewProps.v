(** Pages with fewer than three finder patterns: C91. *)
From Coq Require Import NArith ZArith Reals List Lia Bool.
From Verif.Model Require Import Prepare Detect Extract Pipeline.
From Verif.Spec Require Import Bits Segments Symbol Layout Bridge Message Encoder Plane Finder Drawing Slant Cross Margin Decoy.
From Verif.Proofs Require Import BaseP CountP DrawP FormatP EncodeP EncoderP PrepareP FloatP ApproxP DetectP GeometryP ExtractP AlignP RefineP RefineF ScanP SoundP SoundF RowP ColumnF MosaicP DecoyP LocateP CornersP WholeP MarginP.
From Verif.Props Require Import PrepareProps DetectProps DecoderProps PipelineProps ExtractProps CleanProps FinderProps WholeProps TurnProps PictureProps MarginProps DecoyProps.
Import ListNotations.
Local Open Scope Z_scope.

Lemma few_candidates cs : (length cs <= 2)%nat -> find_locations cs = Ok [].
Proof.
  destruct cs as [|a [|b [|c cs]]]; intros H; [reflexivity|reflexivity| |cbn in H; lia].
  unfold find_locations. cbn -[fgt diff lit]. destruct (fgt (diff (fp_module_size a) (fp_module_size b)) (lit 1 10)); reflexivity.
Qed.

(** finder patterns on a raster of modules, at most two of them, and nothing that looks like one *)
Definition few_finders (n : Z) (dark : Z -> Z -> bool) (corners : list (Z * Z)) : Prop :=
  (length corners <= 2)%nat /\ (forall r c, In (r, c) corners -> ringed_at (on_white n dark) r c) /\
  (forall r c r' c', In (r, c) corners -> In (r', c') corners -> (r, c) = (r', c') \/ 9 <= Z.abs (r - r') \/ 9 <= Z.abs (c - c')).

Theorem C91_page {D T : Type} (dec : decoder D gray T) (img : D) g m ox oy n dark corners : usual_stages dec -> wf_gray g -> d_prepare dec img = Ok g ->
  2 <= m -> 0 <= n -> gw g <= 2 ^ 26 -> gh g <= 2 ^ 26 -> mosaic (pixel g) (gw g) (gh g) m ox oy (on_white n dark) ->
  4 * m <= ox -> 4 * m <= oy -> ox + (n + 4) * m <= gw g -> oy + (n + 4) * m <= gh g ->
  undisturbed m n (on_white n dark) corners -> few_finders n dark corners ->
  decode dec img = Ok [].
Proof.
  intros (U1 & _) HW HP Hm Hn WX WY HM OX OY RX RY (SR & SC & HO) (HL & HF & HA).
  assert (W1 : 1 < gw g) by nia. destruct (find_candidates_ok g HW) as (cs & E & _).
  destruct (C89_page g m ox oy n dark corners HW Hm WX WY Hn HM OX OY RX RY SR SC HF HA HO cs W1 E) as (l & F & NL & IC & _).
  unfold decode. rewrite HP. cbn [bind]. rewrite U1. unfold detect. rewrite E. cbn [bind].
  rewrite few_candidates; [reflexivity|]. assert (length l = length cs) by (clear - F; induction F; cbn [length]; lia). pose proof (NoDup_incl_length NL IC). lia.
Qed.

(** the same for the default decoders and modules of five pixels at least *)
Theorem C91_painted {D : Type} (to_gray : D -> gray) (img : D) w h m ox oy v d corners : to_gray img = painted w h m ox oy v d -> 1 <= v ->
  5 <= m -> 4 * m <= ox -> 4 * m <= oy -> ox + (side_of v + 4) * m <= w -> oy + (side_of v + 4) * m <= h -> w <= 2 ^ 26 -> h <= 2 ^ 26 -> w * h <= 2 ^ 36 ->
  undisturbed m (side_of v) (on_white (side_of v) (fun r c => d c r)) corners -> few_finders (side_of v) (fun r c => d c r) corners ->
  (forall dec, default_decoder to_gray = Ok dec -> decode dec img = Ok []) /\
  (forall dec, default_decoder_with_info to_gray = Ok dec -> decode dec img = Ok []).
Proof.
  intros EI Hv Hm OX OY WX WY W2 H2 WH HU HF. assert (N : 21 <= side_of v) by (unfold side_of; lia). assert (21 * m <= side_of v * m) by nia.
  set (g := painted w h m ox oy v d) in *.
  assert (HW : wf_gray g) by (apply painted_wf; unfold u32_max; lia).
  assert (HP : prepare default_prepare (to_gray img) = Ok g) by (rewrite EI; apply C57_symbol; unfold u32_max; lia).
  assert (HM : mosaic (pixel g) (gw g) (gh g) m ox oy (on_white (side_of v) (fun r c => d c r))).
  { intros x y Hx Hy. unfold pixel, g, painted. cbn [g painted image_of gw gh] in Hx, Hy. rewrite image_of_pixel by lia. cbv zeta. f_equal.
    unfold on_white. destruct (0 <=? (x - ox) / m), ((x - ox) / m <? side_of v), (0 <=? (y - oy) / m), ((y - oy) / m <? side_of v); reflexivity. }
  split; intros dec HD; injection HD as <-;
    (refine (C91_page _ img g m ox oy (side_of v) (fun r c => d c r) corners _ HW _ _ _ _ _ HM _ _ _ _ HU HF); try exact HP; try (cbn [g painted image_of gw gh]; lia); split; reflexivity).
Qed.

(** *** "HELLO" with the upper left finder pattern torn off, and with two of them *)
Definition torn (corners : list (Z * Z)) : matrix := fun x y =>
  modules_6 x y && forallb (fun p => negb ((fst p - 1 <=? y) && (y <=? fst p + 7) && (snd p - 1 <=? x) && (x <=? snd p + 7))) corners.
Definition torn_cases : list (list (Z * Z) * list (Z * Z)) :=
  [([(0, 0)], [(14, 0); (0, 14)]); ([(14, 0)], [(0, 0); (0, 14)]); ([(0, 14)], [(0, 0); (14, 0)]); ([(0, 0); (14, 0)], [(0, 14)]); ([(0, 0); (14, 0); (0, 14)], [])].
Definition ringed_check (dark : Z -> Z -> bool) (row column : Z) : bool := forallb (fun r => forallb (fun c =>
  Bool.eqb (dark (row + r) (column + c)) ((0 <=? r) && (r <? 7) && (0 <=? c) && (c <? 7) && finder_dark r c)) (zrange (-1) 8)) (zrange (-1) 8).
Lemma ringed_check_ok dark row column : ringed_check dark row column = true -> ringed_at dark row column.
Proof.
  intros H r c Hr Hc. unfold ringed_check in H. rewrite forallb_forall in H. specialize (H r ltac:(apply in_zrange; lia)). cbv beta in H.
  rewrite forallb_forall in H. specialize (H c ltac:(apply in_zrange; lia)). now apply Bool.eqb_prop.
Qed.
Lemma torn_checked : forallb (fun p => let dark := on_white 21 (fun r c => torn (fst p) c r) in
  decoy_free 21 dark (snd p) && forallb (fun q => ringed_check dark (fst q) (snd q)) (snd p)) torn_cases = true.
Proof.
  change (forallb (fun p => let dark := on_white 21 (fun r c => torn (fst p) c r) in
    decoy_free_fast 21 dark (snd p) && forallb (fun q => ringed_check dark (fst q) (snd q)) (snd p)) torn_cases = true).
  vm_compute. reflexivity.
Qed.

(** whichever of them is torn off, or two, or all, and whatever the size of the modules and the paper: no result *)
Example C91_example {D : Type} (to_gray : D -> gray) (img : D) dec w h m ox oy p : default_decoder to_gray = Ok dec ->
  In p torn_cases -> to_gray img = painted w h m ox oy 1 (torn (fst p)) ->
  5 <= m -> 4 * m <= ox -> 4 * m <= oy -> ox + 25 * m <= w -> oy + 25 * m <= h -> w <= 2 ^ 26 -> h <= 2 ^ 26 -> w * h <= 2 ^ 36 ->
  decode dec img = Ok [].
Proof.
  intros HD Hp EI Hm OX OY WX WY W2 H2 WH. pose proof torn_checked as C. rewrite forallb_forall in C. specialize (C p Hp). cbv beta zeta in C.
  apply andb_true_iff in C as [C1 C2]. rewrite forallb_forall in C2.
  refine (proj1 (C91_painted to_gray img w h m ox oy 1 (torn (fst p)) (snd p) EI _ Hm OX OY WX WY W2 H2 WH _ _) dec HD); [lia| |]; change (side_of 1) with 21.
  - apply decoy_free_ok; [lia|lia| |exact C1]. intros r c H. apply M_out. exact H.
  - split; [|split].
    + cbn [torn_cases In] in Hp. destruct Hp as [<-|[<-|[<-|[<-|[<-|[]]]]]]; cbn [snd length]; lia.
    + intros r c HI. apply ringed_check_ok. exact (C2 (r, c) HI).
    + intros r c r' c' HI HI'. cbn [torn_cases In] in Hp. clear - Hp HI HI'.
      destruct Hp as [<-|[<-|[<-|[<-|[<-|[]]]]]]; cbn [snd In] in HI, HI';
        repeat match goal with H : _ \/ _ |- _ => destruct H | H : False |- _ => destruct H end;
        repeat match goal with H : (_, _) = (_, _) |- _ => injection H as <- <- end; (now left) || (right; lia).
Qed.
