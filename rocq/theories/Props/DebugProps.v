(** The `debug-images` feature: C72. *)
From Coq Require Import NArith ZArith Reals List Lia Lra Bool Arith Psatz.
From Verif.Model Require Import Prepare Detect Extract Pipeline Debug.
From Flocq Require Import Core.
From Verif.Spec Require Import Bits Segments Symbol Layout Bridge Message Encoder Plane Drawing.
From Verif.Proofs Require Import BaseP PrepareP FloatP ApproxP DetectP ExtractP AlignP DebugP.
From Verif.Props Require Import PrepareProps DetectProps DecoderProps PipelineProps ExtractProps WholeProps TurnProps.
Import ListNotations.
Local Open Scope Z_scope.

(** *** C72: drawing pictures for the developer does not change what is read *)

(** a decoder with any preparation and any reading of the modules, without and with the feature *)
Definition as_shipped {I R} (prep : I -> res gray) (dec : res qrdata -> res R) : decoder I gray R := mkDecoder prep detect extract dec.
Definition with_pictures {I R} (prep : I -> res gray) (dec : res qrdata -> res R) : decoder I gray R := mkDecoder prep detect_debug extract_debug dec.

Definition C72_statement : Prop := forall (I R : Type) (prep : I -> res gray) (dec : res qrdata -> res R) (img : I),
  (forall g, prep img = Ok g -> wf_gray g) -> decode (with_pictures prep dec) img = decode (as_shipped prep dec) img.

(** the symbol "HELLO" with two pixels per module; the image is wider than high and its last row shows the first half of the
    last row of modules *)
Definition low_symbol : gray := painted 50 43 2 4 2 1 modules_1.
Lemma low_wf : wf_gray low_symbol.
Proof. apply painted_wf; unfold u32_max; lia. Qed.
Lemma low_read : decode (as_shipped (fun g : gray => prepare default_prepare g) qr_decode) low_symbol = Ok [inl [72; 69; 76; 76; 79]%N] /\
  decode (with_pictures (fun g : gray => prepare default_prepare g) qr_decode) low_symbol = Panic PIndex.
Proof. vm_compute. auto. Qed.

Theorem C72_refuted : ~ C72_statement.
Proof.
  intros H. destruct low_read as [E1 E2]. rewrite H, E1 in E2; [discriminate|].
  intros g E. exact (proj1 (C41_black_white _ _ _ low_wf E)).
Qed.

Lemma foldM_same {A S} (f h : S -> A -> res S) : (forall s a, f s a = h s a) -> forall l s, foldM f l s = foldM h l s.
Proof. intros H. induction l as [|a l IH]; intros s; cbn [foldM]; [reflexivity|]. rewrite H. destruct (h s a); cbn [bind]; auto. Qed.
Lemma foldM_sop {A S} (f h : S -> A -> res S) : (forall s a, same_or_panic (f s a) (h s a)) -> forall l s, same_or_panic (foldM f l s) (foldM h l s).
Proof. intros H. induction l as [|a l IH]; intros s; cbn [foldM]; [apply sop_refl|]. apply sop_bind; [apply H|auto]. Qed.

(** nothing changes in images that are not wider than high *)
Theorem C72_tall_partial {I R} (prep : I -> res gray) (dec : res qrdata -> res R) img : (forall g, prep img = Ok g -> wf_gray g /\ gw g <= gh g <= 2 ^ 31) ->
  decode (with_pictures prep dec) img = decode (as_shipped prep dec) img.
Proof.
  intros H. unfold decode, with_pictures, as_shipped. cbn [d_prepare d_detect]. destruct (prep img) as [g| |] eqn:E; cbn [bind]; [|reflexivity|reflexivity].
  destruct (H g eq_refl) as (HW & HT & HH). rewrite detect_tall by assumption. destruct (detect g) as [locs| |]; cbn [bind]; [|reflexivity|reflexivity].
  destruct locs as [|l0 locs]; [reflexivity|]. apply foldM_same. intros s l. unfold decode_one. cbn [d_extract d_decode]. now rewrite extract_tall by assumption.
Qed.

(** in all images: the pictures never change a text, an error or the order of the results; what can
    happen is that the decoder panics instead *)
Theorem C72_only_panics_partial {I R} (prep : I -> res gray) (dec : res qrdata -> res R) img :
  decode (with_pictures prep dec) img = decode (as_shipped prep dec) img \/ exists p, decode (with_pictures prep dec) img = Panic p.
Proof.
  change (same_or_panic (decode (with_pictures prep dec) img) (decode (as_shipped prep dec) img)).
  unfold decode, with_pictures, as_shipped. cbn [d_prepare d_detect]. apply sop_bind; [apply sop_refl|]. intros g.
  apply sop_bind; [apply detect_sop|]. intros locs. destruct locs as [|l0 locs]; [apply sop_refl|]. apply foldM_sop. intros s l.
  apply sop_bind; [|intros; apply sop_refl]. unfold decode_one. cbn [d_extract d_decode]. destruct (extract_sop g l) as [-> |(p & ->)]; [apply sop_refl|apply sop_panic].
Qed.

(** *** wider images: which marks are a problem *)
Lemma nth_rows {A} (f : nat -> nat -> A) d n : forall k r c, (r < k)%nat -> (c < n)%nat -> forall a,
  nth (r * n + c) (flat_map (fun r => map (f r) (seq 0 n)) (seq a k)) d = f (a + r)%nat c.
Proof.
  induction k as [|k IH]; intros r c Hr Hc a; [lia|]. cbn [seq flat_map]. destruct r as [|r].
  - rewrite app_nth1 by (rewrite map_length, seq_length; lia). rewrite nth_indep with (d' := f a 0%nat) by (rewrite map_length, seq_length; lia).
    cbn [Nat.mul Nat.add]. rewrite map_nth, seq_nth by lia. f_equal; lia.
  - rewrite app_nth2 by (rewrite map_length, seq_length; lia). rewrite map_length, seq_length. replace (S r * n + c - n)%nat with (r * n + c)%nat by lia.
    rewrite IH by lia. f_equal; lia.
Qed.

(** the value extracted for module (r, c) of a symbol of version 1 *)
Definition module_value (q : qrdata) (r c : nat) : N := nth (r * 21 + c) (qdata q) 255%N.

Section Wide.
Context (g : gray) (loc : qrloc) (tl tr bl : vec) (q : qrdata) (HW : wf_gray g) (W1 : gw g <= 2 ^ 26) (W2 : gh g <= 2 ^ 26).
Context (HV : version loc = 1) (HC : corners_at loc tl tr bl) (HQ : extract g loc = Ok q).
Context (HB : forall r c, (r < 21)%nat -> (c < 21)%nat -> let p := sample_point tl tr bl r c in (Rabs (vx p) <= 67108864 /\ Rabs (vy p) <= 67108864)%R).

(** what is read where, in terms of the sample points *)
Lemma wide_rows : exists p start dx dy data, sample_rows 21 21 g p start dx dy [] = Ok data /\
  extract_debug g loc = (data <- sample_rows_debug 21 21 g p start dx dy [] ;; Ok (mkQRData data 1 21)) /\ q = mkQRData data 1 21 /\
  forall r c, (r < 21)%nat -> (c < 21)%nat ->
    let x := round_u32 (coord (px start) (dlx dx) (dlx (pddx p)) (dlx dy) (dlx (pddy p)) r c) in
    let y := round_u32 (coord (py start) (dly dx) (dly (pddx p)) (dly dy) (dly (pddy p)) r c) in
    get_pixel g x y = Ok (module_value q r c) /\ 0 <= x < gw g /\ 0 <= y < gh g /\
    exists b, (Rabs (b - vy (sample_point tl tr bl r c)) <= /64)%R /\ y = pixel_of b.
Proof.
  destruct HC as ([A1 A2] & [B1 B2] & [C1 C2]).
  assert (E : forall r c, grid_x1 (vx tl) (vx tr) (vx bl) r c = vx (sample_point tl tr bl r c) /\ grid_y1 (vy tl) (vy tr) (vy bl) r c = vy (sample_point tl tr bl r c))
    by (intros; unfold grid_x1, grid_y1, grid, sample_point; cbn [vx vy]; split; lra).
  assert (HB1 : forall r c, (r < 21)%nat -> (c < 21)%nat -> (Rabs (grid_x1 (vx tl) (vx tr) (vx bl) r c) <= 67108864 /\ Rabs (grid_y1 (vy tl) (vy tr) (vy bl) r c) <= 67108864)%R).
  { intros r c Hr Hc. destruct (E r c) as [-> ->]. now apply HB. }
  pose proof (points_1 loc _ _ _ _ _ _ A1 A2 B1 B2 C1 C2 HB1) as P1.
  assert (U : exists p start dx dy, extract g loc = (data <- sample_rows 21 21 g p start dx dy [] ;; Ok (mkQRData data 1 21)) /\
     extract_debug g loc = (data <- sample_rows_debug 21 21 g p start dx dy [] ;; Ok (mkQRData data 1 21)) /\
     forall r c, coord (px start) (dlx dx) (dlx (pddx p)) (dlx dy) (dlx (pddy p)) r c = sample_x1 loc r c /\
                 coord (py start) (dly dx) (dly (pddx p)) (dly dy) (dly (pddy p)) r c = sample_y1 loc r c).
  { unfold extract, extract_debug. rewrite HV. change (1 * 4)%Z with 4%Z. change (chk_u32 4) with (Ok 4%Z). cbn [bind]. change (chk_u32 (17 + 4)) with (Ok 21%Z). cbn [bind].
    unfold determine_perspective, determine_perspective_debug. change (sub_Z 21 7) with (Ok 14%Z). cbn [bind]. change (1 =? 1)%Z with true. cbv beta iota. cbn [bind].
    cbn [pdx pddx pdy pddy]. change (Z.to_nat 21) with 21%nat. do 4 eexists. split; [reflexivity|]. split; [reflexivity|]. intros r c. split; reflexivity. }
  destruct U as (p & start & dx & dy & U1 & U2 & U). rewrite HQ in U1. destruct (sample_rows 21 21 g p start dx dy []) as [data| |] eqn:ES; cbn [bind] in U1; try discriminate.
  injection U1 as U1. exists p, start, dx, dy, data. split; [exact ES|]. split; [exact U2|]. split; [exact U1|].
  assert (RD : forall r c, (r < 21)%nat -> (c < 21)%nat -> get_pixel g (round_u32 (sample_x1 loc r c)) (round_u32 (sample_y1 loc r c)) = Ok (pix g (round_u32 (sample_x1 loc r c)) (round_u32 (sample_y1 loc r c))) /\
    0 <= round_u32 (sample_x1 loc r c) < gw g /\ 0 <= round_u32 (sample_y1 loc r c) < gh g).
  { intros r c Hr Hc. destruct (sample_rows_reads _ _ _ _ _ _ _ _ _ ES r c Hr Hc) as (v & G). destruct (U r c) as [-> ->] in G.
    pose proof (proj1 (round_u32_range (sample_x1 loc r c))). pose proof (proj1 (round_u32_range (sample_y1 loc r c))).
    assert (In_ : round_u32 (sample_x1 loc r c) < gw g /\ round_u32 (sample_y1 loc r c) < gh g) by (eapply get_pixel_in; eauto).
    split; [apply get_pixel_pix; auto; lia|lia]. }
  assert (ED : data = flat_map (fun r => map (fun c => pix g (round_u32 (sample_x1 loc r c)) (round_u32 (sample_y1 loc r c))) (seq 0 21)) (seq 0 21)).
  { rewrite (sample_rows_ok g p (fun r c => pix g (round_u32 (sample_x1 loc r c)) (round_u32 (sample_y1 loc r c)))) in ES; [now injection ES|].
    intros r c Hr Hc. destruct (U r c) as [-> ->]. now apply RD. }
  intros r c Hr Hc. destruct (U r c) as [-> ->]. cbv zeta. destruct (RD r c Hr Hc) as (R1 & R2 & R3). split; [|split; [exact R2|split; [exact R3|]]].
  - rewrite R1. f_equal. subst q. unfold module_value. cbn [qdata]. rewrite ED. rewrite (nth_rows (fun r c => pix g (round_u32 (sample_x1 loc r c)) (round_u32 (sample_y1 loc r c)))) by lia. reflexivity.
  - destruct (P1 r c Hr Hc) as (a & b & _ & Hb & _ & Eb). exists b. split; [|exact Eb]. destruct (E r c) as [_ <-]. exact Hb.
Qed.

Lemma pixel_below b z : 0 <= z <= u32_max -> (b < IZR z - / 2)%R -> 0 < z -> pixel_of b < z.
Proof.
  intros Hz Hb Z0. destruct (Rlt_le_dec b 0) as [L|L].
  - unfold pixel_of. pose proof (away_neg b L). unfold u32_max in *. lia.
  - assert (X : (0 <= pixel_of b <= z - 1)%Z); [|lia]. apply pixel_of_range; [lia|lia|]. rewrite minus_IZR. lra.
Qed.
Lemma pixel_above b z : 0 <= z <= u32_max -> (IZR z - / 2 <= b)%R -> z <= pixel_of b.
Proof.
  intros Hz Hq. unfold pixel_of. destruct (Z.eq_dec z 0) as [-> |NZ]; [unfold u32_max; lia|]. assert (1 <= IZR z)%R by (apply IZR_le; lia).
  rewrite away_pos by lra. assert (z <= Zfloor (b + / 2))%Z by (apply Zfloor_lub; lra). lia.
Qed.

Lemma wide_same : 2 <= gh g ->
  (forall r c, (r < 21)%nat -> (c < 21)%nat -> module_value q r c = 0%N -> (vy (sample_point tl tr bl r c) < IZR (gh g) - 3 / 2 - / 64)%R) ->
  extract_debug g loc = Ok q.
Proof.
  intros H2 H. destruct wide_rows as (p & start & dx & dy & data & ES & -> & EQ & K). rewrite (rows_same g p 21 _ _ _ _ _ _ ES); [now rewrite EQ|].
  intros r c Hr Hc x y G. destruct (K r c Hr Hc) as (G' & Hx & Hy & b & Hb & EY). fold x in G', Hx. fold y in G', Hy, EY. rewrite G in G'. injection G' as G'.
  specialize (H r c Hr Hc (eq_sym G')). apply Rabs_le_inv in Hb. destruct HW as (_ & Bh & _).
  apply sample_ok; try lia. right. assert (y < gh g - 1); [|lia]. rewrite EY. apply pixel_below; [unfold u32_max in *; lia| |lia]. rewrite minus_IZR. lra.
Qed.
Lemma wide_panic r c : gh g < gw g -> (r < 21)%nat -> (c < 21)%nat -> module_value q r c = 0%N ->
  (IZR (gh g) - 3 / 2 + / 64 <= vy (sample_point tl tr bl r c))%R -> exists e, extract_debug g loc = Panic e.
Proof.
  intros HT Hr Hc HM H. destruct wide_rows as (p & start & dx & dy & data & ES & -> & EQ & K). destruct (K r c Hr Hc) as (G & Hx & Hy & b & Hb & EY). rewrite HM in G.
  apply Rabs_le_inv in Hb. pose proof HW as (_ & Bh & _).
  assert (L : gh g - 1 <= pixel_of b) by (apply pixel_above; [unfold u32_max in *; lia|rewrite minus_IZR; lra]).
  destruct (rows_panic g p 21 c r _ _ _ _ _ _ ES Hr Hc G) as (e & ->); [|cbn [bind]; eauto]. apply sample_panic; lia.
Qed.
End Wide.

(** extraction of version 1 in any image, up to a 64th of a pixel: it is the same when no dark sample
    lies in the last row of pixels, and it panics if one does in an image that is wider than high *)
Theorem C72_version_1_partial g loc tl tr bl q : wf_gray g -> gw g <= 2 ^ 26 -> 2 <= gh g <= 2 ^ 26 -> version loc = 1 -> corners_at loc tl tr bl -> extract g loc = Ok q ->
  (forall r c, (r < 21)%nat -> (c < 21)%nat -> let p := sample_point tl tr bl r c in (Rabs (vx p) <= 67108864 /\ Rabs (vy p) <= 67108864)%R) ->
  let dark r c := (r < 21)%nat /\ (c < 21)%nat /\ module_value q r c = 0%N in
  ((forall r c, dark r c -> (vy (sample_point tl tr bl r c) < IZR (gh g) - 3 / 2 - / 64)%R) -> extract_debug g loc = Ok q) /\
  (gh g < gw g -> (exists r c, dark r c /\ (IZR (gh g) - 3 / 2 + / 64 <= vy (sample_point tl tr bl r c))%R) -> exists e, extract_debug g loc = Panic e).
Proof.
  intros HW W1 [H2 W2] HV HC HQ HB dark. split.
  - intros H. apply (wide_same g loc tl tr bl q); auto. intros r c Hr Hc HM. apply H. now split.
  - intros HT (r & c & (Hr & Hc & HM) & H). exact (wide_panic g loc tl tr bl q HW W1 W2 HV HC HQ HB r c HT Hr Hc HM H).
Qed.

(** detection in any image: it is the same when the boxes of seven modules around all candidates end
    above the lower edge (less than a pixel below it) *)
Theorem C72_boxes_partial g cs : wf_gray g -> gw g <= 2 ^ 26 -> gh g <= 2 ^ 26 -> find_candidates g = Ok cs ->
  (forall c, In c cs -> exists y s, fin (py (fp_location c)) y /\ fin (fp_module_size c) s /\
     (0 <= y <= 67108864)%R /\ (0 <= s <= 67108864)%R /\ (y + 7 / 2 * s < IZR (gh g) + 1 - / 64)%R) ->
  detect_debug g = detect g.
Proof.
  intros HW W1 W2 EC H. unfold detect_debug, detect. rewrite EC. cbn [bind].
  assert (D : foldM (fun _ c => draw_candidate g c) cs tt = Ok tt); [|now rewrite D].
  clear EC. induction cs as [|c cs IH]; cbn [foldM]; [reflexivity|].
  assert (K : draw_candidate g c = Ok tt); [|rewrite K; cbn [bind]; apply IH; intros c' Hc'; apply H; now right].
  clear IH. destruct (H c (or_introl eq_refl)) as (y & s & FY & FS & BY & BS & L). unfold draw_candidate. cbv zeta. apply box_ok; try apply to_u32_pos; try lia.
  assert (P2 : bpow radix2 2 = 4%R) by reflexivity. assert (P28 : bpow radix2 28 = 268435456%R) by reflexivity.
  assert (P29 : bpow radix2 29 = 536870912%R) by reflexivity. assert (Q51 : bpow radix2 (2 - 53) = (/ 2251799813685248)%R) by reflexivity.
  assert (Q25 : bpow radix2 (28 - 53) = (/ 33554432)%R) by reflexivity. assert (Q24 : bpow radix2 (29 - 53) = (/ 16777216)%R) by reflexivity.
  assert (A7 : apx (lit 7 2) (7 / 2) (/ 1125899906842624)).
  { eapply apx_weaken; [unfold lit; apply (apx_fdiv 2 _ _ 7 2 0); [lia|apply fin_apx, fin_of_Z; lia|apply fin_of_Z; lia|lra|]|].
    - rewrite P2, !Rabs_pos_eq by lra. lra.
    - rewrite Q51, !Rabs_pos_eq by lra. lra. }
  assert (AH : apx (fmul (lit 7 2) (fp_module_size c)) (7 / 2 * s) (/ 1048576)%R).
  { eapply apx_weaken; [apply (apx_fmul 28 _ _ _ _ _ _ ltac:(lia) A7 (fin_apx _ _ FS))|].
    - rewrite P28, !Rabs_pos_eq by lra. lra.
    - rewrite Q25, !Rabs_pos_eq by lra. lra. }
  assert (AS : apx (fadd (py (fp_location c)) (fmul (lit 7 2) (fp_module_size c))) (y + 7 / 2 * s) (/ 64)%R).
  { eapply apx_weaken; [apply (apx_fadd 29 _ _ _ _ _ _ ltac:(lia) (fin_apx _ _ FY) AH)|].
    - rewrite P29, !Rabs_pos_eq by lra. lra.
    - rewrite Q24. lra. }
  destruct AS as (w & FW & EW). apply Rabs_le_inv in EW. rewrite (to_u32_R _ _ FW). pose proof HW as (_ & Bh & _).
  assert (Zfloor w < gh g + 1); [|lia]. apply lt_IZR. rewrite plus_IZR. pose proof (Zfloor_lb w). lra.
Qed.

(** *** concrete cases *)
(** an image that is not wider than high, with the last row of modules cut in half as above *)
Example C72_tall_example : let g := painted 43 43 2 1 2 1 modules_1 in wf_gray g /\ gw g <= gh g <= 2 ^ 31.
Proof. split; [apply painted_wf; unfold u32_max; lia|]. cbn [painted image_of gw gh]. lia. Qed.

(** the symbols of C63 on paper that is wider than high: all boxes are inside *)
Example C72_boxes_example : gh pair_paper < gw pair_paper /\ detect_debug pair_paper = detect pair_paper.
Proof.
  split; [cbn [pair_paper painted image_of gw gh]; lia|]. apply (C72_boxes_partial pair_paper pair_candidates); [apply painted_wf; unfold u32_max; lia|cbn; lia|cbn; lia|exact pair_found|].
  assert (K : forall x y, 0 <= y <= 40 -> exists y' s, fin (py (fp_location (candidate_at 2 x y))) y' /\ fin (fp_module_size (candidate_at 2 x y)) s /\
     (0 <= y' <= 67108864)%R /\ (0 <= s <= 67108864)%R /\ (y' + 7 / 2 * s < IZR (gh pair_paper) + 1 - / 64)%R).
  { intros x y Hy. exists (IZR y), 2%R. cbn [candidate_at fp_location fp_module_size py]. split; [apply fin_of_Z; lia|]. split; [apply fin_of_Z; lia|].
    assert (0 <= IZR y <= 40)%R by (split; apply IZR_le; lia). change (IZR (gh pair_paper)) with 98%R. lra. }
  intros c HI. unfold pair_candidates in HI. cbn [In] in HI. destruct HI as [<-|[<-|[<-|[<-|[<-|[<-|[]]]]]]]; apply K; lia.
Qed.

(** a whole symbol of 42 pixels that ends with the image: when it is located in the middle of its
    modules, the lowest samples are in the last row of pixels *)
Example C72_version_1_example : let g := painted 60 46 2 5 4 1 modules_1 in let loc := located_at 2 5 4 1 in
  (exists q, extract g loc = Ok q) /\ exists e, extract_debug g loc = Panic e.
Proof.
  intros g loc. destruct C51_example as (HC & HB & _). fold loc in HC.
  assert (HW : wf_gray g) by (apply painted_wf; unfold u32_max; lia).
  destruct (C52_sampled g 2 5 4 modules_1 loc) as (q & EQ & HS & _); [apply painted_drawn; unfold side_of; lia| |reflexivity|].
  { change 21 with (side_of 1). apply located_at_ok; (reflexivity || lia). }
  split; [eauto|].
  destruct (C72_version_1_partial g loc _ _ _ q HW ltac:(cbn; lia) ltac:(cbn; lia) eq_refl HC EQ) as [_ H].
  - intros r c Hr Hc p. destruct (HB r c Hr Hc) as [A B]. fold p in A, B. split; apply Rabs_le; lra.
  - apply H; [cbn; lia|]. exists 20%nat, 0%nat. split; [split; [lia|split; [lia|]]|].
    + destruct HS as (_ & _ & L & HS). unfold module_value. rewrite (nth_indep _ 255%N 0%N) by (rewrite L; change (Z.to_nat (side_of 1 * side_of 1)) with 441%nat; lia).
      apply (HS 0 20); [unfold side_of; lia..|vm_compute; reflexivity].
    + unfold sample_point. cbn [vx vy]. replace (INR 20) with 20%R by (simpl; lra). simpl (INR 0). change (IZR (gh g)) with 46%R. lra.
Qed.
