(** Symbols in negative and in a mirror: C80, C81. *)
From Coq Require Import NArith ZArith List Lia Bool.
From Verif.Model Require Import Prepare Detect Extract Pipeline.
From Verif.Spec Require Import Symbol Layout Bridge Message Encoder Drawing.
From Verif.Proofs Require Import BaseP FormatP EncodeP PrepareP.
From Verif.Props Require Import PrepareProps DetectProps FormatProps DecoderProps ExtractProps CleanProps WholeProps TurnProps.
Import ListNotations.
Local Open Scope Z_scope.

(** *** C80: light symbols on dark ground *)
Definition recolour (f : N -> N) (g : gray) : gray := Gray (gw g) (gh g) (map f (gbuf g)).

Section Recolour.
Context (f : N -> N) (F : forall a b, f a = f b -> a = b) (F127 : f 127%N = 127%N).
Lemma get_map {A B} (h : A -> B) l i : get (map h l) i = (v <- get l i ;; Ok (h v)).
Proof. unfold get. rewrite nth_error_map. destruct (nth_error l i); reflexivity. Qed.
Lemma recolour_pixel g x y : get_pixel (recolour f g) x y = (v <- get_pixel g x y ;; Ok (f v)).
Proof. unfold get_pixel. cbn [recolour gw gh gbuf]. destruct (_ && _); [apply get_map|reflexivity]. Qed.
Lemma f_eqb a b : N.eqb (f a) (f b) = N.eqb a b.
Proof. destruct (N.eqb_spec a b) as [->|H]; [apply N.eqb_refl|]. apply N.eqb_neq. auto. Qed.
Lemma recolour_refine_loop g ms diag path : forall last p lx ly,
  refine_loop (recolour f g) ms diag path (f last) p lx ly = refine_loop g ms diag path last p lx ly.
Proof.
  induction path as [|[x y] path IH]; intros last p lx ly; cbn [refine_loop]; [reflexivity|].
  rewrite recolour_pixel. destruct (get_pixel g x y) as [v|e|e]; cbn [bind]; [|reflexivity|reflexivity]. rewrite f_eqb. destruct (N.eqb v last).
  - destruct (pattern_inc p); cbn [bind]; [apply IH|reflexivity|reflexivity].
  - destruct (confirm ms p x y diag) as [[r|]|e|e]; cbn [bind]; try reflexivity. destruct (slide p); cbn [bind]; [apply IH|reflexivity|reflexivity].
Qed.
Lemma recolour_refine g ms path diag : refine (recolour f g) ms path diag = refine g ms path diag.
Proof. unfold refine. rewrite <- F127 at 1. apply recolour_refine_loop. Qed.
Lemma recolour_refine_all g finder ms : refine_all (recolour f g) finder ms = refine_all g finder ms.
Proof.
  unfold refine_all, refine_vertical, refine_horizontal, refine_diagonal. cbn [recolour gw gh]. fold (recolour f g).
  rewrite recolour_refine. destruct (refine g ms _ false) as [[v|]|e|e]; cbn [bind]; try reflexivity. destruct (adjust v _ _) as [p m].
  rewrite recolour_refine. destruct (refine g m _ false) as [[h|]|e|e]; cbn [bind]; try reflexivity. destruct (adjust h _ _) as [p' m'].
  destruct (diagonal_start _ _) as [a b]. rewrite recolour_refine. reflexivity.
Qed.
Lemma recolour_scan_pixel g s x y v : scan_pixel (recolour f g) (Scan (sc_candidates s) (f (sc_last s)) (sc_pattern s)) (x, y, f v) =
  (s' <- scan_pixel g s (x, y, v) ;; Ok (Scan (sc_candidates s') (f (sc_last s')) (sc_pattern s'))).
Proof.
  unfold scan_pixel, scan_found. cbn [sc_candidates sc_last sc_pattern].
  assert (E : (if x =? 0 then (127%N, pattern_new) else (f (sc_last s), sc_pattern s)) =
    let '(l, p) := if x =? 0 then (127%N, pattern_new) else (sc_last s, sc_pattern s) in (f l, p)) by (destruct (x =? 0); [rewrite F127|]; reflexivity).
  rewrite E. destruct (if x =? 0 then (127%N, pattern_new) else (sc_last s, sc_pattern s)) as [l p]. rewrite f_eqb. change (gw (recolour f g)) with (gw g).
  destruct (if N.eqb v l then pattern_inc p else Ok p) as [p1|e|e]; cbn [bind]; try reflexivity.
  destruct (if N.eqb v l then sub_Z (gw g) 1 else Ok x) as [w1|e|e]; cbn [bind]; try reflexivity.
  destruct (N.eqb v l && negb (x =? w1)); [reflexivity|].
  destruct (looks_like_finder p1) as [b|e|e]; cbn [bind]; try reflexivity. destruct b.
  - destruct (est_mod_size p1) as [ms|e|e]; cbn [bind]; try reflexivity. destruct (existsb _ (sc_candidates s)).
    + cbn [bind]. destruct (slide p1); reflexivity.
    + rewrite recolour_refine_all. destruct (refine_all g _ ms) as [[[q m]|]|e|e]; cbn [bind]; try reflexivity; destruct (slide p1); reflexivity.
  - cbn [bind]. destruct (slide p1); reflexivity.
Qed.
Lemma combine_map_r {A B C} (h : B -> C) (l : list A) : forall l', combine l (map h l') = map (fun '(a, b) => (a, h b)) (combine l l').
Proof. induction l as [|a l IH]; intros [|b l']; cbn; [reflexivity| reflexivity|reflexivity|]. now rewrite IH. Qed.
Lemma recolour_candidates g : find_candidates (recolour f g) = find_candidates g.
Proof.
  unfold find_candidates, enumerate_pixels. change (coords (recolour f g)) with (coords g). cbn [recolour gbuf]. fold (recolour f g). rewrite combine_map_r.
  rewrite <- F127 at 1. change (Scan [] (f 127%N) pattern_new) with (let s := Scan [] 127%N pattern_new in Scan (sc_candidates s) (f (sc_last s)) (sc_pattern s)).
  generalize (Scan [] 127%N pattern_new). generalize (combine (coords g) (gbuf g)). cbv zeta. intros l. induction l as [|[[x y] v] l IH]; intros s; cbn [map foldM bind]; [reflexivity|].
  rewrite recolour_scan_pixel. destruct (scan_pixel g s (x, y, v)) as [s'|e|e]; cbn [bind]; [apply IH|reflexivity|reflexivity].
Qed.
End Recolour.

Definition swapped (v : N) : N := if N.eqb v 0 then 255%N else if N.eqb v 255 then 0%N else v.
Definition negative (g : gray) : gray := recolour swapped g.
Lemma swapped_inj a b : swapped a = swapped b -> a = b.
Proof. unfold swapped. destruct (N.eqb_spec a 0), (N.eqb_spec b 0), (N.eqb_spec a 255), (N.eqb_spec b 255); congruence. Qed.

(** Detection looks only at where the colour changes: *)
Theorem C80_recoloured_partial f g : (forall a b, f a = f b -> a = b) -> f 127%N = 127%N -> detect (recolour f g) = detect g.
Proof. intros F F127. unfold detect. now rewrite recolour_candidates. Qed.
(** it finds the same in the negative. *)
Theorem C80_located_partial g : detect (negative g) = detect g.
Proof. apply C80_recoloured_partial; [exact swapped_inj|reflexivity]. Qed.

(** the full statement, on prepared images: what is read from an image is read from its negative *)
Definition of_prepared : decoder gray gray (list N) := mkDecoder Ok detect extract qr_decode.
Definition C80_statement : Prop := forall g rs t, wf_gray g -> Forall (fun v => v = 0%N \/ v = 255%N) (gbuf g) ->
  decode of_prepared g = Ok rs -> In (inl t) rs -> exists rs', decode of_prepared (negative g) = Ok rs' /\ In (inl t) rs'.

Definition small_page : gray := painted 46 46 2 2 2 1 modules_1.
Lemma small_read : decode of_prepared small_page = Ok [inl [72; 69; 76; 76; 79]%N].
Proof. vm_compute. reflexivity. Qed.
Lemma small_negative : match decode of_prepared (negative small_page) with Ok [inr _] => true | _ => false end = true.
Proof. vm_compute. reflexivity. Qed.
Theorem C80_refuted : ~ C80_statement.
Proof.
  intros H. destruct (H small_page [inl [72; 69; 76; 76; 79]%N] [72; 69; 76; 76; 79]%N) as (rs & E & I).
  - apply painted_wf; unfold u32_max; lia.
  - apply Forall_forall. intros v I. unfold small_page, painted, image_of in I. cbn [gbuf] in I. apply in_flat_map in I as (y & _ & I). apply in_map_iff in I as (x & <- & _).
    destruct (_ && modules_1 _ _); auto.
  - exact small_read.
  - cbn [In]. auto.
  - pose proof small_negative as K. rewrite E in K. clear - I K. destruct rs as [|[u|e] [|]]; try discriminate K. destruct I as [I|[]]. discriminate I.
Qed.

(** What is read of version 1: the negative of the modules. *)
Lemma negative_row g dx : forall n line data, sample_row n (negative g) line dx (map swapped data) = (l <- sample_row n g line dx data ;; Ok (map swapped l)).
Proof.
  induction n as [|n IH]; intros line data; cbn [sample_row]; [reflexivity|]. unfold negative at 1. rewrite recolour_pixel.
  destruct (get_pixel g _ _) as [v|e|e]; cbn [bind]; [|reflexivity|reflexivity]. rewrite <- IH, map_app. reflexivity.
Qed.
Lemma negative_rows g cols p : forall n start dx dy data, sample_rows n cols (negative g) p start dx dy (map swapped data) = (l <- sample_rows n cols g p start dx dy data ;; Ok (map swapped l)).
Proof.
  induction n as [|n IH]; intros start dx dy data; cbn [sample_rows]; [reflexivity|]. rewrite negative_row. destruct (sample_row cols g _ dx data); cbn [bind]; [apply IH|reflexivity|reflexivity].
Qed.
Definition negative_data (q : qrdata) : qrdata := mkQRData (map swapped (qdata q)) (qversion q) (qside q).
Theorem C80_sampled_partial g loc q : version loc = 1 -> extract g loc = Ok q -> extract (negative g) loc = Ok (negative_data q).
Proof.
  intros V E. unfold extract, determine_perspective in *. rewrite V in *. cbn [bind chk_u32] in *.
  change (chk_u32 (1 * 4)) with (Ok 4) in *. cbn [bind] in *. change (chk_u32 (17 + 4)) with (Ok 21) in *. cbn [bind] in *. change (sub_Z 21 7) with (Ok 14) in *. cbn [bind] in *.
  change (1 =? 1) with true in *. cbv iota in *. cbn [bind] in *. rewrite (negative_rows g _ _ _ _ _ _ []) . 
  destruct (sample_rows _ _ g _ _ _ _ []) as [l|e|e]; cbn [bind] in *; [|discriminate|discriminate].
  unfold qrdata_new in *. change (chk_u32 (4 * 1)) with (Ok 4) in *. cbn [bind] in *. change (chk_u32 (4 + 17)) with (Ok 21) in *. cbn [bind] in *. injection E as <-. reflexivity.
Qed.

(** The fifteen bits of the format information in negative are those of another format: *)
Definition opposite (l : level) : level := match l with L => H | M => Q | Q => M | H => L end.
Lemma opposite_word l m : (m < 8)%N -> N.lxor (format_word l m) 0x7FFF = format_word (opposite l) (7 - m).
Proof.
  intros Hm. assert (I : In m [0; 1; 2; 3; 4; 5; 6; 7]%N) by (cbn [In]; lia). cbn [In] in I.
  destruct l; repeat (destruct I as [<-|I]; [vm_compute; reflexivity|]); destruct I.
Qed.
Theorem C80_format_partial v d q l m : 0 <= v -> shows v d q -> Forall (fun p => p = 0%N \/ p = 255%N) (qdata q) -> (m < 8)%N -> carries d copy1 (format_word l m) ->
  format q = Ok (eclevel_of l, m) /\ format (negative_data q) = Ok (eclevel_of (opposite l), 7 - m)%N.
Proof.
  intros Hv HS HB Hm HC. split; [now apply (C21_intact v d q)|]. apply (C21_intact v (fun x y => negb (d x y)) (negative_data q)); auto; [|lia|].
  - destruct HS as (S1 & S2 & S3 & S4). unfold shows, negative_data. cbn [qversion qside qdata]. rewrite map_length. repeat split; auto.
    + intros N. apply negb_true_iff in N. rewrite (nth_indep _ 0%N (swapped 0%N)), map_nth by (rewrite map_length; nia). 
      assert (IN : In (nth (Z.to_nat (y * side_of v + x)) (qdata q) 0%N) (qdata q)) by (apply nth_In; nia). rewrite Forall_forall in HB. destruct (HB _ IN) as [Z0|Z0]; rewrite Z0; [|reflexivity].
      apply S4 in Z0; auto. congruence.
    + rewrite (nth_indep _ 0%N (swapped 0%N)), map_nth by (rewrite map_length; nia). intros N. apply negb_true_iff. apply not_true_iff_false. intros T. apply S4 in T; auto. rewrite T in N. discriminate.
  - intros i Hi. rewrite HC by exact Hi. rewrite <- opposite_word by exact Hm. rewrite N.lxor_spec. 
    assert (T : N.testbit 0x7FFF (Z.to_N i) = true). { assert (I : In (Z.to_N i) [0; 1; 2; 3; 4; 5; 6; 7; 8; 9; 10; 11; 12; 13; 14]%N) by (cbn [In]; lia). cbn [In] in I. repeat (destruct I as [<-|I]; [reflexivity|]); destruct I. }
    rewrite T. now rewrite xorb_true_r.
Qed.

(** "HELLO": level M and mask 3 are taken for level Q and mask 4 *)
Example C80_example : exists q, extract small_page (located_at 2 2 2 1) = Ok q /\ format q = Ok (MEDIUM, 3%N) /\
  extract (negative small_page) (located_at 2 2 2 1) = Ok (negative_data q) /\ format (negative_data q) = Ok (QUARTILE, 4%N).
Proof.
  destruct (C52_sampled small_page 2 2 2 modules_1 (located_at 2 2 2 1)) as (q & EQ & HS & _); [apply painted_drawn; unfold side_of; lia| |reflexivity|].
  { change 21 with (side_of 1). apply located_at_ok; (reflexivity || lia). }
  assert (HB : Forall (fun p => p = 0%N \/ p = 255%N) (qdata q)).
  { assert (K : match extract small_page (located_at 2 2 2 1) with Ok q => forallb (fun p => N.eqb p 0 || N.eqb p 255) (qdata q) | _ => false end = true) by (vm_compute; reflexivity).
    rewrite EQ in K. rewrite forallb_forall in K. apply Forall_forall. intros p I. specialize (K p I). apply orb_true_iff in K. rewrite !N.eqb_eq in K. exact K. }
  destruct (C80_format_partial 1 modules_1 q M 3 ltac:(lia) HS HB ltac:(lia) (proj2 modules_1_encoded)) as [F1 F2].
  exists q. split; [exact EQ|]. split; [exact F1|]. split; [apply C80_sampled_partial; [reflexivity|exact EQ]|exact F2].
Qed.

(** *** C81: symbols in a mirror *)
Definition mirrored (d : matrix) : matrix := fun x y => d y x.
(** the module that is dark in all symbols (7.9.1) *)
Definition dark_module (v : Z) (d : matrix) : Prop := d 8 (side_of v - 8) = true.
Definition C81_statement : Prop := forall v d t, 1 <= v <= 40 -> holds_text v d t -> dark_module v d -> qr_decode (Ok (deliver v (mirrored d))) = Ok t.
(** "HELLO" with that module *)
Definition whole_1 : matrix := fun x y => (x =? 8) && (y =? 13) || modules_1 x y.
Lemma whole_1_text : holds_text 1 whole_1 [72; 69; 76; 76; 79]%N.
Proof.
  destruct hello_text as (l & mask & segs & texts & base & H1 & H2 & H3 & H4 & H5 & H6 & H7). exists l, mask, segs, texts, base.
  split; [exact H1|]. split; [exact H2|]. split; [exact H3|]. split; [exact H4|]. split; [|split; [|exact H7]].
  - intros x y HM. rewrite <- H5 by exact HM. unfold whole_1. destruct (Z.eqb_spec x 8); [|reflexivity]. destruct (Z.eqb_spec y 13); [|reflexivity]. subst.
    destruct HM as [_ HM]. exfalso. apply HM. right. right. right. left. right. right. split; reflexivity.
  - intros i Hi. rewrite <- H6 by exact Hi. assert (IN : In i [0; 1; 2; 3; 4; 5; 6; 7; 8; 9; 10; 11; 12; 13; 14]) by (cbn [In]; lia). cbn [In] in IN.
    repeat (destruct IN as [<-|IN]; [reflexivity|]). destruct IN.
Qed.
Theorem C81_refuted : ~ C81_statement.
Proof.
  intros H. specialize (H 1 whole_1 _ ltac:(lia) whole_1_text eq_refl).
  assert (K : match qr_decode (Ok (deliver 1 (mirrored whole_1))) with Ok _ => false | _ => true end = true) by (vm_compute; reflexivity).
  rewrite H in K. discriminate K.
Qed.

(** The format information of a mirrored symbol is read backwards.  What comes out depends on the level and the mask only
    and is never right. *)
Definition seen_in_mirror (l : level) (m : N) : option (level * N) :=
  nth (N.to_nat m) match l with
  | L => [Some (H, 5); Some (L, 4); None; None; Some (L, 1); Some (H, 6); None; Some (Q, 0)]
  | M => [None; Some (H, 5); Some (Q, 2); Some (Q, 7); Some (M, 6); Some (Q, 5); Some (M, 4); Some (H, 0)]
  | Q => [Some (L, 7); Some (Q, 3); Some (M, 2); Some (Q, 1); Some (M, 0); Some (M, 5); Some (L, 2); None]
  | H => [Some (M, 7); None; Some (L, 1); Some (H, 6); Some (Q, 5); None; Some (H, 3); Some (L, 2)]
  end%N None.
Definition backwards (w : N) : N := fold_left (fun a i => if N.testbit w (N.of_nat i) then N.setbit a (14 - N.of_nat i) else a) (seq 0 15) 0%N.
Lemma all_backwards l m : (m < 8)%N -> let w := backwards (format_word l m) in
  forallb (fun i => eqb (N.testbit w (Z.to_N i)) (N.testbit (format_word l m) (Z.to_N (14 - i))) &&
    eqb (N.testbit (N.setbit w 7) (Z.to_N i)) ((i =? 7) || N.testbit (format_word l m) (Z.to_N (14 - i)))) [0; 1; 2; 3; 4; 5; 6; 7; 8; 9; 10; 11; 12; 13; 14] = true /\
  match read_word w with Some r => Some r | None => read_word (N.setbit w 7) end = option_map (fun '(l', m') => (eclevel_of l', m')) (seen_in_mirror l m) /\
  seen_in_mirror l m <> Some (l, m).
Proof.
  intros Hm. assert (I : In m [0; 1; 2; 3; 4; 5; 6; 7]%N) by (cbn [In]; lia). cbn [In] in I.
  destruct l; repeat (destruct I as [<-|I]; [vm_compute; repeat split; discriminate|]); destruct I.
Qed.

Theorem C81_format_partial v d q l m : 0 <= v -> shows v (mirrored d) q -> (m < 8)%N -> carries d copy1 (format_word l m) -> carries d (copy2 v) (format_word l m) -> dark_module v d ->
  format q = match seen_in_mirror l m with Some (l', m') => Ok (eclevel_of l', m') | None => Err EFormatCorrupted end /\ seen_in_mirror l m <> Some (l, m).
Proof.
  intros Hv HS Hm C1 C2 DM. destruct (all_backwards l m Hm) as (B & R & NE). split; [|exact NE]. rewrite forallb_forall in B.
  assert (IN : forall i, 0 <= i < 15 -> In i [0; 1; 2; 3; 4; 5; 6; 7; 8; 9; 10; 11; 12; 13; 14]) by (intros i Hi; cbn [In]; lia).
  assert (D1 : carries (mirrored d) copy1 (backwards (format_word l m))).
  { intros i Hi. specialize (B i (IN i Hi)). apply andb_true_iff in B as [B _]. apply eqb_prop in B. rewrite B. rewrite <- C1 by lia. specialize (IN i Hi). cbn [In] in IN.
    unfold mirrored. repeat (destruct IN as [<-|IN]; [reflexivity|]). destruct IN. }
  assert (D2 : carries (mirrored d) (copy2 v) (N.setbit (backwards (format_word l m)) 7)).
  { intros i Hi. specialize (B i (IN i Hi)). apply andb_true_iff in B as [_ B]. apply eqb_prop in B. rewrite B. clear B. destruct (Z.eqb_spec i 7) as [E7|N7]; cbn [orb].
    - rewrite E7. unfold copy2. change (7 <=? 7) with true. cbn [fst snd]. unfold mirrored. replace (side_of v - 1 - 7) with (side_of v - 8) by lia. exact DM.
    - rewrite <- C2 by lia. unfold copy2, mirrored. destruct (Z.leb_spec i 7), (Z.leb_spec (14 - i) 7); try lia; cbn [fst snd]; f_equal; lia. }
  rewrite (format_ok v (mirrored d) q _ _ HS Hv D1 D2). cbv zeta in R. destruct (read_word (backwards (format_word l m))) as [r|].
  - destruct (seen_in_mirror l m) as [[l' m']|]; cbn [option_map] in R; [injection R as ->; reflexivity|discriminate].
  - rewrite R. destruct (seen_in_mirror l m) as [[l' m']|]; reflexivity.
Qed.

(** So for seven of the 32 formats every mirrored symbol is rejected. *)
Corollary C81_rejected_partial v d q l m : 0 <= v -> shows v (mirrored d) q -> (m < 8)%N -> carries d copy1 (format_word l m) -> carries d (copy2 v) (format_word l m) -> dark_module v d ->
  seen_in_mirror l m = None -> qr_decode (Ok q) = Err EFormatCorrupted.
Proof.
  intros Hv HS Hm C1 C2 DM E. destruct (C81_format_partial v d q l m Hv HS Hm C1 C2 DM) as [F _]. rewrite E in F. unfold qr_decode. cbn [bind]. now rewrite F.
Qed.

Lemma whole_1_format : carries whole_1 copy1 (format_word M 3) /\ carries whole_1 (copy2 1) (format_word M 3) /\ dark_module 1 whole_1.
Proof.
  split; [|split; [|reflexivity]]; intros i Hi; assert (IN : In i [0; 1; 2; 3; 4; 5; 6; 7; 8; 9; 10; 11; 12; 13; 14]) by (cbn [In]; lia); cbn [In] in IN;
    repeat (destruct IN as [<-|IN]; [vm_compute; reflexivity|]); destruct IN.
Qed.
Example C81_example : format (deliver 1 (mirrored whole_1)) = Ok (QUARTILE, 7%N).
Proof.
  destruct whole_1_format as (F1 & F2 & F3).
  destruct (C81_format_partial 1 whole_1 (deliver 1 (mirrored whole_1)) M 3) as [F _]; auto; [lia|apply deliver_shows; lia|lia].
Qed.
