(** Finder patterns that are there are found, and where exactly (C58, C59). *)
From Coq Require Import NArith ZArith Reals List Lia Lra Bool Psatz.
From Verif.Model Require Import Prepare Detect.
From Flocq Require Import Core.
From Verif.Spec Require Import Window Finder Plane Symbol Drawing.
From Verif.Proofs Require Import BaseP PrepareP FloatP ApproxP DetectP GeometryP ExtractP AlignP RefineP RefineF ScanP LocateP.
From Verif.Props Require Import DetectProps ExtractProps.
Import ListNotations.
Local Open Scope Z_scope.

(** the candidate for the finder pattern drawn at (fx, fy): the module size is exact, and the
    position half a pixel to the right of the centre and at most half a pixel above it *)
Definition centre_found (m fx fy : Z) (c : finder_pos) : Prop :=
  value_of (fp_module_size c) (IZR m) /\
  point_of (fp_location c) (Vec (middle_of m fx 3 + / 2) (IZR (fy + (7 * m - 1) / 2))).

(** what else can be in the way: a candidate closer than seven modules to the point where the
    scan comes across the pattern first *)
Definition in_the_way (m fx fy : Z) (c : finder_pos) : Prop := exists p,
  point_of (fp_location c) p /\ (norm (minus (Vec (IZR fx + 7 / 2 * IZR m) (IZR (fy + 2 * m))) p) < 7.0001 * IZR m)%R.

Lemma at_centre_found m fx fy c : at_centre m fx fy c -> centre_found m fx fy c.
Proof.
  intros (F & X & Y). split; [now apply fin_value|]. split; cbn [vx vy]; apply fin_value.
  - replace (middle_of m fx 3 + / 2)%R with (IZR (2 * fx + 7 * m) / 2)%R; [exact X|]. unfold middle_of. rewrite plus_IZR, !mult_IZR. lra.
  - now apply fin_hf.
Qed.

Lemma value_fin x r s : value_of x r -> fin x s -> fin x r.
Proof. intros [_ V] F. pose proof (fin_value _ _ F) as [_ V']. now rewrite <- V, V'. Qed.

Lemma scan_point_at m fx fy : 1 <= m <= 10000000 -> 0 <= fx <= 2 ^ 26 -> 0 <= fy <= 2 ^ 26 ->
  at_point (scan_point m fx fy) (Vec (IZR fx + 7 / 2 * IZR m) (IZR (fy + 2 * m))).
Proof.
  intros Hm Hx Hy. split; cbn [scan_point px py vx vy].
  - replace (IZR fx + 7 / 2 * IZR m)%R with (IZR (2 * (fx + 7 * m) - 7 * m) / 2)%R by (rewrite minus_IZR, !mult_IZR, plus_IZR, mult_IZR; lra).
    apply hf_sub; [apply hf_Z|apply half_exact'; lia|]; unfold hb; lia.
  - apply fin_of_Z. lia.
Qed.

Theorem C58_found g m fx fy cs : wf_gray g -> finder_drawn (pixel g) m fx fy -> 2 <= m -> gw g <= 2 ^ 26 -> gh g <= 2 ^ 26 ->
  runs_fit (fun x => pix g x (fy + 2 * m)) m fx -> find_candidates g = Ok cs ->
  exists c, In c cs /\ (centre_found m fx fy c \/ in_the_way m fx fy c).
Proof.
  intros HW HD Hm WX WY HR E. destruct (scanned g m fx fy cs HW HD Hm WX WY HR E) as (c & Hc & [A|A]); exists c; (split; [exact Hc|]).
  - left. now apply at_centre_found.
  - right. pose proof (m_top g m fx fy HW HD Hm WX) as T. pose proof (corner g m fx fy HD) as C. pose proof (bounds g m fx fy HW HD Hm) as B.
    destruct (find_candidates_ok g HW) as (cs' & E' & HC). rewrite E in E'. injection E' as <-.
    unfold cands_ok in HC. rewrite Forall_forall in HC. destruct (HC c Hc) as (_ & x & y & X & Y & BX & BY).
    assert (W1 : (IZR (gw g - 1) <= 67108864)%R) by (apply IZR_le; lia). assert (W2 : (IZR (gh g - 1) <= 67108864)%R) by (apply IZR_le; lia).
    exists (Vec x y). split; [split; now apply fin_value|].
    set (v := Vec (IZR fx + 7 / 2 * IZR m) (IZR (fy + 2 * m))).
    assert (M : (2 <= IZR m <= 10000000)%R) by (split; apply IZR_le; lia).
    assert (X0 : (0 <= IZR fx <= 67108864)%R) by (split; apply IZR_le; lia). assert (Y0 : (0 <= IZR (fy + 2 * m) <= 67108864)%R) by (split; apply IZR_le; lia).
    destruct (dist_ok (scan_point m fx fy) (fp_location c) v (Vec x y)) as (l & F & L & L1 & _).
    { apply scan_point_at; lia. } { split; [exact X|exact Y]. }
    { unfold box, v; cbn [vx vy]; lra. } { unfold box; cbn [vx vy]; lra. }
    assert (G : fi (fmul (of_Z 7) (est_of (7 * m))) (7 * m)).
    { apply fi_mul; [apply fi_Z; unfold ib; lia|apply est_exact; lia|unfold ib; lia]. }
    rewrite (flt_R _ _ _ _ F G) in A. destruct (Rlt_bool_spec l (IZR (7 * m))) as [A'|A']; [|discriminate]. rewrite mult_IZR in A'.
    apply Rnot_le_lt. intros N. set (n := norm (minus v (Vec x y))) in *. specialize (L1 ltac:(lra)).
    unfold u53 in L1. rabs; lra.
Qed.

(** nothing in the way: the finder pattern is among the candidates *)
Corollary C58_alone g m fx fy cs : wf_gray g -> finder_drawn (pixel g) m fx fy -> 2 <= m -> gw g <= 2 ^ 26 -> gh g <= 2 ^ 26 ->
  runs_fit (fun x => pix g x (fy + 2 * m)) m fx -> find_candidates g = Ok cs ->
  (forall c, In c cs -> in_the_way m fx fy c -> centre_found m fx fy c) -> exists c, In c cs /\ centre_found m fx fy c.
Proof.
  intros HW HD Hm WX WY HR E HN. destruct (C58_found g m fx fy cs HW HD Hm WX WY HR E) as (c & Hc & [A|A]); exists c; auto.
Qed.

(** *** C59: whatever else is in the picture *)
Definition C59_statement : Prop := forall g m fx fy cs, wf_gray g -> finder_drawn (pixel g) m fx fy -> 2 <= m -> gw g <= 2 ^ 26 -> gh g <= 2 ^ 26 ->
  find_candidates g = Ok cs -> exists c, In c cs /\ (centre_found m fx fy c \/ in_the_way m fx fy c).

(** a black stripe one module wide at the left edge, [k] - 1 white modules, and a finder pattern;
    two pixels per module *)
Definition stripe (k : Z) : gray := image_of (2 * k + 20) 20 (fun x y =>
  if (x <? 2) || ((2 * k <=? x) && (x <? 2 * k + 14) && (2 <=? y) && (y <? 16) && finder_dark ((y - 2) / 2) ((x - 2 * k) / 2)) then 0%N else 255%N).

Lemma stripe_wf k : 1 <= k <= 1000 -> wf_gray (stripe k).
Proof. intros H. apply image_of_wf; [unfold u32_max; lia..|]. intros x y. now destruct (_ || _). Qed.
Lemma pixel_image w h f x y v : pixel (image_of w h f) x y = Some v -> 0 <= x -> 0 <= y -> v = f x y.
Proof.
  unfold pixel. intros H Hx Hy. destruct (Z_lt_le_dec x w) as [Lx|Lx]; [destruct (Z_lt_le_dec y h) as [Ly|Ly]|].
  - rewrite image_of_pixel in H by lia. now injection H.
  - unfold get_pixel in H. cbn [image_of gw gh] in H. destruct (Z.ltb_spec y h); [lia|]. now rewrite andb_false_r in H.
  - unfold get_pixel in H. cbn [image_of gw gh] in H. destruct (Z.ltb_spec x w); [lia|]. discriminate.
Qed.
Lemma stripe_white k x y v : 2 <= x -> 0 <= y -> ~ (2 * k <= x < 2 * k + 14 /\ 2 <= y < 16) -> pixel (stripe k) x y = Some v -> v = 255%N.
Proof.
  intros Hx Hy HN H. apply pixel_image in H; [|lia..]. rewrite H. destruct (Z.ltb_spec x 2); [lia|]. cbn [orb].
  destruct (Z.leb_spec (2 * k) x); [|reflexivity]. destruct (Z.ltb_spec x (2 * k + 14)); [|reflexivity].
  destruct (Z.leb_spec 2 y); [|reflexivity]. destruct (Z.ltb_spec y 16); [|reflexivity]. exfalso. lia.
Qed.
Lemma stripe_drawn k : 3 <= k <= 1000 -> finder_drawn (pixel (stripe k)) 2 (2 * k) 2.
Proof.
  intros Hk. split; [|split; [|split; [|split; [|split; [|split; [|split]]]]]].
  - split; [lia|]. split; [lia|]. split; [lia|]. intros r c i j Hr Hc Hi Hj. unfold pixel, stripe. rewrite image_of_pixel by lia.
    replace ((2 + r * 2 + j - 2) / 2) with r by (apply Z.div_unique with j; lia).
    replace ((2 * k + c * 2 + i - 2 * k) / 2) with c by (apply Z.div_unique with i; lia).
    destruct (Z.ltb_spec (2 * k + c * 2 + i) 2); [lia|]. destruct (Z.leb_spec (2 * k) (2 * k + c * 2 + i)); [|lia].
    destruct (Z.ltb_spec (2 * k + c * 2 + i) (2 * k + 14)); [|lia]. destruct (Z.leb_spec 2 (2 + r * 2 + j)); [|lia]. destruct (Z.ltb_spec (2 + r * 2 + j) 16); [|lia].
    reflexivity.
  - intros x y v Hx Hy HN Px Py. apply stripe_white; lia.
  - right. intros x y v Hx Hy Px Py. apply stripe_white; lia.
  - right. intros x y v Hx Hy Px Py. apply stripe_white; lia.
  - right. intros x y v Hx Hy Px Py. apply stripe_white; lia.
  - right. intros x y v Hx Hy Px Py. apply stripe_white; lia.
  - right. intros x y v Hx Hy Px Py. apply stripe_white; lia.
  - intros y Hy. assert (E : pixel (stripe k) (2 * k + 7 * 2) y = Some (match pixel (stripe k) (2 * k + 7 * 2) y with Some v => v | None => 255%N end)).
    { unfold pixel, stripe. now rewrite image_of_pixel by lia. }
    destruct (pixel (stripe k) (2 * k + 7 * 2) y) as [v|] eqn:P; [|discriminate]. f_equal. apply stripe_white in P; [exact P|lia..].
Qed.

(** ten white modules: the pattern is found *)
Example C58_example : wf_gray (stripe 11) /\ finder_drawn (pixel (stripe 11)) 2 22 2 /\ runs_fit (fun x => pix (stripe 11) x 6) 2 22 /\
  exists c, find_candidates (stripe 11) = Ok [c] /\ integers (fp_location c) = (29, 8) /\ centre_found 2 22 2 c.
Proof.
  assert (HW : wf_gray (stripe 11)) by (apply stripe_wf; lia). assert (HD := stripe_drawn 11 ltac:(lia)).
  assert (HR : runs_fit (fun x => pix (stripe 11) x 6) 2 22).
  { assert (V : forall x, 0 <= x < 22 -> pix (stripe 11) x 6 = if x <? 2 then 0%N else 255%N).
    { intros x Hx. pose proof (image_of_pixel (2 * 11 + 20) 20 _ x 6 ltac:(lia) ltac:(lia) : get_pixel (stripe 11) x 6 = _) as P. rewrite get_pixel_pix in P by (auto; cbn [stripe image_of gw gh]; lia).
      injection P as ->. destruct (Z.ltb_spec x 2); [reflexivity|]. destruct (Z.leb_spec (2 * 11) x); [lia|reflexivity]. }
    assert (V22 : pix (stripe 11) 22 6 = 0%N) by (vm_compute; reflexivity).
    intros a b H1 H2 H3 H4 H5. rewrite !V in H4 by lia. assert (a = 2) as ->.
    { destruct (Z.ltb_spec (a - 1) 2), (Z.ltb_spec a 2); try lia; congruence. }
    destruct (Z.eq_dec b 22) as [->|NB]; [lia|]. rewrite !V in H5 by lia. exfalso. apply H5. destruct (Z.ltb_spec b 2); [lia|reflexivity]. }
  split; [exact HW|]. split; [exact HD|]. split; [exact HR|].
  assert (E : exists l, find_candidates (stripe 11) = Ok [FP (Pt (of_Z 29) (of_Z 8)) (of_Z 2) l]) by (eexists; vm_compute; reflexivity).
  destruct E as (l & E). eexists. split; [exact E|]. split; [vm_compute; reflexivity|].
  apply at_centre_found. unfold at_centre. cbn [fp_module_size fp_location px py].
  split; [apply fi_Z; unfold ib; lia|]. split; [exact (hf_Z 29 ltac:(unfold hb; lia))|exact (hf_Z 8 ltac:(unfold hb; lia))].
Qed.

(** eleven white modules: nothing is found.  The run of white pixels is longer than ten times
    the first column of the pattern, which counts as noise and is joined to it
    (linescan.rs:369-395). *)
Theorem C59_refuted : ~ C59_statement.
Proof.
  intros H. destruct (H (stripe 12) 2 24 2 [] (stripe_wf 12 ltac:(lia)) (stripe_drawn 12 ltac:(lia)) ltac:(lia)) as (c & [] & _).
  - cbn [stripe image_of gw]. lia.
  - cbn [stripe image_of gh]. lia.
  - vm_compute. reflexivity.
Qed.

(** with nothing to the left in the row.  Missing from the full statement: ink to the left of the
    pattern, where C58 says what is enough. *)
Theorem C59_white_partial g m fx fy cs : wf_gray g -> finder_drawn (pixel g) m fx fy -> 2 <= m -> gw g <= 2 ^ 26 -> gh g <= 2 ^ 26 ->
  find_candidates g = Ok cs -> (forall x, 0 <= x < fx -> get_pixel g x (fy + 2 * m) = Ok 255%N) ->
  exists c, In c cs /\ (centre_found m fx fy c \/ in_the_way m fx fy c).
Proof.
  intros HW HD Hm WX WY E HL. apply (C58_found g m fx fy cs); auto. pose proof (corner g m fx fy HD) as C. pose proof (bounds g m fx fy HW HD Hm) as B.
  intros a b H1 H2 H3 H4 H5. exfalso. apply H4.
  assert (V : forall x, 0 <= x < fx -> pix g x (fy + 2 * m) = 255%N).
  { intros x Hx. specialize (HL x Hx). rewrite get_pixel_pix in HL by (auto; lia). now injection HL. }
  rewrite !V by lia. reflexivity.
Qed.
