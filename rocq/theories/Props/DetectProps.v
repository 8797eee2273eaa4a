(** Detection: blank images, panics, locations, finder runs (C45-C49, C55). *)
From Coq Require Import NArith ZArith Reals List Lia Lra Bool Psatz.
From Verif.Model Require Import Prepare Detect Pipeline.
From Flocq Require Import Core BinarySingleNaN.
From Verif.Spec Require Import Window Finder Plane.
From Verif.Proofs Require Import BaseP PrepareP FloatP ApproxP DetectP GeometryP BlankP.
From Verif.Props Require Import PrepareProps.
Import ListNotations.
Local Open Scope Z_scope.

(** *** C45: blank images *)

(** no row has five runs, so nothing can be a finder: stripes, blots, gradients *)
Theorem C45_few_changes g : wf_gray g -> (forall y, 0 <= y < gh g -> changes (fun x => pix g x y) (gw g) < 4) -> detect g = Ok [].
Proof. intros HW HC. unfold detect. rewrite quiet_rows by auto. reflexivity. Qed.

Lemma rect_sum_const r c : rx0 r <= rx1 r -> ry0 r <= ry1 r -> rect_sum r (fun _ _ => c) = c * rect_count r.
Proof.
  intros H1 H2. unfold rect_sum, rect_count.
  assert (E : forall k a b, a <= b -> sum_between a b (fun _ => k) = (b - a) * k).
  { intros k a b H. unfold sum_between. rewrite <- (Z2Nat.id (b - a)) at 2 by lia.
    generalize (Z.to_nat (b - a)) as n. intros n. clear H. revert a. induction n as [|n IH]; intros a; cbn [sum_from]; [lia|].
    rewrite IH. lia. }
  rewrite E, (E c) by lia. lia.
Qed.

Lemma blank_prepared g g' c : wf_gray g -> (forall x y, 0 <= x < gw g -> 0 <= y < gh g -> pix g x y = c) ->
  prepare default_prepare g = Ok g' ->
  wf_gray g' /\ forall x y, 0 <= x < gw g' -> 0 <= y < gh g' -> pix g' x y = if (250 <? c)%N then 255%N else 0%N.
Proof.
  intros HW HC E. destruct (C41_black_white _ g g' HW E) as (HW' & EW & EH & _). split; [exact HW'|].
  intros x y Hx Hy. destruct (C43_default_partial g g' x y HW E ltac:(lia) ltac:(lia)) as [HN P].
  rewrite get_pixel_pix in P by auto. injection P as ->.
  pose proof HW as (W1 & W2 & _).
  set (r := used_window 5 7 (gw g) (gh g) x y) in *.
  assert (SH : rx0 r <= rx1 r /\ ry0 r <= ry1 r /\ 0 <= rx0 r /\ rx1 r <= gw g /\ 0 <= ry0 r /\ ry1 r <= gh g).
  { unfold rect_count, r, used_window in HN |- *. cbn [rx0 rx1 ry0 ry1] in HN |- *.
    pose proof (Z.mod_pos_bound (gw g) 5 ltac:(lia)). pose proof (Z.mod_pos_bound (gh g) 5 ltac:(lia)).
    pose proof (Z.div_pos x 5 ltac:(lia) ltac:(lia)). pose proof (Z.div_pos y 5 ltac:(lia) ltac:(lia)).
    pose proof (prepare_good default_prepare g g' HW ltac:(cbn; lia) ltac:(cbn; lia) E) as (_ & _ & G1 & G2 & _). cbn [default_prepare block_size] in G1, G2.
    change ((7 - 1) / 2) with 3 in *.
    pose proof (Z.div_mod x 5 ltac:(lia)). pose proof (Z.mod_pos_bound x 5 ltac:(lia)).
    pose proof (Z.div_mod y 5 ltac:(lia)). pose proof (Z.mod_pos_bound y 5 ltac:(lia)). lia. }
  rewrite (rect_sum_ext r (pixel_value g) (fun _ _ => Z.of_N c)) by (intros a b [A B]; unfold pixel_value; rewrite HC; [reflexivity|lia|lia]).
  rewrite rect_sum_const by lia. unfold pixel_value. rewrite HC by lia. set (n := rect_count r) in *.
  unfold black_or_white. destruct (N.ltb_spec 250 c) as [L|L].
  - destruct (Z.ltb_spec (250 * n) (Z.of_N c * n)); [reflexivity|nia].
  - destruct (Z.ltb_spec (250 * n) (Z.of_N c * n)); [nia|].
    destruct (Z.ltb_spec (Z.of_N c * n) (Z.of_N c * n)); [lia|]. now destruct (_ <? _).
Qed.

Lemma changes_const (c : N) n f : (forall x, 0 <= x < n -> f x = c) -> changes f n = 0.
Proof.
  intros H. unfold changes. rewrite sum_between_zsum, (zsum_ext _ (fun _ => 0)); [apply zsum_0|].
  intros x Hx. apply in_zrange in Hx. now rewrite !H, N.eqb_refl by lia.
Qed.

(** the default decoder finds nothing in an image of one gray value [c] *)
Theorem C45_blank {D : Type} (to_gray : D -> gray) (img : D) c : wf_gray (to_gray img) ->
  (forall x y, 0 <= x < gw (to_gray img) -> 0 <= y < gh (to_gray img) -> get_pixel (to_gray img) x y = Ok c) ->
  (exists g', prepare default_prepare (to_gray img) = Ok g') ->
  exists d, default_decoder to_gray = Ok d /\ decode d img = Ok [].
Proof.
  intros HW HC (g' & E). eexists. split; [reflexivity|]. unfold decode. cbn [d_prepare].
  rewrite E. cbn [bind]. destruct (blank_prepared (to_gray img) g' c HW) as [HW' HP]; [|exact E|].
  { intros x y Hx Hy. specialize (HC x y Hx Hy). rewrite get_pixel_pix in HC by auto. now injection HC. }
  rewrite C45_few_changes; [reflexivity|exact HW'|]. intros y Hy.
  erewrite changes_const; [lia|]. intros x Hx. cbv beta. now apply HP.
Qed.

Example C45_example : let g := Gray 5 6 (repeat 200%N 30) in
  wf_gray g /\ (forall x y, 0 <= x < gw g -> 0 <= y < gh g -> get_pixel g x y = Ok 200%N) /\
  (exists g', prepare default_prepare g = Ok g').
Proof.
  assert (W : wf_gray (Gray 5 6 (repeat 200%N 30))).
  { unfold wf_gray, u32_max. cbn [gw gh gbuf]. repeat split; try lia.
    apply Forall_forall. intros b Hb. apply repeat_spec in Hb. now subst. }
  cbv zeta. split; [exact W|]. split; [|apply C42_default_partial; [exact W| | | ]; cbn [gw gh]; lia].
  intros x y Hx Hy. cbn [gw gh] in *. rewrite get_pixel_pix by auto. f_equal. unfold pix. cbn [gw gh gbuf].
  apply repeat_spec with 30%nat, nth_In. rewrite repeat_length. lia.
Qed.

(** stripes: three changes in every row *)
Example C45_stripes : let g := Gray 8 1 [0; 0; 255; 255; 0; 0; 255; 255]%N in
  wf_gray g /\ changes (fun x => pix g x 0) (gw g) = 3.
Proof.
  cbv zeta. split; [|reflexivity]. unfold wf_gray, u32_max. cbn [gw gh gbuf]. repeat split; try lia.
  repeat constructor; lia.
Qed.

(** *** C46: no panics *)
Theorem C46_no_panic g : wf_gray g -> gw g <= 2 ^ 31 -> gh g <= 2 ^ 31 -> exists locs, detect g = Ok locs.
Proof.
  intros HW HX HY. pose proof HW as (W1 & W2 & _). unfold detect.
  destruct (find_candidates_ok g HW) as (cs & -> & HC). cbn [bind].
  destruct (find_locations_ok g cs ltac:(lia) ltac:(lia) HC) as (locs & -> & _). eauto.
Qed.

(** *** C47: well-formed locations *)

(** the value of a floating point number, which is finite *)
Definition value_of (x : f64) (r : R) : Prop := is_finite_SF x = true /\ SF2R radix2 x = r.
Definition point_of (p : point) (v : vec) : Prop := value_of (px p) (vx v) /\ value_of (py p) (vy v).
Definition in_image (g : gray) (v : vec) : Prop :=
  (0 <= vx v <= IZR (gw g - 1))%R /\ (0 <= vy v <= IZR (gh g - 1))%R.

Lemma fin_value x r : fin x r -> value_of x r.
Proof.
  intros (b & <- & F & R). split; [now rewrite is_finite_SF_B2SF|]. now rewrite SF2R_B2SF.
Qed.
Lemma value_inj x r s : fin x r -> value_of x s -> r = s.
Proof. intros F [_ V]. apply fin_value in F. destruct F as [_ F]. congruence. Qed.

Lemma detect_made g locs loc : wf_gray g -> gw g <= 2 ^ 31 -> gh g <= 2 ^ 31 -> detect g = Ok locs -> In loc locs ->
  exists cs, find_candidates g = Ok cs /\ made_of g cs loc.
Proof.
  intros HW HX HY E HL. pose proof HW as (W1 & W2 & _). unfold detect in E.
  destruct (find_candidates_ok g HW) as (cs & EC & HC). rewrite EC in E. cbn [bind] in E.
  destruct (find_locations_ok g cs ltac:(lia) ltac:(lia) HC) as (l' & E' & HF). rewrite E' in E. injection E as ->.
  exists cs. split; [exact EC|]. rewrite Forall_forall in HF. now apply HF.
Qed.

Theorem C47_locations g locs loc : wf_gray g -> gw g <= 2 ^ 31 -> gh g <= 2 ^ 31 -> detect g = Ok locs -> In loc locs ->
  1 <= version loc /\ (exists m, value_of (module_size loc) m /\ (1 <= m <= 2 ^ 30)%R) /\
  exists tl tr bl, point_of (top_left loc) tl /\ point_of (top_right loc) tr /\ point_of (bottom_left loc) bl /\
    in_image g tl /\ in_image g tr /\ in_image g bl /\ tl <> tr /\ tl <> bl /\ tr <> bl.
Proof.
  intros HW HX HY E HL. destruct (detect_made g locs loc HW HX HY E HL) as (cs & _ & _ & tl & tr & bl & m & G & HM & HF).
  destruct G as (P1 & P2 & P3 & FM & V1 & RA & SL & L1 & L2 & _). split; [exact V1|].
  split; [exists m; split; [now apply fin_value|simpl; lra]|].
  exists tl, tr, bl. inversion HF as [|? ? F1 HF1]; subst. inversion HF1 as [|? ? F2 HF2]; subst. inversion HF2 as [|? ? F3 _]; subst.
  assert (Z : forall v, norm (minus v v) = 0%R) by (intros v; unfold norm, minus; cbn [vx vy]; rewrite !Rminus_diag_eq, !Rmult_0_l, Rplus_0_r by reflexivity; apply sqrt_0).
  assert (PT : forall p v, at_point p v -> point_of p v) by (intros p v [A B]; split; now apply fin_value).
  split; [now apply PT|]. split; [now apply PT|]. split; [now apply PT|].
  split; [exact F1|]. split; [exact F2|]. split; [exact F3|]. split; [|split].
  - intros ->. rewrite Z in L1. lra.
  - intros ->. rewrite Z in L2. lra.
  - intros ->. unfold right_angle, cross in RA.
    assert (0 < norm (minus bl tl) * norm (minus bl tl))%R by (apply Rmult_lt_0_compat; lra). lra.
Qed.

(** the three corners are three different candidates, and the module size is the one of the first *)
Theorem C47_candidates g locs loc : wf_gray g -> gw g <= 2 ^ 31 -> gh g <= 2 ^ 31 -> detect g = Ok locs -> In loc locs ->
  exists cs i j k a b c, find_candidates g = Ok cs /\ NoDup [i; j; k] /\
    nth_error cs i = Some a /\ nth_error cs j = Some b /\ nth_error cs k = Some c /\
    top_left loc = fp_location a /\ top_right loc = fp_location b /\ bottom_left loc = fp_location c /\
    In (module_size loc) [fp_module_size a; fp_module_size b; fp_module_size c].
Proof.
  intros HW HX HY E HL. destruct (detect_made g locs loc HW HX HY E HL) as (cs & EC & (i & j & k & a & b & c & O & NA & NB & NC & MS & CO) & _).
  assert (ND : forall x y z : nat, x <> y -> x <> z -> y <> z -> NoDup [x; y; z]) by (intros; repeat constructor; cbn [In]; lia).
  unfold corners in CO. destruct CO as [C|[C|[C|[C|[C|C]]]]]; injection C as C1 C2 C3.
  - exists cs, i, j, k, a, b, c. repeat split; auto; [apply ND; lia|rewrite MS; cbn [In]; auto].
  - exists cs, i, k, j, a, c, b. repeat split; auto; [apply ND; lia|rewrite MS; cbn [In]; auto].
  - exists cs, j, i, k, b, a, c. repeat split; auto; [apply ND; lia|rewrite MS; cbn [In]; auto].
  - exists cs, j, k, i, b, c, a. repeat split; auto; [apply ND; lia|rewrite MS; cbn [In]; auto].
  - exists cs, k, i, j, c, a, b. repeat split; auto; [apply ND; lia|rewrite MS; cbn [In]; auto].
  - exists cs, k, j, i, c, b, a. repeat split; auto; [apply ND; lia|rewrite MS; cbn [In]; auto].
Qed.

(** *** C48: finder runs *)

(** five runs with anything before them *)
Theorem C48_exact q0 q1 a b c d e : 0 <= a -> 0 <= b -> 0 <= c -> 0 <= d -> 0 <= e -> a + b + c + d + e <= u32_max ->
  exists ok, looks_like_finder (Pat q0 q1 a b c d e) = Ok ok /\
    (ok = true -> finder_runs a b c d e) /\
    (finder_runs a b c d e -> 3 * c <> a + b + c + d + e -> ok = true).
Proof.
  intros. change (looks_like_finder (Pat q0 q1 a b c d e)) with (looks_like_finder (Pat 0 0 a b c d e)).
  assert (P : pat_ok u32_max (Pat 0 0 a b c d e)) by (unfold pat_ok, pat_sum; cbn [p0 p1 p2 p3 p4 p5 p6]; lia).
  destruct (looks_like_finder_exact u32_max _ P ltac:(lia)) as (ok & E & B1 & B2). cbn [p2 p3 p4 p5 p6] in *. unfold pat_total in B2. cbn [p2 p3 p4 p5 p6] in B2.
  exists ok. split; [exact E|]. split; [exact B1|]. intros F N. apply B2; [exact F|lia].
Qed.

Theorem C48_perfect q0 q1 m : 1 <= m -> 7 * m <= u32_max -> looks_like_finder (Pat q0 q1 m m (3 * m) m m) = Ok true.
Proof.
  intros H1 H2. destruct (C48_exact q0 q1 m m (3 * m) m m) as (ok & E & _ & B); try lia.
  rewrite E. f_equal. apply B; [|lia]. unfold finder_runs, stands_for. cbv zeta. repeat split; lia.
Qed.

(** a run that is off by more than two thirds of a module *)
Theorem C48_rejected q0 q1 a b c d e : 0 <= a -> 0 <= b -> 0 <= c -> 0 <= d -> 0 <= e -> a + b + c + d + e <= u32_max ->
  ~ finder_runs a b c d e -> looks_like_finder (Pat q0 q1 a b c d e) = Ok false.
Proof.
  intros HA HB HC HD HE HT HF. destruct (C48_exact q0 q1 a b c d e) as (ok & E & B & _); auto.
  rewrite E. destruct ok; [now apply HF in B|reflexivity].
Qed.

Example C48_example : ~ finder_runs 4 4 12 4 1 /\ finder_runs 4 5 11 4 3 /\
  looks_like_finder (Pat 9 9 4 5 11 4 3) = Ok true /\ looks_like_finder (Pat 9 9 4 4 12 4 1) = Ok false.
Proof. unfold finder_runs, stands_for. cbv zeta. repeat split; try lia; reflexivity. Qed.

(** the excluded case: a middle run of exactly a third of the total is accepted or rejected
    depending on how the division by seven is rounded *)
Example C48_tie : finder_runs 1 2 3 2 1 /\ looks_like_finder (Pat 0 0 1 2 3 2 1) = Ok false /\
  finder_runs 2 2 4 2 2 /\ looks_like_finder (Pat 0 0 2 2 4 2 2) = Ok true.
Proof. unfold finder_runs, stands_for. cbv zeta. repeat split; try lia; reflexivity. Qed.

(** *** C49: orientation *)

(** at the top left corner there is a right angle (up to about 18 degrees: the sine is at least
    0.9499), and from there bottom left is clockwise of top right, the sides having the same
    length up to 15 per cent *)
Theorem C49_orientation g locs loc tl tr bl : wf_gray g -> gw g <= 2 ^ 31 -> gh g <= 2 ^ 31 -> detect g = Ok locs -> In loc locs ->
  point_of (top_left loc) tl -> point_of (top_right loc) tr -> point_of (bottom_left loc) bl ->
  right_angle tl tr bl /\ (0 < cross (minus tr tl) (minus bl tl))%R /\ same_length (norm (minus tr tl)) (norm (minus bl tl)).
Proof.
  intros HW HX HY E HL [Q1 Q1'] [Q2 Q2'] [Q3 Q3'].
  destruct (detect_made g locs loc HW HX HY E HL) as (cs & _ & _ & tl' & tr' & bl' & m & G & HM & HF).
  destruct G as ((P1 & P1') & (P2 & P2') & (P3 & P3') & FM & V1 & RA & SL & L1 & L2 & _).
  assert (EQ : forall v w : vec, vx v = vx w -> vy v = vy w -> v = w) by (intros [a1 a2] [b1 b2]; cbn [vx vy]; intros -> ->; reflexivity).
  assert (tl' = tl) as -> by (apply EQ; eapply value_inj; eauto).
  assert (tr' = tr) as -> by (apply EQ; eapply value_inj; eauto).
  assert (bl' = bl) as -> by (apply EQ; eapply value_inj; eauto).
  split; [exact RA|]. split; [|exact SL]. unfold right_angle in RA.
  assert (0 < norm (minus tr tl) * norm (minus bl tl))%R by (apply Rmult_lt_0_compat; lra). lra.
Qed.

(** *** C55: the version *)
Theorem C55_version g locs loc tl tr bl m : wf_gray g -> gw g <= 2 ^ 31 -> gh g <= 2 ^ 31 -> detect g = Ok locs -> In loc locs ->
  point_of (top_left loc) tl -> point_of (top_right loc) tr -> point_of (bottom_left loc) bl -> value_of (module_size loc) m ->
  fits_version (norm (minus tr tl)) m (version loc) \/ fits_version (norm (minus bl tl)) m (version loc).
Proof.
  intros HW HX HY E HL [Q1 Q1'] [Q2 Q2'] [Q3 Q3'] QM.
  destruct (detect_made g locs loc HW HX HY E HL) as (cs & _ & _ & tl' & tr' & bl' & m' & G & HM & HF).
  destruct G as ((P1 & P1') & (P2 & P2') & (P3 & P3') & FM & V1 & RA & SL & L1 & L2 & FV).
  assert (EQ : forall v w : vec, vx v = vx w -> vy v = vy w -> v = w) by (intros [a1 a2] [b1 b2]; cbn [vx vy]; intros -> ->; reflexivity).
  assert (tl' = tl) as -> by (apply EQ; eapply value_inj; eauto).
  assert (tr' = tr) as -> by (apply EQ; eapply value_inj; eauto).
  assert (bl' = bl) as -> by (apply EQ; eapply value_inj; eauto).
  assert (m' = m) as -> by (eapply value_inj; eauto). exact FV.
Qed.

(** *** a located symbol: three finder patterns, two pixels per module, a border of one module *)
Definition in_finder (i j : Z) : bool :=
  (0 <=? i) && (i <? 7) && (0 <=? j) && (j <? 7) && negb (Z.max (Z.abs (i - 3)) (Z.abs (j - 3)) =? 2).
Definition three_finders : gray :=
  Gray 46 46 (flat_map (fun y => map (fun x =>
    let i := y / 2 - 1 in let j := x / 2 - 1 in
    if in_finder i j || in_finder (i - 14) j || in_finder i (j - 14) then 0%N else 255%N) (zrange 0 46)) (zrange 0 46)).

Definition integers (p : point) : Z * Z := (round_u32 (px p), round_u32 (py p)).
Lemma three_finders_located : match detect three_finders with
  | Ok [loc] => version loc = 1 /\ integers (top_left loc) = (9, 8) /\ integers (top_right loc) = (37, 8) /\
                integers (bottom_left loc) = (9, 36) /\ round_u32 (module_size loc) = 2
  | _ => False
  end.
Proof. vm_compute. repeat split. Qed.

Example C46_example : wf_gray three_finders /\ gw three_finders <= 2 ^ 31 /\ gh three_finders <= 2 ^ 31 /\
  exists loc, detect three_finders = Ok [loc] /\ In loc [loc].
Proof.
  split; [|split; [|split]]; try (cbn [three_finders gw gh]; lia).
  - apply wf_check. vm_compute. reflexivity.
  - pose proof three_finders_located as L. destruct (detect three_finders) as [[|loc [|]]| |]; try contradiction. exists loc. cbn [In]. auto.
Qed.
