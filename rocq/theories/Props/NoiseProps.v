(** Exposure and noise: C70, C71. *)
From Coq Require Import NArith ZArith List Lia Bool.
From Verif.Model Require Import Prepare Detect Extract Pipeline.
From Verif.Spec Require Import Window Symbol Drawing.
From Verif.Proofs Require Import BaseP PrepareP.
From Verif.Props Require Import PrepareProps ExtractProps CleanProps.
Import ListNotations.
Local Open Scope Z_scope.

(** *** C70: other brightness and contrast *)

(** the values of [g'] are those of [g] times a / k plus b / k: more or less contrast, more or less light *)
Definition exposed (k a b : Z) (g g' : gray) : Prop := 0 < k /\ 0 < a /\ gw g' = gw g /\ gh g' = gh g /\
  forall x y, 0 <= x < gw g -> 0 <= y < gh g -> k * pixel_value g' x y = a * pixel_value g x y + b.
(** the mean of the window is neither below 5 nor above 250 *)
Definition moderate_window (cfg : blocked_mean) (g : gray) (x y : Z) : Prop :=
  let r := used_window (block_size cfg) (block_mean_size cfg) (gw g) (gh g) x y in
  5 * rect_count r <= rect_sum r (pixel_value g) <= 250 * rect_count r.

(** the full statement *)
Definition C70_statement : Prop := forall cfg k a b g1 g2 r1 r2, wf_gray g1 -> wf_gray g2 -> 0 <= block_size cfg -> 0 <= block_mean_size cfg ->
  (forall x y, 0 <= x < gw g1 -> 0 <= y < gh g1 -> rect_count (used_window (block_size cfg) (block_mean_size cfg) (gw g1) (gh g1) x y) <= 2 ^ 45) ->
  exposed k a b g1 g2 -> prepare cfg g1 = Ok r1 -> prepare cfg g2 = Ok r2 -> r1 = r2.

(** it holds for every pixel whose window is neither very dark nor very light in both images *)
Theorem C70_pixel_partial cfg k a b g1 g2 r1 r2 x y : wf_gray g1 -> wf_gray g2 -> 0 <= block_size cfg -> 0 <= block_mean_size cfg ->
  rect_count (used_window (block_size cfg) (block_mean_size cfg) (gw g1) (gh g1) x y) <= 2 ^ 45 ->
  exposed k a b g1 g2 -> prepare cfg g1 = Ok r1 -> prepare cfg g2 = Ok r2 -> 0 <= x < gw g1 -> 0 <= y < gh g1 ->
  moderate_window cfg g1 x y -> moderate_window cfg g2 x y -> get_pixel r2 x y = get_pixel r1 x y.
Proof.
  intros W1 W2 Hb Hm HC (Hk & Ha & EW & EH & HX) E1 E2 Px Py M1 M2.
  destruct (C43_used_partial cfg g1 r1 x y W1 Hb Hm E1 Px Py HC) as [C0 ->].
  destruct (C43_used_partial cfg g2 r2 x y W2 Hb Hm E2 ltac:(lia) ltac:(lia) ltac:(now rewrite EW, EH)) as [_ ->].
  pose proof (prepare_good cfg g1 r1 W1 Hb Hm E1) as HG.
  assert (S : let r := used_window (block_size cfg) (block_mean_size cfg) (gw g1) (gh g1) x y in 0 <= rx0 r < rx1 r /\ rx1 r <= gw g1 /\ 0 <= ry0 r < ry1 r /\ ry1 r <= gh g1).
  { cbv zeta. rewrite <- used_window_of by auto. pose proof HG as (Hb1 & _). apply window_shape; [exact HG|apply div_range; lia|apply div_range; lia]. }
  unfold moderate_window in *. rewrite EW, EH in *. set (r := used_window _ _ _ _ _ _) in *. cbv zeta in S, M1, M2.
  set (T1 := rect_sum r (pixel_value g1)) in *. set (T2 := rect_sum r (pixel_value g2)) in *. set (C := rect_count r) in *.
  assert (ES : k * T2 = a * T1 + b * C).
  { unfold T1, T2, C. rewrite <- !rect_sum_scale. rewrite <- rect_sum_one by lia. rewrite <- (rect_sum_scale r (fun _ _ => 1) b), <- rect_sum_plus.
    apply rect_sum_ext. intros u v [Hu Hv]. rewrite HX by lia. lia. }
  pose proof (HX x y Px Py) as EP. set (p1 := pixel_value g1 x y) in *. set (p2 := pixel_value g2 x y) in *. do 2 f_equal. unfold black_or_white.
  destruct (Z.ltb_spec (250 * C) T1); [lia|]. destruct (Z.ltb_spec (250 * C) T2); [lia|]. destruct (Z.ltb_spec T1 (5 * C)); [lia|]. destruct (Z.ltb_spec T2 (5 * C)); [lia|].
  assert (EQ : k * (p2 * C - T2) = a * (p1 * C - T1)) by (transitivity ((k * p2) * C - k * T2); [ring|]; rewrite EP, ES; ring).
  clearbody T1 T2 C p1 p2. clear - EQ Hk Ha. destruct (Z.ltb_spec T2 (p2 * C)), (Z.ltb_spec T1 (p1 * C)); try reflexivity; nia.
Qed.

(** in images all of whose windows are like that nothing changes, neither in the prepared image nor in the results.
    Missing from the full statement: windows with a mean below 5 or above 250. *)
Theorem C70_image_partial k a b g1 g2 r1 r2 : wf_gray g1 -> wf_gray g2 -> exposed k a b g1 g2 ->
  prepare default_prepare g1 = Ok r1 -> prepare default_prepare g2 = Ok r2 ->
  (forall x y, 0 <= x < gw g1 -> 0 <= y < gh g1 -> moderate_window default_prepare g1 x y /\ moderate_window default_prepare g2 x y) -> r1 = r2.
Proof.
  intros W1 W2 HX E1 E2 HM. pose proof HX as (_ & _ & EW & EH & _).
  destruct (C41_black_white _ g1 r1 W1 E1) as (V1 & A1 & B1 & _). destruct (C41_black_white _ g2 r2 W2 E2) as (V2 & A2 & B2 & _).
  apply gray_ext; auto; [congruence|congruence|]. rewrite A1, B1. intros x y Px Py. destruct (HM x y Px Py) as [M1 M2].
  destruct (C43_default_partial g1 r1 x y W1 E1 Px Py) as [HC _]. symmetry.
  apply (C70_pixel_partial default_prepare k a b g1 g2 r1 r2 x y); auto; cbn [default_prepare block_size block_mean_size]; lia.
Qed.

(** paper without anything on it: black if it is gray, white if it is white *)
Theorem C70_refuted : ~ C70_statement.
Proof.
  intros H. set (plain v := image_of 20 20 (fun _ _ => v)).
  assert (W : forall v, (v < 256)%N -> wf_gray (plain v)) by (intros v Hv; apply image_of_wf; auto; unfold u32_max; lia).
  assert (X : plain 0%N = plain 255%N).
  { apply (H default_prepare 1 1 151 (plain 100%N) (plain 251%N)); [apply W; lia|apply W; lia|cbn; lia|cbn; lia| | |vm_compute; reflexivity|vm_compute; reflexivity].
    - intros x y Hx Hy. assert (E : prepare default_prepare (plain 100%N) = Ok (plain 0%N)) by (vm_compute; reflexivity).
      destruct (C43_default_partial _ _ x y (W 100%N ltac:(lia)) E Hx Hy) as [HC _]. cbn [default_prepare block_size block_mean_size]. lia.
    - split; [lia|]. split; [lia|]. split; [reflexivity|]. split; [reflexivity|]. intros x y Hx Hy. unfold pixel_value.
      assert (P : forall v, (v < 256)%N -> pix (plain v) x y = v).
      { intros v Hv. pose proof (image_of_pixel 20 20 (fun _ _ => v) x y Hx Hy) as G. change (image_of 20 20 (fun _ _ => v)) with (plain v) in G.
        rewrite get_pixel_pix in G by (first [now apply W|exact Hx|exact Hy]). now injection G. }
      rewrite !P by lia. reflexivity. }
  apply (f_equal (fun g => get_pixel g 0 0)) in X. vm_compute in X. discriminate.
Qed.

(** inside: a picture with ink and paper everywhere, at half the contrast and more light *)
Definition checked (dark light : N) : gray := image_of 20 20 (fun x y => if Z.even (x / 5 + y / 5) then dark else light).
Example C70_example : exposed 2 1 200 (checked 0 240) (checked 100 220) /\
  (forall x y, 0 <= x < 20 -> 0 <= y < 20 -> moderate_window default_prepare (checked 0 240) x y /\ moderate_window default_prepare (checked 100 220) x y) /\
  exists r, prepare default_prepare (checked 0 240) = Ok r /\ prepare default_prepare (checked 100 220) = Ok r /\ r = checked 0 255.
Proof.
  assert (P : forall a b x y, 0 <= x < 20 -> 0 <= y < 20 -> pixel_value (checked a b) x y = Z.of_N (if Z.even (x / 5 + y / 5) then a else b)).
  { intros a b x y Hx Hy. pose proof (image_of_pixel 20 20 (fun x y => if Z.even (x / 5 + y / 5) then a else b) x y Hx Hy) as G.
    unfold pixel_value. fold (checked a b) in G. unfold get_pixel in G. change (gw (checked a b)) with 20 in G. change (gh (checked a b)) with 20 in G.
    destruct (Z.ltb_spec x 20); [|lia]. destruct (Z.ltb_spec y 20); [|lia]. cbn [andb] in G. unfold pix. change (gw (checked a b)) with 20.
    unfold get in G. destruct (nth_error _ _) as [v|] eqn:E; [|discriminate]. injection G as <-. now rewrite (nth_error_nth _ _ _ E). }
  split; [|split].
  - split; [lia|]. split; [lia|]. split; [reflexivity|]. split; [reflexivity|]. intros x y Hx Hy. rewrite !P by assumption. destruct (Z.even _); reflexivity.
  - assert (K : forallb (fun i => forallb (fun j => forallb (fun g => let r := used_window 5 7 20 20 (5 * i) (5 * j) in
        (5 * rect_count r <=? rect_sum r (pixel_value g)) && (rect_sum r (pixel_value g) <=? 250 * rect_count r)) [checked 0 240; checked 100 220]) [0; 1; 2; 3]) [0; 1; 2; 3] = true) by (vm_compute; reflexivity).
    assert (M : forall g x y, In g [checked 0 240; checked 100 220] -> 0 <= x < 20 -> 0 <= y < 20 -> moderate_window default_prepare g x y).
    { intros g x y Hg Hx Hy. rewrite forallb_forall in K. assert (I : In (x / 5) [0; 1; 2; 3]) by (pose proof (Z.div_mod x 5 ltac:(lia)); pose proof (Z.mod_pos_bound x 5 ltac:(lia)); cbn [In]; lia).
      assert (J : In (y / 5) [0; 1; 2; 3]) by (pose proof (Z.div_mod y 5 ltac:(lia)); pose proof (Z.mod_pos_bound y 5 ltac:(lia)); cbn [In]; lia).
      specialize (K _ I). rewrite forallb_forall in K. specialize (K _ J). rewrite forallb_forall in K. specialize (K _ Hg). cbv zeta in K.
      rewrite andb_true_iff, !Z.leb_le in K. unfold moderate_window. cbn [default_prepare block_size block_mean_size].
      replace (gw g) with 20 by (destruct Hg as [<-|[<-|[]]]; reflexivity). replace (gh g) with 20 by (destruct Hg as [<-|[<-|[]]]; reflexivity).
      replace (used_window 5 7 20 20 x y) with (used_window 5 7 20 20 (5 * (x / 5)) (5 * (y / 5))); [exact K|].
      unfold used_window. rewrite (Z.mul_comm 5 (x / 5)), (Z.mul_comm 5 (y / 5)), !Z.div_mul by lia. reflexivity. }
    intros x y Hx Hy. split; apply M; auto; cbn [In]; auto.
  - exists (checked 0 255). split; [vm_compute; reflexivity|]. split; [vm_compute; reflexivity|reflexivity].
Qed.

(** *** C71: noise *)

(** [g] is the black and white image [b] with every value up to 4 off *)
Definition noisy (b g : gray) : Prop := gw g = gw b /\ gh g = gh b /\
  (forall x y, 0 <= x < gw b -> 0 <= y < gh b -> get_pixel b x y = Ok 0%N \/ get_pixel b x y = Ok 255%N) /\
  (forall x y, 0 <= x < gw b -> 0 <= y < gh b -> Z.abs (pixel_value g x y - pixel_value b x y) <= 4).

(** pixels keep their colour if five in 251 pixels of their window have it *)
Theorem C71_pixel b g g' x y c : wf_gray b -> wf_gray g -> noisy b g -> prepare default_prepare g = Ok g' -> 0 <= x < gw b -> 0 <= y < gh b -> get_pixel b x y = Ok c ->
  5 * rect_count (window_at b x y) <= 251 * count_of b (window_at b x y) c -> get_pixel g' x y = Ok c.
Proof.
  intros WB WG (EW & EH & TW & NO) E Px Py PC HC.
  pose proof (window_inside g g' x y WG E ltac:(lia) ltac:(lia)) as S. destruct (C43_default_partial g g' x y WG E ltac:(lia) ltac:(lia)) as [C0 ->].
  fold (window_at g x y) in C0 |- *. unfold window_at in S, C0, HC |- *. rewrite EW, EH in *. set (r := used_window 5 7 (gw b) (gh b) x y) in *. cbv zeta in S.
  set (C := rect_count r) in *. set (T := rect_sum r (pixel_value g)).
  assert (TW' : forall x y, 0 <= x < gw b -> 0 <= y < gh b -> pix b x y = 0%N \/ pix b x y = 255%N).
  { intros u v Hu Hv. specialize (TW u v Hu Hv). rewrite get_pixel_pix in TW by auto. destruct TW as [[= ->]|[= ->]]; auto. }
  assert (GB : forall u v, 0 <= pixel_value g u v <= 255) by (intros u v; pose proof (pix_byte g u v WG); unfold pixel_value; lia).
  set (nd := count_of b r 0) in *. set (nl := count_of b r 255) in *.
  assert (EC : nd + nl = C).
  { unfold nd, nl, C, count_of. rewrite <- rect_sum_plus. rewrite <- rect_sum_one by lia. apply rect_sum_ext. intros u v [Hu Hv].
    destruct (TW' u v ltac:(lia) ltac:(lia)) as [-> | ->]; reflexivity. }
  assert (UP : T <= 4 * nd + 255 * nl).
  { unfold T, nd, nl, count_of. rewrite <- !rect_sum_scale, <- rect_sum_plus. apply rect_sum_le. intros u v [Hu Hv]. specialize (NO u v ltac:(lia) ltac:(lia)). specialize (GB u v).
    unfold pixel_value in NO at 2. destruct (TW' u v ltac:(lia) ltac:(lia)) as [EB|EB]; rewrite EB in NO |- *; change (0 =? 0)%N with true || change (255 =? 255)%N with true; try change (0 =? 255)%N with false; try change (255 =? 0)%N with false; cbv iota; lia. }
  assert (LO : 251 * nl <= T).
  { unfold T, nl, count_of. rewrite <- !rect_sum_scale. apply rect_sum_le. intros u v [Hu Hv]. specialize (NO u v ltac:(lia) ltac:(lia)). specialize (GB u v).
    unfold pixel_value in NO at 2. destruct (TW' u v ltac:(lia) ltac:(lia)) as [EB|EB]; rewrite EB in NO |- *; change (0 =? 0)%N with true || change (255 =? 255)%N with true; try change (0 =? 255)%N with false; try change (255 =? 0)%N with false; cbv iota; lia. }
  specialize (NO x y Px Py). unfold pixel_value in NO at 2. specialize (GB x y). rewrite get_pixel_pix in PC by auto. injection PC as PC. f_equal. unfold black_or_white.
  destruct (TW' x y Px Py) as [EB|EB]; rewrite EB in NO, PC; subst c; fold nd nl in HC.
  - destruct (Z.ltb_spec (250 * C) T); [lia|]. destruct (Z.ltb_spec T (5 * C)); [reflexivity|]. destruct (Z.ltb_spec T (pixel_value g x y * C)); [nia|reflexivity].
  - destruct (Z.ltb_spec (250 * C) T); [reflexivity|]. destruct (Z.ltb_spec T (5 * C)); [lia|]. destruct (Z.ltb_spec T (pixel_value g x y * C)); [reflexivity|nia].
Qed.

(** a noisy picture of a page with symbols of at least five pixels per module and ten white pixels around is prepared to the clean page *)
Theorem C71_symbol w h m ox oy v d g : 0 <= w <= u32_max -> 0 <= h <= u32_max -> w * h <= 2 ^ 36 -> 5 <= m -> 1 <= v ->
  10 <= ox -> 10 <= oy -> ox + side_of v * m + 10 <= w -> oy + side_of v * m + 10 <= h ->
  wf_gray g -> noisy (painted w h m ox oy v d) g -> prepare default_prepare g = Ok (painted w h m ox oy v d).
Proof.
  intros Hw Hh WH Hm Hv Hx Hy Ww Wh WG NO. set (b := painted w h m ox oy v d) in *. assert (WB : wf_gray b) by (apply painted_wf; lia).
  assert (SM : 0 <= side_of v * m) by (unfold side_of; nia). pose proof NO as (EW & EH & _). change (gw b) with w in EW. change (gh b) with h in EH.
  destruct (C42_default_partial g WG) as (g' & E); [lia|lia|now rewrite EW, EH|]. rewrite E. f_equal. destruct (C41_black_white _ g g' WG E) as (WG' & EW' & EH' & _).
  apply gray_ext; auto; [change (gw b) with w; congruence|change (gh b) with h; congruence|]. rewrite EW', EH', EW, EH. intros x y Px Py.
  destruct (painted_square w h m ox oy v d x y Hm Hv Hx Hy Ww Wh Px Py) as (c & s & t & PC & S1 & S2 & S3 & T1 & T2 & T3 & SQ). fold b in PC, SQ. rewrite PC.
  apply (C71_pixel b g g' x y c WB WG NO E Px Py PC).
  pose proof (square_count b x y c s t WB Px Py S1 S2 S3 T1 T2 T3 SQ) as N. destruct (C43_default_partial g g' x y WG E ltac:(lia) ltac:(lia)) as [C9 _].
  rewrite EW, EH in C9. change (used_window 5 7 w h x y) with (window_at b x y) in C9. lia.
Qed.

(** so the default decoders give the same results for it as for the clean page *)
Theorem C71_decode {D : Type} (to_gray : D -> gray) (clean img : D) w h m ox oy v d : 0 <= w <= u32_max -> 0 <= h <= u32_max -> w * h <= 2 ^ 36 -> 5 <= m -> 1 <= v ->
  10 <= ox -> 10 <= oy -> ox + side_of v * m + 10 <= w -> oy + side_of v * m + 10 <= h ->
  to_gray clean = painted w h m ox oy v d -> wf_gray (to_gray img) -> noisy (to_gray clean) (to_gray img) ->
  (forall dec, default_decoder to_gray = Ok dec -> decode dec img = decode dec clean) /\
  (forall dec, default_decoder_with_info to_gray = Ok dec -> decode dec img = decode dec clean).
Proof.
  intros Hw Hh WH Hm Hv Hx Hy Ww Wh EC WG NO. rewrite EC in NO.
  assert (E : prepare default_prepare (to_gray img) = prepare default_prepare (to_gray clean)).
  { rewrite EC, C57_symbol by assumption. now apply C71_symbol. }
  split; intros dec HD; injection HD as <-; unfold decode; cbn [d_prepare]; rewrite E; reflexivity.
Qed.

(** inside: any symbol of version 1, each value 2, 3 or 4 off *)
Definition grain (d : matrix) : gray := image_of 125 125 (fun x y =>
  let c := (x - 10) / 5 in let r := (y - 10) / 5 in let e := Z.to_N (4 - (x + y) mod 3) in
  if (0 <=? c) && (c <? side_of 1) && (0 <=? r) && (r <? side_of 1) && d c r then e else (255 - e)%N).
Lemma image_of_value w h f x y : wf_gray (image_of w h f) -> 0 <= x < w -> 0 <= y < h -> pixel_value (image_of w h f) x y = Z.of_N (f x y).
Proof.
  intros W Hx Hy. pose proof (image_of_pixel w h f x y Hx Hy) as G. unfold pixel_value. rewrite get_pixel_pix in G by auto. now injection G as ->.
Qed.
Lemma grain_wf d : wf_gray (grain d).
Proof.
  apply image_of_wf; [unfold u32_max; lia|unfold u32_max; lia|]. intros x y. cbv zeta. pose proof (Z.mod_pos_bound (x + y) 3 ltac:(lia)).
  destruct (_ && d _ _); lia.
Qed.
Example C71_example (d : matrix) : noisy (painted 125 125 5 10 10 1 d) (grain d) /\ prepare default_prepare (grain d) = Ok (painted 125 125 5 10 10 1 d) /\ grain d <> painted 125 125 5 10 10 1 d.
Proof.
  assert (N : noisy (painted 125 125 5 10 10 1 d) (grain d)).
  { split; [reflexivity|]. split; [reflexivity|]. split; intros x y Hx Hy.
    - unfold painted. rewrite image_of_pixel by assumption. cbv zeta. destruct (_ && d _ _); auto.
    - unfold painted, grain. rewrite !image_of_value by (first [assumption|apply painted_wf; unfold u32_max; lia|apply grain_wf]).
      cbv zeta. pose proof (Z.mod_pos_bound (x + y) 3 ltac:(lia)). destruct (_ && d _ _); lia. }
  split; [exact N|]. split; [apply C71_symbol; try exact N; try apply grain_wf; unfold u32_max, side_of; lia|].
  intros E. apply (f_equal (fun g => get_pixel g 0 0)) in E. unfold grain, painted in E. rewrite !image_of_pixel in E by lia. vm_compute in E. discriminate.
Qed.
