(** Uneven light: C79. *)
From Coq Require Import NArith ZArith List Lia Bool.
From Verif.Model Require Import Prepare Detect Extract Pipeline.
From Verif.Spec Require Import Window Symbol Drawing.
From Verif.Proofs Require Import BaseP PrepareP.
From Verif.Props Require Import PrepareProps ExtractProps CleanProps NoiseProps.
Import ListNotations.
Local Open Scope Z_scope.

(** [g] shows the black and white drawing [b] *)
Definition depicts (b g : gray) : Prop := gw g = gw b /\ gh g = gh b /\
  (forall x y, 0 <= x < gw b -> 0 <= y < gh b -> get_pixel b x y = Ok 0%N \/ get_pixel b x y = Ok 255%N).
(** there the dark pixels of the drawing have values between d1 and d2, the light ones between l1 and l2 *)
Definition tones_at (b g : gray) (d1 d2 l1 l2 u v : Z) : Prop :=
  (get_pixel b u v = Ok 0%N -> d1 <= pixel_value g u v <= d2) /\ (get_pixel b u v = Ok 255%N -> l1 <= pixel_value g u v <= l2).
Definition tones (b g : gray) (x y d1 d2 l1 l2 : Z) : Prop :=
  tones_at b g d1 d2 l1 l2 x y /\ forall u v, inside (window_at b x y) u v -> tones_at b g d1 d2 l1 l2 u v.
(** nd dark and nl light pixels: how much the tones may vary compared with the contrast l1 - d2 *)
Definition light_wins (nd nl d1 d2 l1 l2 : Z) : Prop := 250 * (nd + nl) < d1 * nd + l1 * nl \/ 5 * (nd + nl) <= d1 * nd + l1 * nl /\ (l2 - l1) * nl < (l1 - d2) * nd.
Definition dark_wins (nd nl d1 d2 l1 l2 : Z) : Prop := d2 * nd + l2 * nl < 5 * (nd + nl) \/ d2 * nd + l2 * nl <= 250 * (nd + nl) /\ (d2 - d1) * nd <= (l1 - d2) * nl.

Theorem C79_pixel b g g' x y c d1 d2 l1 l2 : wf_gray b -> wf_gray g -> depicts b g -> prepare default_prepare g = Ok g' -> 0 <= x < gw b -> 0 <= y < gh b ->
  get_pixel b x y = Ok c -> tones b g x y d1 d2 l1 l2 ->
  let nd := count_of b (window_at b x y) 0 in let nl := count_of b (window_at b x y) 255 in
  (c = 255%N -> light_wins nd nl d1 d2 l1 l2) -> (c = 0%N -> dark_wins nd nl d1 d2 l1 l2) -> get_pixel g' x y = Ok c.
Proof.
  intros WB WG (EW & EH & TW) E Px Py PC [TP TN]. cbv zeta.
  pose proof (window_inside g g' x y WG E ltac:(lia) ltac:(lia)) as S. destruct (C43_default_partial g g' x y WG E ltac:(lia) ltac:(lia)) as [C0 ->].
  fold (window_at g x y) in C0 |- *. unfold window_at in S, C0, TN |- *. rewrite EW, EH in *. set (r := used_window 5 7 (gw b) (gh b) x y) in *. cbv zeta in S.
  set (C := rect_count r) in *. set (T := rect_sum r (pixel_value g)).
  assert (TW' : forall u v, 0 <= u < gw b -> 0 <= v < gh b -> pix b u v = 0%N /\ get_pixel b u v = Ok 0%N \/ pix b u v = 255%N /\ get_pixel b u v = Ok 255%N).
  { intros u v Hu Hv. specialize (TW u v Hu Hv). rewrite get_pixel_pix in TW |- * by auto. destruct TW as [[= H]|[= H]]; rewrite H; auto. }
  set (nd := count_of b r 0). set (nl := count_of b r 255).
  assert (EC : nd + nl = C).
  { unfold nd, nl, C, count_of. rewrite <- rect_sum_plus. rewrite <- rect_sum_one by lia. apply rect_sum_ext. intros u v [Hu Hv].
    destruct (TW' u v ltac:(lia) ltac:(lia)) as [[-> _]|[-> _]]; reflexivity. }
  assert (UP : T <= d2 * nd + l2 * nl).
  { unfold T, nd, nl, count_of. rewrite <- !rect_sum_scale, <- rect_sum_plus. apply rect_sum_le. intros u v I. pose proof (TN u v I) as [TD TL]. destruct I as [Hu Hv].
    destruct (TW' u v ltac:(lia) ltac:(lia)) as [[-> G]|[-> G]]; [specialize (TD G)|specialize (TL G)]; rewrite N.eqb_refl; change (0 =? 255)%N with false || change (255 =? 0)%N with false; cbv iota; lia. }
  assert (LO : d1 * nd + l1 * nl <= T).
  { unfold T, nd, nl, count_of. rewrite <- !rect_sum_scale, <- rect_sum_plus. apply rect_sum_le. intros u v I. pose proof (TN u v I) as [TD TL]. destruct I as [Hu Hv].
    destruct (TW' u v ltac:(lia) ltac:(lia)) as [[-> G]|[-> G]]; [specialize (TD G)|specialize (TL G)]; rewrite N.eqb_refl; change (0 =? 255)%N with false || change (255 =? 0)%N with false; cbv iota; lia. }
  clearbody nd nl T C. intros HL HD. f_equal. unfold black_or_white. destruct TP as [TD TL].
  destruct (TW x y Px Py) as [G|G]; rewrite PC in G; injection G as ->.
  - specialize (TD PC). destruct (HD eq_refl) as [H|[H1 H2]].
    + destruct (Z.ltb_spec (250 * C) T); [lia|]. destruct (Z.ltb_spec T (5 * C)); [reflexivity|lia].
    + destruct (Z.ltb_spec (250 * C) T); [lia|]. destruct (Z.ltb_spec T (5 * C)); [reflexivity|].
      destruct (Z.ltb_spec T (pixel_value g x y * C)) as [L|L]; [|reflexivity]. assert (pixel_value g x y * C <= d2 * C) by (apply Z.mul_le_mono_nonneg_r; lia). lia.
  - specialize (TL PC). destruct (HL eq_refl) as [H|[H1 H2]].
    + destruct (Z.ltb_spec (250 * C) T); [reflexivity|lia].
    + destruct (Z.ltb_spec (250 * C) T); [reflexivity|]. destruct (Z.ltb_spec T (5 * C)); [lia|].
      destruct (Z.ltb_spec T (pixel_value g x y * C)) as [L|L]; [reflexivity|]. assert (l1 * C <= pixel_value g x y * C) by (apply Z.mul_le_mono_nonneg_r; lia). lia.
Qed.

(** If this is so everywhere, the drawing comes out, and decoders cannot tell the difference. *)
Definition well_lit (b g : gray) : Prop := forall x y, 0 <= x < gw b -> 0 <= y < gh b -> exists d1 d2 l1 l2, tones b g x y d1 d2 l1 l2 /\
  let nd := count_of b (window_at b x y) 0 in let nl := count_of b (window_at b x y) 255 in
  (get_pixel b x y = Ok 255%N -> light_wins nd nl d1 d2 l1 l2) /\ (get_pixel b x y = Ok 0%N -> dark_wins nd nl d1 d2 l1 l2).

Theorem C79_image b g g' : wf_gray b -> wf_gray g -> depicts b g -> well_lit b g -> prepare default_prepare g = Ok g' -> g' = b.
Proof.
  intros WB WG HS HL E. pose proof HS as (EW & EH & TW). destruct (C41_black_white _ g g' WG E) as (WG' & EW' & EH' & _).
  apply gray_ext; auto; [congruence|congruence|]. rewrite EW', EH', EW, EH. intros x y Px Py.
  destruct (HL x y Px Py) as (d1 & d2 & l1 & l2 & TN & H1 & H2). destruct (TW x y Px Py) as [G|G]; rewrite G.
  - apply (C79_pixel b g g' x y 0 d1 d2 l1 l2); auto. discriminate.
  - apply (C79_pixel b g g' x y 255 d1 d2 l1 l2); auto. discriminate.
Qed.

(** In particular if both colours take at least one k-th of every window, the tones of each vary by less than one (k-1)-th
    of the contrast, and they stay away from the ends of the scale. *)
Theorem C79_mixed b g g' x y c d1 d2 l1 l2 k : wf_gray b -> wf_gray g -> depicts b g -> prepare default_prepare g = Ok g' -> 0 <= x < gw b -> 0 <= y < gh b ->
  get_pixel b x y = Ok c -> tones b g x y d1 d2 l1 l2 -> 1 < k -> 0 <= d1 <= d2 -> d2 < l1 <= l2 -> l2 <= 255 ->
  (forall c', c' = 0%N \/ c' = 255%N -> rect_count (window_at b x y) <= k * count_of b (window_at b x y) c') ->
  (l2 - l1) * (k - 1) < l1 - d2 -> (d2 - d1) * (k - 1) <= l1 - d2 -> 5 * k <= l1 -> d2 <= 255 - 5 * k -> get_pixel g' x y = Ok c.
Proof.
  intros WB WG HS E Px Py PC TN HK HD HL L2 MX S1 S2 S3 S4. pose proof HS as (EW & EH & TW).
  pose proof (window_inside g g' x y WG E ltac:(lia) ltac:(lia)) as S. unfold window_at in S. rewrite EW, EH in S. fold (window_at b x y) in S. set (r := window_at b x y) in *. cbv zeta in S.
  assert (EC : count_of b r 0 + count_of b r 255 = rect_count r).
  { unfold count_of. rewrite <- rect_sum_plus. rewrite <- rect_sum_one by lia. apply rect_sum_ext. intros u v [Hu Hv].
    specialize (TW u v ltac:(lia) ltac:(lia)). rewrite get_pixel_pix in TW by (assumption || lia). destruct TW as [[= ->]|[= ->]]; reflexivity. }
  assert (CP : 0 < rect_count r) by (unfold rect_count; nia).
  pose proof (MX 0%N (or_introl eq_refl)) as M0. pose proof (MX 255%N (or_intror eq_refl)) as M1. rewrite <- EC in *.
  apply (C79_pixel b g g' x y c d1 d2 l1 l2); auto; fold r; set (nd := count_of b r 0) in *; set (nl := count_of b r 255) in *; clearbody nd nl; intros _; right.
  - assert (P : 0 < nd /\ 0 < nl) by nia. split.
    + assert (5 * (nd + nl) <= 5 * (k * nl)) by lia. assert (5 * k * nl <= l1 * nl) by (apply Z.mul_le_mono_nonneg_r; lia). assert (0 <= d1 * nd) by (apply Z.mul_nonneg_nonneg; lia). lia.
    + assert ((l2 - l1) * nl <= (l2 - l1) * ((k - 1) * nd)) by (apply Z.mul_le_mono_nonneg_l; lia).
      assert ((l2 - l1) * (k - 1) * nd < (l1 - d2) * nd) by (apply Z.mul_lt_mono_pos_r; lia). lia.
  - assert (P : 0 < nd /\ 0 < nl) by nia. split.
    + assert (l2 * nl <= 255 * nl) by (apply Z.mul_le_mono_nonneg_r; lia). assert (d2 * nd <= (255 - 5 * k) * nd) by (apply Z.mul_le_mono_nonneg_r; lia). lia.
    + assert ((d2 - d1) * nd <= (d2 - d1) * ((k - 1) * nl)) by (apply Z.mul_le_mono_nonneg_l; lia).
      assert ((d2 - d1) * (k - 1) * nl <= (l1 - d2) * nl) by (apply Z.mul_le_mono_nonneg_r; lia). lia.
Qed.

Theorem C79_decode {D : Type} (to_gray : D -> gray) (clean img : D) : wf_gray (to_gray clean) -> wf_gray (to_gray img) ->
  prepare default_prepare (to_gray clean) = Ok (to_gray clean) ->
  depicts (to_gray clean) (to_gray img) -> well_lit (to_gray clean) (to_gray img) ->
  (forall dec, default_decoder to_gray = Ok dec -> decode dec img = decode dec clean) /\
  (forall dec, default_decoder_with_info to_gray = Ok dec -> decode dec img = decode dec clean).
Proof.
  intros WB WG EP HS HL.
  assert (E : prepare default_prepare (to_gray img) = prepare default_prepare (to_gray clean)).
  { rewrite EP. pose proof HS as (EW & EH & _). assert (K : exists g', prepare default_prepare (to_gray img) = Ok g').
    { apply (proj2 (C42_accepted_partial default_prepare _ WG ltac:(cbn; lia) ltac:(cbn; lia))). rewrite EW, EH.
      apply (proj1 (C42_accepted_partial default_prepare _ WB ltac:(cbn; lia) ltac:(cbn; lia))). eauto. }
    destruct K as (g' & E). rewrite E. f_equal. eapply C79_image; eauto. }
  split; intros dec HD; injection HD as <-; unfold decode; cbn [d_prepare]; rewrite E; reflexivity.
Qed.

(** inside: a finder pattern whose right side is in the dusk *)
Definition ringed (x y : Z) : bool := let i := x / 5 - 1 in let j := y / 5 - 1 in
  (0 <=? i) && (i <=? 6) && (0 <=? j) && (j <=? 6) &&
  ((i =? 0) || (i =? 6) || (j =? 0) || (j =? 6) || (2 <=? i) && (i <=? 4) && (2 <=? j) && (j <=? 4)).
Definition ringed_picture : gray := image_of 45 45 (fun x y => if ringed x y then 0%N else 255%N).
Definition dusk : gray := image_of 45 45 (fun x y => Z.to_N (if ringed x y then (240 - Z.max 0 (Z.min 44 x)) / 3 else 240 - Z.max 0 (Z.min 44 x))).
Lemma ringed_wf : wf_gray ringed_picture.
Proof. apply image_of_wf; [unfold u32_max; lia|unfold u32_max; lia|]. intros x y. destruct (ringed x y); lia. Qed.
Lemma dusk_wf : wf_gray dusk.
Proof.
  apply image_of_wf; [unfold u32_max; lia|unfold u32_max; lia|]. intros x y. destruct (ringed x y); [|lia].
  pose proof (Z.div_le_upper_bound (240 - Z.max 0 (Z.min 44 x)) 3 80 ltac:(lia) ltac:(lia)). pose proof (Z.div_pos (240 - Z.max 0 (Z.min 44 x)) 3 ltac:(lia) ltac:(lia)). lia.
Qed.
Definition counts_at (i j : Z) : Z * Z := let r := used_window 5 7 45 45 (5 * i) (5 * j) in
  (rect_sum r (fun x y => if ringed x y then 1 else 0), rect_sum r (fun x y => if ringed x y then 0 else 1)).
Definition counts_fit (i j : Z) : bool := let r := used_window 5 7 45 45 (5 * i) (5 * j) in let '(nd, nl) := counts_at i j in
  let l1 := 240 - (rx1 r - 1) in let l2 := 240 - rx0 r in let d1 := l1 / 3 in let d2 := l2 / 3 in
  (rx0 r <=? 5 * i) && (5 * i + 5 <=? rx1 r) && (5 * (nd + nl) <=? d1 * nd + l1 * nl) && ((l2 - l1) * nl <? (l1 - d2) * nd) &&
  (d2 * nd + l2 * nl <=? 250 * (nd + nl)) && ((d2 - d1) * nd <=? (l1 - d2) * nl).
Lemma dusk_counts : forallb (fun i => forallb (fun j => counts_fit i j) [0; 1; 2; 3; 4; 5; 6; 7; 8]) [0; 1; 2; 3; 4; 5; 6; 7; 8] = true.
Proof. vm_compute. reflexivity. Qed.
Example C79_example : depicts ringed_picture dusk /\ well_lit ringed_picture dusk /\ prepare default_prepare dusk = Ok ringed_picture.
Proof.
  assert (B : forall x y, 0 <= x < 45 -> 0 <= y < 45 -> get_pixel ringed_picture x y = Ok (if ringed x y then 0%N else 255%N)) by (intros; apply image_of_pixel; assumption).
  assert (V : forall x y, 0 <= x < 45 -> 0 <= y < 45 -> pixel_value dusk x y = if ringed x y then (240 - x) / 3 else 240 - x).
  { intros x y Hx Hy. unfold dusk. rewrite image_of_value by (exact dusk_wf || assumption). replace (Z.max 0 (Z.min 44 x)) with x by lia.
    destruct (ringed x y); apply Z2N.id; [apply Z.div_pos; lia|lia]. }
  assert (SH : depicts ringed_picture dusk).
  { split; [reflexivity|]. split; [reflexivity|]. intros x y Hx Hy. rewrite B by assumption. destruct (ringed x y); auto. }
  assert (WL : well_lit ringed_picture dusk).
  { intros x y Hx Hy. change (gw ringed_picture) with 45 in Hx. change (gh ringed_picture) with 45 in Hy.
    assert (I : In (x / 5) [0; 1; 2; 3; 4; 5; 6; 7; 8]) by (pose proof (Z.div_mod x 5 ltac:(lia)); pose proof (Z.mod_pos_bound x 5 ltac:(lia)); cbn [In]; lia).
    assert (J : In (y / 5) [0; 1; 2; 3; 4; 5; 6; 7; 8]) by (pose proof (Z.div_mod y 5 ltac:(lia)); pose proof (Z.mod_pos_bound y 5 ltac:(lia)); cbn [In]; lia).
    pose proof dusk_counts as K. rewrite forallb_forall in K. specialize (K _ I). rewrite forallb_forall in K. specialize (K _ J).
    unfold counts_fit, counts_at in K. assert (EWN : used_window 5 7 45 45 (5 * (x / 5)) (5 * (y / 5)) = window_at ringed_picture x y).
    { unfold window_at, used_window. rewrite (Z.mul_comm 5 (x / 5)), (Z.mul_comm 5 (y / 5)), !Z.div_mul by lia. reflexivity. }
    rewrite EWN in K. set (r := window_at ringed_picture x y) in *. cbv zeta in K. rewrite !andb_true_iff, !Z.leb_le, Z.ltb_lt in K.
    assert (RB : 0 <= rx0 r /\ rx1 r <= 45 /\ 0 <= ry0 r /\ ry1 r <= 45) by (unfold r, window_at, used_window; cbn [rx0 rx1 ry0 ry1]; change (gw ringed_picture) with 45; change (gh ringed_picture) with 45; change (45 - 45 mod 5) with 45; lia).
    assert (ND : count_of ringed_picture r 0 = rect_sum r (fun x y => if ringed x y then 1 else 0)).
    { unfold count_of. apply rect_sum_ext. intros u v [Hu Hv]. specialize (B u v ltac:(lia) ltac:(lia)). rewrite get_pixel_pix in B by (exact ringed_wf || change (gw ringed_picture) with 45 || change (gh ringed_picture) with 45; lia).
      injection B as ->. destruct (ringed u v); reflexivity. }
    assert (NL : count_of ringed_picture r 255 = rect_sum r (fun x y => if ringed x y then 0 else 1)).
    { unfold count_of. apply rect_sum_ext. intros u v [Hu Hv]. specialize (B u v ltac:(lia) ltac:(lia)). rewrite get_pixel_pix in B by (exact ringed_wf || change (gw ringed_picture) with 45 || change (gh ringed_picture) with 45; lia).
      injection B as ->. destruct (ringed u v); reflexivity. }
    pose proof (Z.div_mod x 5 ltac:(lia)). pose proof (Z.mod_pos_bound x 5 ltac:(lia)).
    exists ((240 - (rx1 r - 1)) / 3), ((240 - rx0 r) / 3), (240 - (rx1 r - 1)), (240 - rx0 r). split.
    - assert (TA : forall u v, rx0 r <= u < rx1 r -> 0 <= v < 45 -> tones_at ringed_picture dusk ((240 - (rx1 r - 1)) / 3) ((240 - rx0 r) / 3) (240 - (rx1 r - 1)) (240 - rx0 r) u v).
      { intros u v Hu Hv. unfold tones_at. rewrite B, V by lia. destruct (ringed u v); (split; [intros Q|intros Q]); try discriminate; [|lia].
        split; apply Z.div_le_mono; lia. }
      split; [apply TA; lia|]. intros u v [Hu Hv]. fold r in Hu, Hv. apply TA; lia.
    - cbv zeta. rewrite ND, NL. split; intros _; right; tauto. }
  split; [exact SH|]. split; [exact WL|].
  destruct (C42_default_partial dusk dusk_wf) as (g' & E); [change (gw dusk) with 45; lia|change (gh dusk) with 45; lia|change (gw dusk) with 45; change (gh dusk) with 45; lia|].
  rewrite E. f_equal. exact (C79_image _ _ _ ringed_wf dusk_wf SH WL E).
Qed.
