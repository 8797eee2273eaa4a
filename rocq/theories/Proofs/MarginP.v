(** A finder pattern with nothing but one module of white around it is found exactly. *)
From Coq Require Import NArith ZArith Reals List Lia Lra Bool Arith Psatz.
From Verif.Model Require Import Prepare Detect.
From Flocq Require Import Core.
From Verif.Spec Require Import Window Finder Drawing Slant Margin.
From Verif.Proofs Require Import BaseP PrepareP FloatP ApproxP DetectP ExtractP AlignP RefineP RefineF ScanP CrossP CrossScan SlantP SlantF StraightP.
Import ListNotations.
Local Open Scope Z_scope.

Section Finder.
Context (g : gray) (m fx fy : Z).
Context (WF : wf_gray g) (HF : finder_apart (pixel g) m fx fy) (Hm : 2 <= m).
Context (WX : gw g <= 2 ^ 26) (WY : gh g <= 2 ^ 26).

Lemma apart_pixel r c u w : 0 <= r < 7 -> 0 <= c < 7 -> c * m <= u < c * m + m -> r * m <= w < r * m + m ->
  get_pixel g (fx + u) (fy + w) = Ok (colour (finder_dark r c)).
Proof.
  intros Hr Hc Hu Hw. destruct HF as ((_ & _ & _ & D) & _). apply pixel_get.
  replace (fx + u) with (fx + c * m + (u - c * m)) by lia. replace (fy + w) with (fy + r * m + (w - r * m)) by lia.
  unfold colour. apply D; lia.
Qed.
Lemma apart_at u w : 0 <= u < 7 * m -> 0 <= w < 7 * m ->
  (inner m u /\ inner m w \/ ~ (middling m u /\ middling m w) -> get_pixel g (fx + u) (fy + w) = Ok 0%N) /\
  (middling m u /\ middling m w -> ~ (inner m u /\ inner m w) -> get_pixel g (fx + u) (fy + w) = Ok 255%N).
Proof.
  intros Hu Hw. destruct (module_of m Hm u Hu) as (c & Hc & Hu'). destruct (module_of m Hm w Hw) as (r & Hr & Hw').
  rewrite (apart_pixel r c) by assumption. unfold inner, middling.
  assert (C : c = 0 \/ c = 1 \/ c = 2 \/ c = 3 \/ c = 4 \/ c = 5 \/ c = 6) by lia.
  assert (R : r = 0 \/ r = 1 \/ r = 2 \/ r = 3 \/ r = 4 \/ r = 5 \/ r = 6) by lia.
  clear Hr Hc. destruct C as [-> | [-> | [-> | [-> | [-> | [-> | ->]]]]]]; destruct R as [-> | [-> | [-> | [-> | [-> | [-> | ->]]]]]];
    cbv [finder_dark colour Z.max Z.abs Z.sub Z.add Z.opp Pos.sub Pos.add Z.pos_sub Pos.compare Pos.compare_cont Z.compare Z.eqb Pos.eqb negb Pos.pred_double Pos.succ Z.double Z.succ_double Z.pred_double Pos.sub_mask];
    (split; [intros K; first [reflexivity|exfalso; lia]|intros K1 K2; first [reflexivity|exfalso; lia]]).
Qed.
Lemma apart_bounds : 1 <= fx /\ 1 <= fy /\ fx + 7 * m < gw g /\ fy + 7 * m < gh g.
Proof. destruct HF as (_ & X & Y & P & _). apply pixel_get in P. apply get_pixel_in in P; [lia|exact WF|lia|lia]. Qed.
Lemma apart_top : m <= 10000000.
Proof. pose proof apart_bounds. lia. Qed.
Lemma apart_ring x y : fx - m <= x < fx + 8 * m -> fy - m <= y < fy + 8 * m -> ~ (fx <= x < fx + 7 * m /\ fy <= y < fy + 7 * m) ->
  0 <= x < gw g -> 0 <= y < gh g -> get_pixel g x y = Ok 255%N.
Proof.
  intros H1 H2 H3 Gx Gy. pose proof (get_pixel_pix g x y WF Gx Gy) as E. rewrite E. f_equal. destruct HF as (_ & _ & _ & _ & R). apply (R x y); try assumption; try lia.
  unfold pixel. now rewrite E.
Qed.

(** *** the vertical line *)
Lemma apart_vertical finder ms : fin ms (IZR m) -> hf (px finder) (2 * fx + 7 * m) -> py finder = of_Z (fy + 2 * m) ->
  exists ms', fin ms' (IZR m) /\
  refine_vertical g finder ms = Ok (Some (FP (Pt (of_Z (fx + (7 * m + 1) / 2)) (of_Z (fy + 7 * m - 1))) ms' (est_of (7 * m)))).
Proof.
  intros FM FX FY. pose proof apart_bounds as B. pose proof apart_top as T.
  exists (fdiv (fadd ms (est_of (7 * m))) (of_Z 2)). split; [apply avg_exact; [lia|exact FM|apply est_exact; lia]|].
  unfold refine_vertical. rewrite FY.
  assert (M5 : hf (fmul (of_Z 5) ms) (5 * (2 * m))) by (apply hf_mul; [apply fin_of_Z; lia|now apply fin_hf|unfold hb; lia]).
  assert (Y : hf (of_Z (fy + 2 * m)) (2 * (fy + 2 * m))) by (apply hf_Z; unfold hb; lia).
  rewrite (hf_round _ _ FX) by (unfold hb; lia).
  rewrite (hf_round _ _ (hf_max0 _ _ (hf_sub _ _ _ _ Y M5 ltac:(unfold hb; lia)))) by (unfold hb; lia).
  rewrite (hf_round _ _ (hf_add _ _ _ _ Y M5 ltac:(unfold hb; lia))) by (unfold hb; lia).
  set (xc := (2 * fx + 7 * m + 1) / 2). assert (XC : xc = fx + (7 * m + 1) / 2).
  { unfold xc. replace (2 * fx + 7 * m + 1) with (7 * m + 1 + fx * 2) by lia. rewrite Z.div_add by lia. lia. }
  rewrite <- XC. assert (KC : fx + 3 * m <= xc < fx + 4 * m) by (pose proof (halves (7 * m + 1)); lia).
  set (s := (Z.max (2 * (fy + 2 * m) - 5 * (2 * m)) 0 + 1) / 2). assert (S : s = Z.max (fy - 3 * m) 0).
  { unfold s. pose proof (halves (Z.max (2 * (fy + 2 * m) - 5 * (2 * m)) 0 + 1)). lia. }
  replace ((2 * (fy + 2 * m) + 5 * (2 * m) + 1) / 2) with (fy + 7 * m).
  2:{ apply Z.div_unique with 1; lia. }
  rewrite (Z.min_l (fy + 7 * m)) by lia.
  pose proof (crossing_cut g ms (fun y => (xc, y)) s (fy + 7 * m) ltac:(lia) ltac:(lia)) as L. cbn [fst snd] in L.
  specialize (L ltac:(intros t Ht; eexists; apply get_pixel_pix; [exact WF|lia|lia]) (fy - m) fy (fy + m) (fy + 2 * m) (fy + 5 * m) (fy + 6 * m)).
  replace (fy + 7 * m - fy) with (7 * m) in L by lia. cbv zeta in L. apply L.
  - intros t Ht. cbn [fst snd]. apply apart_ring; lia.
  - intros t Ht. cbn [fst snd]. replace xc with (fx + (xc - fx)) by lia. replace t with (fy + (t - fy)) by lia. apply apart_at; unfold inner, middling; lia.
  - intros t Ht. cbn [fst snd]. replace xc with (fx + (xc - fx)) by lia. replace t with (fy + (t - fy)) by lia. apply apart_at; unfold inner, middling; lia.
  - intros t Ht. cbn [fst snd]. replace xc with (fx + (xc - fx)) by lia. replace t with (fy + (t - fy)) by lia. apply apart_at; unfold inner, middling; lia.
  - intros t Ht. cbn [fst snd]. replace xc with (fx + (xc - fx)) by lia. replace t with (fy + (t - fy)) by lia. apply apart_at; unfold inner, middling; lia.
  - intros t Ht. cbn [fst snd]. replace xc with (fx + (xc - fx)) by lia. replace t with (fy + (t - fy)) by lia. apply apart_at; unfold inner, middling; lia.
  - unfold about_right, finder_runs, stands_for. cbv zeta. lia.
  - apply too_small with (IZR m); [exact FM|unfold top; split; [apply IZR_le; lia|apply Rle_trans with 10000000%R; [apply IZR_le; lia|lra]]|lia|].
    apply Rle_trans with (IZR (5 * m)); [apply IZR_le; lia|]. rewrite mult_IZR. assert (2 <= IZR m)%R by (apply IZR_le; lia). lra.
  - apply (diff_same ms (est_of (7 * m)) m); [lia|exact FM|apply est_exact; lia].
Qed.

(** *** the horizontal line *)
Lemma apart_horizontal finder ms : fin ms (IZR m) -> hf (px finder) (2 * (fx + (7 * m + 1) / 2)) -> hf (py finder) (2 * fy + 7 * m - 2) ->
  exists ms', fin ms' (IZR m) /\
  refine_horizontal g finder ms = Ok (Some (FP (Pt (of_Z (fx + 7 * m)) (of_Z (fy + (7 * m - 1) / 2))) ms' (est_of (7 * m)))).
Proof.
  intros FM FX FY. pose proof apart_bounds as B. pose proof apart_top as T.
  exists (fdiv (fadd ms (est_of (7 * m))) (of_Z 2)). split; [apply avg_exact; [lia|exact FM|apply est_exact; lia]|].
  unfold refine_horizontal.
  assert (M5 : hf (fmul (of_Z 5) ms) (5 * (2 * m))) by (apply hf_mul; [apply fin_of_Z; lia|now apply fin_hf|unfold hb; lia]).
  pose proof (halves (7 * m + 1)) as XC. set (xh := (7 * m + 1) / 2) in *.
  rewrite (hf_round _ _ FY) by (unfold hb; lia).
  rewrite (hf_round _ _ (hf_max0 _ _ (hf_sub _ _ _ _ FX M5 ltac:(unfold hb; lia)))) by (unfold hb; lia).
  rewrite (hf_round _ _ (hf_add _ _ _ _ FX M5 ltac:(unfold hb; lia))) by (unfold hb; lia).
  set (yr := (2 * fy + 7 * m - 2 + 1) / 2). assert (YR : yr = fy + (7 * m - 1) / 2).
  { unfold yr. replace (2 * fy + 7 * m - 2 + 1) with (7 * m - 1 + fy * 2) by lia. rewrite Z.div_add by lia. lia. }
  rewrite <- YR. assert (KC : fy + 3 * m <= yr < fy + 4 * m) by (pose proof (halves (7 * m - 1)); lia).
  set (s := (Z.max (2 * (fx + xh) - 5 * (2 * m)) 0 + 1) / 2). assert (S : s = Z.max (fx + xh - 5 * m) 0).
  { unfold s. pose proof (halves (Z.max (2 * (fx + xh) - 5 * (2 * m)) 0 + 1)). lia. }
  replace ((2 * (fx + xh) + 5 * (2 * m) + 1) / 2) with (fx + xh + 5 * m).
  2:{ pose proof (halves (2 * (fx + xh) + 5 * (2 * m) + 1)). lia. }
  set (e := Z.min (fx + xh + 5 * m) (gw g)). assert (E : fx + 7 * m < e <= gw g) by (unfold e; lia). assert (E' : e <= fx + 9 * m) by (unfold e; lia). clearbody e s.
  pose proof (crossing g ms false (fun x => (x, yr)) s e ltac:(lia) ltac:(lia)) as L. cbn [fst snd] in L.
  specialize (L ltac:(intros t Ht; eexists; apply get_pixel_pix; [exact WF|lia|lia]) (fx - m) fx (fx + m) (fx + 2 * m) (fx + 5 * m) (fx + 6 * m) (fx + 7 * m)).
  replace (fx + 7 * m - fx) with (7 * m) in L by lia. cbv zeta in L. destruct L as [[N _]|R]; [| | | |discriminate|exact R].
  - unfold borders. repeat split; intros t Ht; cbn [fst snd]; try (replace yr with (fy + (yr - fy)) by lia; replace t with (fx + (t - fx)) by lia; apply apart_at; unfold inner, middling; lia); apply apart_ring; lia.
  - unfold about_right, finder_runs, stands_for. cbv zeta. lia.
  - right. apply too_small with (IZR m); [exact FM|unfold top; split; [apply IZR_le; lia|apply Rle_trans with 10000000%R; [apply IZR_le; lia|lra]]|lia|].
    apply Rle_trans with (IZR (5 * m)); [apply IZR_le; lia|]. rewrite mult_IZR. assert (2 <= IZR m)%R by (apply IZR_le; lia). lra.
  - rewrite (diff_same ms (est_of (7 * m)) m); [reflexivity|lia|exact FM|apply est_exact; lia].
Qed.

(** *** the diagonal *)
Lemma apart_starts finder side : let yr := fy + (7 * m - 1) / 2 in
  hf (px finder) (2 * fx + 7 * m) -> hf (py finder) (2 * yr) -> hf side (10 * m) ->
  exists dl s, (dl = 0 \/ dl = 1) /\ - 2 * m <= s <= - dl /\ 0 <= fx + dl + s /\ 0 <= fy + s /\ s < 0 /\
    round_u32 (fst (diagonal_start finder side)) = fx + dl + s /\ round_u32 (snd (diagonal_start finder side)) = fy + s.
Proof.
  intros yr FX FY FS. pose proof apart_bounds as B. pose proof apart_top as T.
  pose proof (halves (7 * m - 1)) as Y. set (yh := (7 * m - 1) / 2) in *. unfold yr in *. clear yr.
  assert (Z0 : round_u32 (of_Z 0) = 0) by (apply round_u32_of_Z; unfold u32_max; lia).
  unfold diagonal_start. rewrite (hf_lt _ _ _ _ FX FS), (hf_lt _ _ _ _ FY FS), (hf_lt _ _ _ _ FX FY).
  pose proof (hf_sub _ _ _ _ FX FY ltac:(unfold hb; lia)) as XY. pose proof (hf_sub _ _ _ _ FY FX ltac:(unfold hb; lia)) as YX.
  pose proof (hf_sub _ _ _ _ FX FS ltac:(unfold hb; lia)) as XS. pose proof (hf_sub _ _ _ _ FY FS ltac:(unfold hb; lia)) as YS.
  assert (DX : 2 * (fy + yh) <= 2 * fx + 7 * m -> exists dl s, (dl = 0 \/ dl = 1) /\ s = - fy /\ 0 <= fx + dl + s /\
     round_u32 (fsub (px finder) (py finder)) = fx + dl + s).
  { intros L. exists 1, (- fy). rewrite (hf_round _ _ XY) by (unfold hb; lia). pose proof (halves (2 * fx + 7 * m - 2 * (fy + yh) + 1)). lia. }
  assert (DY : 2 * fx + 7 * m <= 2 * (fy + yh) -> exists dl s, (dl = 0 \/ dl = 1) /\ s = - fx - dl /\ 0 <= fy + s /\
     round_u32 (fsub (py finder) (px finder)) = fy + s).
  { intros L. rewrite (hf_round _ _ YX) by (unfold hb; lia). pose proof (halves (2 * (fy + yh) - (2 * fx + 7 * m) + 1)).
    exists (7 * m - 1 - 2 * yh), (- fx - (7 * m - 1 - 2 * yh)). lia. }
  destruct (Z.ltb_spec (2 * fx + 7 * m) (10 * m)); destruct (Z.ltb_spec (2 * (fy + yh)) (10 * m)); cbn [andb fst snd].
  - destruct (Z.ltb_spec (2 * fx + 7 * m) (2 * (fy + yh))); cbn [fst snd].
    + destruct DY as (dl & s & K1 & K2 & K3 & ->); [lia|]. exists dl, s. rewrite Z0. lia.
    + destruct DX as (dl & s & K1 & K2 & K3 & ->); [lia|]. exists dl, s. rewrite Z0. lia.
  - destruct DY as (dl & s & K1 & K2 & K3 & ->); [lia|]. exists dl, s. rewrite Z0. lia.
  - destruct DX as (dl & s & K1 & K2 & K3 & ->); [lia|]. exists dl, s. rewrite Z0. lia.
  - rewrite (hf_round _ _ XS), (hf_round _ _ YS) by (unfold hb; lia).
    pose proof (halves (2 * fx + 7 * m - 10 * m + 1)). pose proof (halves (2 * (fy + yh) - 10 * m + 1)).
    exists 1, (yh - 5 * m). lia.
Qed.

Lemma apart_diagonal finder ms : fin ms (IZR m) -> hf (px finder) (2 * fx + 7 * m) -> hf (py finder) (2 * (fy + (7 * m - 1) / 2)) ->
  exists d, refine_diagonal g finder ms = Ok (Some d).
Proof.
  intros FM FX FY. pose proof apart_bounds as B. pose proof apart_top as T.
  assert (M5 : hf (fmul (of_Z 5) ms) (10 * m)).
  { replace (10 * m) with (5 * (2 * m)) by lia. apply hf_mul; [apply fin_of_Z; lia|now apply fin_hf|unfold hb; lia]. }
  destruct (apart_starts finder (fmul (of_Z 5) ms) FX FY M5) as (dl & s & DL & HS & SX & SY & SN & RX & RY).
  unfold refine_diagonal. destruct (diagonal_start finder (fmul (of_Z 5) ms)) as [sx sy]. cbn [fst snd] in RX, RY. rewrite RX, RY.
  pose proof (halves (7 * m - 1)) as Y. set (yh := (7 * m - 1) / 2) in *.
  rewrite (hf_round _ _ (hf_add _ _ _ _ FX M5 ltac:(unfold hb; lia))) by (unfold hb; lia).
  rewrite (hf_round _ _ (hf_add _ _ _ _ FY M5 ltac:(unfold hb; lia))) by (unfold hb; lia).
  pose proof (halves (2 * fx + 7 * m + 10 * m + 1)) as EX. pose proof (halves (2 * (fy + yh) + 10 * m + 1)) as EY.
  set (ex := (2 * fx + 7 * m + 10 * m + 1) / 2) in *. set (ey := (2 * (fy + yh) + 10 * m + 1) / 2) in *.
  rewrite (combine_zrange _ _ _ _ s). replace (fx + dl + s - s) with (fx + dl) by lia. replace (fy + s - s) with fy by lia.
  set (e := s + Z.min (Z.min ex (gw g) - (fx + dl + s)) (Z.min ey (gh g) - (fy + s))).
  assert (E : e <= gw g - fx - dl /\ e <= gh g - fy /\ e <= 8 * m + m /\ 7 * m - dl < e) by (unfold e; lia). clearbody e.
  pose proof (crossing g ms true (fun t => (fx + dl + t, fy + t)) s e ltac:(lia) ltac:(lia)) as L. cbn [fst snd] in L.
  specialize (L ltac:(intros t Ht; eexists; apply get_pixel_pix; [exact WF|lia|lia]) (- m) 0 m (2 * m) (5 * m - dl) (6 * m - dl) (7 * m - dl)).
  cbv zeta in L. destruct L as [[_ R]|R]; [| |now left|apply orb_true_r|exact R|eexists; exact R].
  - unfold borders. repeat split; intros t Ht; cbn [fst snd]; try (replace (fx + dl + t) with (fx + (dl + t)) by lia; apply apart_at; unfold inner, middling; lia); apply apart_ring; lia.
  - unfold about_right, finder_runs, stands_for. cbv zeta. lia.
Qed.

(** all three *)
Lemma apart_refined finder ms : fin ms (IZR m) -> hf (px finder) (2 * fx + 7 * m) -> py finder = of_Z (fy + 2 * m) ->
  exists p ms', refine_all g finder ms = Ok (Some (p, ms')) /\ fin ms' (IZR m) /\ hf (px p) (2 * fx + 7 * m) /\ hf (py p) (2 * (fy + (7 * m - 1) / 2)).
Proof.
  intros FM FX FY. pose proof apart_bounds as B. pose proof apart_top as T.
  assert (HH : hf (fmul (lit 7 2) (est_of (7 * m))) (7 * m)).
  { unfold hf. rewrite <- rnd_half by (unfold hb; lia). replace (IZR (7 * m) / 2)%R with (7 / 2 * IZR m)%R by (rewrite mult_IZR; lra).
    assert (R : (1 <= IZR m <= 10000000)%R) by (split; apply IZR_le; lia).
    apply fin_fmul; [apply fin_7_2|apply est_exact; lia|]. apply half_big. rewrite Rabs_pos_eq; lra. }
  pose proof (halves (7 * m + 1)) as XH. pose proof (halves (7 * m - 1)) as YH.
  assert (H0 : hf (fmul (of_Z 0) (fmul (lit 7 2) (est_of (7 * m)))) 0).
  { replace 0 with (0 * (7 * m)) at 2 by lia. apply hf_mul; [apply fin_of_Z; lia|exact HH|unfold hb; lia]. }
  assert (H1 : hf (fmul (of_Z 1) (fmul (lit 7 2) (est_of (7 * m)))) (7 * m)).
  { replace (7 * m) with (1 * (7 * m)) at 2 by lia. apply hf_mul; [apply fin_of_Z; lia|exact HH|unfold hb; lia]. }
  unfold refine_all. destruct (apart_vertical finder ms FM FX FY) as (m1 & F1 & ->). cbn [bind adjust fp_location fp_module_size fp_last px py].
  set (xc := fx + (7 * m + 1) / 2) in *. set (yr := fy + (7 * m - 1) / 2) in *.
  edestruct (apart_horizontal (Pt (fsub (of_Z xc) (fmul (of_Z 0) (fmul (lit 7 2) (est_of (7 * m))))) (fsub (of_Z (fy + 7 * m - 1)) (fmul (of_Z 1) (fmul (lit 7 2) (est_of (7 * m)))))) m1)
    as (m2 & F2 & EH); [exact F1| | |].
  { cbn [px]. replace (2 * (fx + (7 * m + 1) / 2)) with (2 * xc - 0) by (unfold xc; lia). apply hf_sub; [apply hf_Z|exact H0|]; unfold hb, xc; lia. }
  { cbn [py]. replace (2 * fy + 7 * m - 2) with (2 * (fy + 7 * m - 1) - 7 * m) by lia. apply hf_sub; [apply hf_Z|exact H1|]; unfold hb; lia. }
  rewrite EH. cbn [bind adjust fp_location fp_module_size fp_last px py]. fold yr.
  set (p := Pt (fsub (of_Z (fx + 7 * m)) (fmul (of_Z 1) (fmul (lit 7 2) (est_of (7 * m))))) (fsub (of_Z yr) (fmul (of_Z 0) (fmul (lit 7 2) (est_of (7 * m)))))).
  assert (PX : hf (px p) (2 * fx + 7 * m)).
  { cbn [p px]. replace (2 * fx + 7 * m) with (2 * (fx + 7 * m) - 7 * m) by lia. apply hf_sub; [apply hf_Z|exact H1|]; unfold hb; lia. }
  assert (PY : hf (py p) (2 * yr)).
  { cbn [p py]. replace (2 * yr) with (2 * yr - 0) by lia. apply hf_sub; [apply hf_Z|exact H0|]; unfold hb, yr; lia. }
  destruct (apart_diagonal p m2 F2 PX PY) as (d & ->). cbn [bind]. exists p, m2. auto.
Qed.

(** *** the row that comes across the pattern first *)
Lemma apart_row s0 s3 : steady (fun x => pix g x (fy + 2 * m)) (fx + m) -> row g (fy + 2 * m) 0 (gw g) s0 = Ok s3 ->
  exists c, In c (sc_candidates s3) /\ (at_centre m fx fy c \/
    flt (dist (scan_point m fx fy) (fp_location c)) (fmul (of_Z 7) (est_of (7 * m))) = true).
Proof.
  intros HR H. pose proof apart_bounds as B. pose proof apart_top as T.
  set (y := fy + 2 * m) in *.
  apply (row_split g y 0 (fx + 7 * m)) in H as (s1 & E1 & H); [|lia].
  apply (row_split g y _ (fx + 7 * m + 1)) in H as (s2 & E2 & H); [|lia]. apply row_incl in H. apply row_one in E2.
  assert (PX : forall u v, 0 <= u <= 7 * m -> get_pixel g (fx + u) y = Ok v -> pix g (fx + u) y = v).
  { intros u v Hu E. rewrite get_pixel_pix in E by (try exact WF; unfold y; lia). now injection E. }
  assert (FA := fun u Hu => apart_at u (2 * m) Hu ltac:(lia)). fold y in FA. unfold inner, middling in FA.
  assert (LEFT : pix g (fx - 1) y = 255%N).
  { pose proof (apart_ring (fx - 1) y ltac:(lia) ltac:(unfold y; lia) ltac:(lia) ltac:(lia) ltac:(unfold y; lia)) as E.
    rewrite get_pixel_pix in E by (try exact WF; unfold y; lia). now injection E. }
  apply (scan_cross g y fx (fx + m) (fx + 2 * m) (fx + 5 * m) (fx + 6 * m) (fx + 7 * m)) in E1 as (cs1 & q0 & q1 & -> & Q0 & Q1); try lia; try assumption.
  2-6: intros t Ht; replace t with (fx + (t - fx)) by lia; apply PX; [lia|]; apply FA; lia.
  replace (fx + m - fx) with m in E2 by lia. replace (fx + 2 * m - (fx + m)) with m in E2 by lia. replace (fx + 5 * m - (fx + 2 * m)) with (3 * m) in E2 by lia.
  replace (fx + 6 * m - (fx + 5 * m)) with m in E2 by lia. replace (fx + 7 * m - (fx + 6 * m)) with m in E2 by lia.
  assert (W : pix g (fx + 7 * m) y = 255%N).
  { apply PX; [lia|]. apply apart_ring; unfold y; lia. }
  rewrite W in E2. unfold scan_pixel in E2. destruct (Z.eqb_spec (fx + 7 * m) 0); [lia|]. cbn [sc_last sc_pattern] in E2. change (255 =? 0)%N with false in E2. cbn [bind andb sc_candidates] in E2.
  assert (PO : pat_ok 300000000 (Pat q0 q1 m m (3 * m) m m)).
  { apply pat_small; cbn [p0 p1 p2 p3 p4 p5 p6]; try lia. unfold pat_sum. cbn [p0 p1 p2 p3 p4 p5 p6]. lia. }
  assert (U : 300000000 <= u32_max) by (unfold u32_max; lia).
  destruct (looks_like_finder_exact _ _ PO U) as (b & EB & _ & B1). rewrite EB in E2. cbn [bind] in E2. rewrite B1 in E2.
  2:{ cbn [p2 p3 p4 p5 p6]. unfold finder_runs, stands_for. cbv zeta. lia. }
  2:{ unfold pat_total. cbn [p2 p3 p4 p5 p6]. lia. }
  apply bind_ok in E2 as (cs2 & E2 & ES). apply bind_ok in ES as (p' & _ & ES). injection ES as <-. cbn [sc_candidates] in H.
  assert (IN : forall c, In c cs2 -> In c (sc_candidates s3)) by (intros c Hc; apply H, Hc).
  unfold scan_found in E2. rewrite (est_ok _ _ PO U) in E2. cbn [bind] in E2. unfold pat_total in E2. cbn [p2 p3 p4 p5 p6] in E2.
  replace (m + m + 3 * m + m + m) with (7 * m) in E2 by lia. fold y in E2.
  change (Pt (fsub (of_Z (fx + 7 * m)) (fmul (est_of (7 * m)) (lit 7 2))) (of_Z y)) with (scan_point m fx fy) in E2.
  destruct (existsb _ cs1) eqn:EX.
  - injection E2 as <-. apply existsb_exists in EX as (c & Hc & N). exists c. auto.
  - destruct (apart_refined (scan_point m fx fy) (est_of (7 * m))) as (p & ms' & R & F1 & F2 & F3).
    { apply est_exact. lia. }
    { cbn [scan_point px]. replace (2 * fx + 7 * m) with (2 * (fx + 7 * m) - 7 * m) by lia.
      apply hf_sub; [apply hf_Z|apply half_exact'; lia|]; unfold hb; lia. }
    { reflexivity. }
    rewrite R in E2. cbn [bind] in E2. injection E2 as <-. exists (FP p ms' (of_Z 0)). split.
    + apply IN, in_or_app. right. now left.
    + left. unfold at_centre. cbn [fp_module_size fp_location]. auto.
Qed.

(** *** the whole scan *)
Theorem apart_scanned cs : steady (fun x => pix g x (fy + 2 * m)) (fx + m) -> find_candidates g = Ok cs ->
  exists c, In c cs /\ (at_centre m fx fy c \/
    flt (dist (scan_point m fx fy) (fp_location c)) (fmul (of_Z 7) (est_of (7 * m))) = true).
Proof.
  intros HR. pose proof apart_bounds as B. set (y := fy + 2 * m) in *.
  unfold find_candidates. rewrite enumerate_pix by exact WF. rewrite foldM_map. unfold coords. rewrite <- foldM_flat_map.
  rewrite (zrange_app 0 y (gh g)) by (unfold y; lia). rewrite (zrange_cons y (gh g)) by (unfold y; lia). rewrite foldM_app.
  intros H. apply bind_ok in H as (sf & H & HC). injection HC as <-. apply bind_ok in H as (s0 & _ & H). cbn [foldM] in H.
  apply bind_ok in H as (s3 & H & HREST). rewrite foldM_map in H.
  assert (INC : incl (sc_candidates s3) (sc_candidates sf)).
  { revert HREST. apply foldM_incl. intros s x s'. apply foldM_incl. intros ? ? ? E. eapply scan_pixel_incl, E. }
  clear HREST. destruct (apart_row s0 s3 HR H) as (c & Hc & A). exists c. split; [now apply INC|exact A].
Qed.
End Finder.
