(** Where candidates come from: every candidate is the centre of a cross (C87); bar codes and stripes are never taken for symbols (C88). *)
From Coq Require Import NArith ZArith Reals List Lia Lra Bool Psatz.
From Verif.Model Require Import Prepare Detect Pipeline.
From Flocq Require Import Core.
From Verif.Spec Require Import Window Finder Slant Cross Plane.
From Verif.Proofs Require Import BaseP PrepareP FloatP ApproxP DetectP BlankP RefineP SoundP SoundF QuietP.
From Verif.Props Require Import PrepareProps PipelineProps DetectProps ExtractProps TurnProps.
Import ListNotations.
Local Open Scope Z_scope.

(** no run of a row or a column is shorter than a tenth of the one before it *)
Definition steady_picture (g : gray) : Prop :=
  (forall x, 0 <= x < gw g -> steady (fun y => pix g x y) (gh g - 1)) /\ (forall y, 0 <= y < gh g -> steady (fun x => pix g x y) (gw g - 1)).

(** *** C87 *)
Theorem C87_cross g cs c : wf_gray g -> gw g <= 2 ^ 26 -> gh g <= 2 ^ 26 -> steady_picture g -> find_candidates g = Ok cs -> In c cs ->
  exists u r a z b w x, crossing (pix g) (gw g) (gh g) u r a z b w /\ point_of (fp_location c) (Vec x (IZR r)) /\ (-2.001 <= 2 * x - IZR (a + z) <= 0.001)%R.
Proof.
  intros HW WX WY (HC & HR) E I. pose proof (candidates_tried g cs HW E) as T. rewrite Forall_forall in T. destruct (T c I) as (x0 & y0 & T0 & Hx & Hy & HT & RA).
  destruct (refine_all_sound g HW WX WY x0 y0 T0 _ _ HC HR Hx Hy HT RA) as (u & r & a & z & b & w & x & A & U & Z & B & R & W & SC & SR & M & FX & FY & X & S & _).
  exists u, r, a, z, b, w, x. split; [|split; [|exact X]].
  - unfold crossing. splits; try assumption; lia.
  - split; now apply fin_value.
Qed.

(** and a diagonal close to the centre looks like a finder pattern, too *)
Theorem C87_diagonal g cs c : wf_gray g -> gw g <= 2 ^ 26 -> gh g <= 2 ^ 26 -> steady_picture g ->
  (forall k, steady (diagonal_of (pix g) k) (diagonal_end (gw g) (gh g) k - 1)) -> find_candidates g = Ok cs -> In c cs ->
  exists u r a z b w x k d e, crossing (pix g) (gw g) (gh g) u r a z b w /\ point_of (fp_location c) (Vec x (IZR r)) /\ (-2.001 <= 2 * x - IZR (a + z) <= 0.001)%R /\
    0 <= d /\ e <= diagonal_end (gw g) (gh g) k /\ five_stretches (diagonal_of (pix g) k) d e /\ (Rabs (IZR k - (x - IZR r)) <= 1.1)%R /\
    r - (z - a) <= d + Z.max (- k) 0 /\ e + Z.max (- k) 0 <= r + (z - a).
Proof.
  intros HW WX WY (HC & HR) HD E I. pose proof (candidates_tried g cs HW E) as T. rewrite Forall_forall in T. destruct (T c I) as (x0 & y0 & T0 & Hx & Hy & HT & RA).
  destruct (refine_all_sound g HW WX WY x0 y0 T0 _ _ HC HR Hx Hy HT RA) as (u & r & a & z & b & w & x & A & U & Z & B & R & W & SC & SR & M & FX & FY & X & S & D).
  destruct (D HD) as (k & d & e & D0 & DE & DK & DS & D1 & D2).
  exists u, r, a, z, b, w, x, k, d, e. split; [|split; [|split; [exact X|]]].
  - unfold crossing. splits; try assumption; lia.
  - split; now apply fin_value.
  - splits; try assumption; lia.
Qed.

(** a picture without crossings: no candidates, no locations, no results *)
Theorem C87_none g : wf_gray g -> gw g <= 2 ^ 26 -> gh g <= 2 ^ 26 -> steady_picture g ->
  (forall u r a z b w, ~ crossing (pix g) (gw g) (gh g) u r a z b w) -> find_candidates g = Ok [] /\ detect g = Ok [].
Proof.
  intros HW WX WY HS N. assert (K : find_candidates g = Ok []).
  { destruct (find_candidates_ok g HW) as (cs & E & _). rewrite E. destruct cs as [|c cs]; [reflexivity|].
    destruct (C87_cross g _ c HW WX WY HS E ltac:(now left)) as (u & r & a & z & b & w & x & X & _). contradiction (N u r a z b w). }
  split; [exact K|]. unfold detect. now rewrite K.
Qed.

(** every corner of every location is the centre of a crossing *)
Theorem C87_locations g locs loc : wf_gray g -> gw g <= 2 ^ 26 -> gh g <= 2 ^ 26 -> steady_picture g -> detect g = Ok locs -> In loc locs ->
  forall p, In p [top_left loc; top_right loc; bottom_left loc] ->
  exists u r a z b w x, crossing (pix g) (gw g) (gh g) u r a z b w /\ point_of p (Vec x (IZR r)) /\ (-2.001 <= 2 * x - IZR (a + z) <= 0.001)%R.
Proof.
  intros HW WX WY HS E I p HP. destruct (C47_candidates g locs loc HW ltac:(lia) ltac:(lia) E I) as (cs & i & j & k & a & b & c & EC & _ & NA & NB & NC & E1 & E2 & E3 & _).
  rewrite E1, E2, E3 in HP. apply nth_error_In in NA, NB, NC. destruct HP as [<-|[<-|[<-|[]]]]; eapply C87_cross; eauto.
Qed.

(** a finder pattern with modules of one pixel *)
Definition ring : gray := image_of 11 11 (fun x y => let d := Z.max (Z.abs (x - 5)) (Z.abs (y - 5)) in if (d =? 3) || (d <=? 1) then 0%N else 255%N).

Lemma steady_short f e : e <= 12 -> steady f e.
Proof. intros H a b d Ha Hb _ _ _ _ _. lia. Qed.

Example C87_example : wf_gray ring /\ steady_picture ring /\ (forall k, steady (diagonal_of (pix ring) k) (diagonal_end (gw ring) (gh ring) k - 1)) /\
  (exists c, find_candidates ring = Ok [c]) /\ crossing (pix ring) (gw ring) (gh ring) 5 6 2 9 2 9.
Proof.
  split; [|split; [|split; [|split]]].
  - apply image_of_wf; [unfold u32_max; lia|unfold u32_max; lia|]. intros x y. cbv zeta. now destruct (_ || _).
  - split; intros; apply steady_short; cbn; lia.
  - intros k. apply steady_short. unfold diagonal_end. cbn [gw gh ring image_of]. lia.
  - eexists. vm_compute. reflexivity.
  - unfold crossing. cbn [gw gh ring image_of]. splits; try lia.
    + exists 3, 4, 7, 8. unfold plain. repeat split; try lia; try (intros t Ht; assert (K : t = 2 \/ t = 3 \/ t = 4 \/ t = 5 \/ t = 6 \/ t = 7 \/ t = 8) by lia;
        destruct K as [-> |[-> |[-> |[-> |[-> |[-> | ->]]]]]]; lia || reflexivity); vm_compute; discriminate.
    + exists 3, 4, 7, 8. unfold plain. repeat split; try lia; try (intros t Ht; assert (K : t = 2 \/ t = 3 \/ t = 4 \/ t = 5 \/ t = 6 \/ t = 7 \/ t = 8) by lia;
        destruct K as [-> |[-> |[-> |[-> |[-> |[-> | ->]]]]]]; lia || reflexivity); vm_compute; discriminate.
Qed.

(** two rows that look like a finder pattern, and nothing below them *)
Definition shelf : gray := image_of 11 11 (fun x y => if (y <? 2) && ((x =? 2) || ((4 <=? x) && (x <=? 6)) || (x =? 8)) then 0%N else 255%N).
Example C87_none_example : wf_gray shelf /\ steady_picture shelf /\ five_stretches (fun x => pix shelf x 1) 2 9 /\
  forall u r a z b w, ~ crossing (pix shelf) (gw shelf) (gh shelf) u r a z b w.
Proof.
  assert (W : wf_gray shelf).
  { apply image_of_wf; [unfold u32_max; lia|unfold u32_max; lia|]. intros x y. now destruct (_ && _). }
  split; [exact W|]. split; [|split].
  - split; intros; apply steady_short; cbn; lia.
  - exists 3, 4, 7, 8. unfold plain. repeat split; try lia; try (vm_compute; discriminate).
    all: intros t Ht; assert (K : t = 2 \/ t = 3 \/ t = 4 \/ t = 5 \/ t = 6 \/ t = 7 \/ t = 8) by lia.
    all: destruct K as [-> |[-> |[-> |[-> |[-> |[-> | ->]]]]]]; lia || reflexivity.
  - intros u r a z b w (A & U & Z & B & R & H & _ & (b1 & b2 & b3 & b4 & P1 & P2 & P3 & P4 & P5 & N1 & N2 & _) & _). cbn [gw gh shelf image_of] in *.
    assert (K : forall y, 2 <= y < 11 -> pix shelf u y = 255%N).
    { intros y Hy. pose proof (image_of_pixel 11 11 (fun x y => if (y <? 2) && ((x =? 2) || ((4 <=? x) && (x <=? 6)) || (x =? 8)) then 0%N else 255%N) u y ltac:(lia) ltac:(lia)) as E.
      fold shelf in E. rewrite get_pixel_pix in E by (auto; cbn [gw gh shelf image_of]; lia). injection E as ->. destruct (Z.ltb_spec y 2); [lia|reflexivity]. }
    assert (L : forall y, 0 <= y < 2 -> pix shelf u y = pix shelf u 0).
    { intros y Hy. assert (Y : y = 0 \/ y = 1) by lia. destruct Y as [-> | ->]; [reflexivity|].
      pose proof (image_of_pixel 11 11 (fun x y => if (y <? 2) && ((x =? 2) || ((4 <=? x) && (x <=? 6)) || (x =? 8)) then 0%N else 255%N) u) as E. fold shelf in E.
      pose proof (E 0 ltac:(lia) ltac:(lia)) as E0. pose proof (E 1 ltac:(lia) ltac:(lia)) as E1. cbn [Z.ltb Z.compare Pos.compare Pos.compare_cont andb] in E0, E1.
      rewrite get_pixel_pix in E0, E1 by (auto; cbn [gw gh shelf image_of]; lia). change (0 <? 2) with true in E0. change (1 <? 2) with true in E1. congruence. }
    destruct P1 as [P1 _], P2 as [P2 _], P3 as [P3 _], P4 as [P4 _], P5 as [P5 _]. destruct (Z_lt_le_dec b1 2) as [L1|L1].
    + apply N1. rewrite (L b1), (L b) by lia. reflexivity.
    + apply N2. rewrite (K b1), (K b2) by lia. reflexivity.
Qed.

(** *** C88 *)
(** no column has five runs *)
Theorem C88_columns g : wf_gray g -> (forall x, 0 <= x < gw g -> changes (fun y => pix g x y) (gh g) < 4) -> detect g = Ok [].
Proof.
  intros HW HC. pose proof HW as (W1 & W2 & _). assert (K : find_candidates g = Ok []); [|unfold detect; now rewrite K].
  destruct (find_candidates_ok g HW) as (cs & E & _). rewrite E. destruct cs as [|c cs]; [reflexivity|]. exfalso.
  pose proof (candidates_tried g _ HW E) as T. rewrite Forall_forall in T. destruct (T c ltac:(now left)) as (x & y & n & Hx & Hy & HT & RA).
  destruct (half_finder n ltac:(lia)) as (h0 & _ & FH0 & BH0). pose proof (IZR_32 n ltac:(lia)) as RT.
  assert (FX : fin (fsub (of_Z x) (fmul (est_of n) (lit 7 2))) (rnd (IZR x - h0))) by (apply fin_sub_int; [exact FH0|lra|lia]).
  assert (LX : (rnd (IZR x - h0) <= IZR x)%R) by (rewrite <- (rnd_int x) at 2 by (unfold u32_max in *; lia); apply rnd_le; lra).
  pose proof (round_below _ _ x FX LX ltac:(lia)) as RX. unfold refine_all, refine_vertical in RA. cbn [px py] in RA.
  set (u := round_u32 (fsub (of_Z x) _)) in *.
  match type of RA with bind (refine _ _ (map _ (zrange ?a ?b)) _) _ = _ => set (s := a) in *; set (e := b) in * end.
  assert (S0 : 0 <= s) by apply round_u32_range. assert (E0 : e <= gh g) by apply Z.le_min_r.
  rewrite (refine_few g (est_of n) false (fun t => (u, t)) s e HW S0 ltac:(lia)) in RA.
  - discriminate.
  - intros t Ht. unfold DetectP.in_image. cbn [fst snd]. lia.
  - cbn [fst snd]. destruct (Z_lt_le_dec e 1) as [L|L].
    + unfold changes. rewrite sum_between_zsum, zrange_nil by lia. cbn [zsum]. lia.
    + pose proof (changes_mono (fun t => pix g u t) e (gh g) ltac:(lia)). specialize (HC u ltac:(lia)). lia.
Qed.

(** preparation does not bend bars and stripes *)
Lemma window_default g g' x y : wf_gray g -> prepare default_prepare g = Ok g' -> 0 <= x < gw g -> 0 <= y < gh g ->
  let r := used_window 5 7 (gw g) (gh g) x y in 0 <= rx0 r < rx1 r /\ rx1 r <= gw g /\ 0 <= ry0 r < ry1 r /\ ry1 r <= gh g.
Proof.
  intros HW E Hx Hy r. pose proof (prepare_good default_prepare g g' HW ltac:(cbn; lia) ltac:(cbn; lia) E) as HG.
  pose proof (window_shape default_prepare (gw g) (gh g) (x / 5) (y / 5) HG) as S.
  cbn [default_prepare block_size] in S. specialize (S (div_range x (gw g) 5 ltac:(lia) Hx) (div_range y (gh g) 5 ltac:(lia) Hy)).
  pose proof (used_window_of default_prepare (gw g) (gh g) x y HG Hx Hy) as U. cbn [default_prepare block_size block_mean_size] in U.
  rewrite U in S. exact S.
Qed.

Lemma sum_scale a b f k : sum_between a b (fun x => k * f x) = k * sum_between a b f.
Proof. unfold sum_between. generalize (Z.to_nat (b - a)). intros n. revert a. induction n as [|n IH]; intros a; cbn [sum_from]; [lia|]. rewrite IH. lia. Qed.
Lemma sum_same a b f h : (forall x, a <= x < b -> f x = h x) -> sum_between a b f = sum_between a b h.
Proof.
  unfold sum_between. intros H. assert (K : forall n a, (forall x, a <= x < a + Z.of_nat n -> f x = h x) -> sum_from n a f = sum_from n a h).
  { induction n as [|n IH]; intros a0 H0; cbn [sum_from]; [reflexivity|]. rewrite H0 by lia. f_equal. apply IH. intros x Hx. apply H0. lia. }
  apply K. intros x Hx. apply H. lia.
Qed.
Lemma sum_one a b k : a <= b -> sum_between a b (fun _ => k) = (b - a) * k.
Proof.
  intros H. unfold sum_between. rewrite <- (Z2Nat.id (b - a)) at 2 by lia.
  generalize (Z.to_nat (b - a)) as n. intros n. clear H. revert a. induction n as [|n IH]; intros a; cbn [sum_from]; [lia|]. rewrite IH. lia.
Qed.
Lemma black_or_white_scale n total count p : 0 < n -> black_or_white (n * total) (n * count) p = black_or_white total count p.
Proof.
  intros H. unfold black_or_white.
  assert (K : forall a b, (n * a <? n * b) = (a <? b)) by (intros a b; destruct (Z.ltb_spec a b), (Z.ltb_spec (n * a) (n * b)); nia).
  replace (250 * (n * count)) with (n * (250 * count)) by lia. replace (5 * (n * count)) with (n * (5 * count)) by lia. replace (p * (n * count)) with (n * (p * count)) by lia.
  now rewrite !K.
Qed.

Lemma bars_prepared g g' f : wf_gray g -> prepare default_prepare g = Ok g' -> (forall x y, 0 <= x < gw g -> 0 <= y < gh g -> pix g x y = f x) ->
  exists f', forall x y, 0 <= x < gw g -> 0 <= y < gh g -> pix g' x y = f' x.
Proof.
  intros HW E HF. destruct (C41_black_white _ g g' HW E) as (HW' & EW & EH & _).
  exists (fun x => let r := used_window 5 7 (gw g) (gh g) x 0 in
    Z.to_N (black_or_white (sum_between (rx0 r) (rx1 r) (fun x => Z.of_N (f x))) (rx1 r - rx0 r) (Z.of_N (f x)))).
  intros x y Hx Hy. destruct (C43_default_partial g g' x y HW E Hx Hy) as [_ P]. rewrite get_pixel_pix in P by (auto; lia). injection P as ->.
  destruct (window_default g g' x y HW E Hx Hy) as (X0 & X1 & Y0 & Y1). set (r := used_window 5 7 (gw g) (gh g) x y) in *.
  cbv zeta. change (rx0 (used_window 5 7 (gw g) (gh g) x 0)) with (rx0 r). change (rx1 (used_window 5 7 (gw g) (gh g) x 0)) with (rx1 r).
  rewrite <- (black_or_white_scale (ry1 r - ry0 r) (sum_between (rx0 r) (rx1 r) _)) by lia. f_equal. f_equal.
  - unfold rect_sum. rewrite <- sum_scale. apply sum_same. intros u Hu. rewrite <- sum_one by lia. apply sum_same. intros v Hv. unfold pixel_value. now rewrite HF by lia.
  - unfold rect_count. lia.
  - unfold pixel_value. now rewrite HF by lia.
Qed.
Lemma stripes_prepared g g' f : wf_gray g -> prepare default_prepare g = Ok g' -> (forall x y, 0 <= x < gw g -> 0 <= y < gh g -> pix g x y = f y) ->
  exists f', forall x y, 0 <= x < gw g -> 0 <= y < gh g -> pix g' x y = f' y.
Proof.
  intros HW E HF. destruct (C41_black_white _ g g' HW E) as (HW' & EW & EH & _).
  exists (fun y => let r := used_window 5 7 (gw g) (gh g) 0 y in
    Z.to_N (black_or_white (sum_between (ry0 r) (ry1 r) (fun y => Z.of_N (f y))) (ry1 r - ry0 r) (Z.of_N (f y)))).
  intros x y Hx Hy. destruct (C43_default_partial g g' x y HW E Hx Hy) as [_ P]. rewrite get_pixel_pix in P by (auto; lia). injection P as ->.
  destruct (window_default g g' x y HW E Hx Hy) as (X0 & X1 & Y0 & Y1). set (r := used_window 5 7 (gw g) (gh g) x y) in *.
  cbv zeta. change (ry0 (used_window 5 7 (gw g) (gh g) 0 y)) with (ry0 r). change (ry1 (used_window 5 7 (gw g) (gh g) 0 y)) with (ry1 r).
  rewrite <- (black_or_white_scale (rx1 r - rx0 r) (sum_between (ry0 r) (ry1 r) _)) by lia. f_equal. f_equal.
  - unfold rect_sum. rewrite <- sum_one by lia. apply sum_same. intros u Hu. apply sum_same. intros v Hv. unfold pixel_value. now rewrite HF by lia.
  - unfold pixel_value. now rewrite HF by lia.
Qed.

Section Striped.
Context {D : Type} (to_gray : D -> gray) (img : D) (HW : wf_gray (to_gray img)) (HP : exists g', prepare default_prepare (to_gray img) = Ok g').

(** a bar code: every column is of one gray value *)
Theorem C88_bars : (forall x y y', 0 <= x < gw (to_gray img) -> 0 <= y < gh (to_gray img) -> 0 <= y' < gh (to_gray img) ->
    get_pixel (to_gray img) x y = get_pixel (to_gray img) x y') ->
  exists d, default_decoder to_gray = Ok d /\ decode d img = Ok [].
Proof.
  intros HB. destruct HP as (g' & E). eexists. split; [reflexivity|]. unfold decode. cbn [d_prepare]. rewrite E. cbn [bind].
  set (g := to_gray img) in *. destruct (C41_black_white _ g g' HW E) as (HW' & EW & EH & _).
  destruct (bars_prepared g g' (fun x => pix g x 0) HW E) as (f' & HF).
  { intros x y Hx Hy. specialize (HB x y 0 Hx Hy ltac:(lia)). rewrite !get_pixel_pix in HB by (auto; lia). now injection HB. }
  rewrite C88_columns; [reflexivity|exact HW'|]. intros x Hx. erewrite changes_const; [lia|]. intros y Hy. cbv beta. apply HF; lia.
Qed.

(** stripes: every row is of one gray value *)
Theorem C88_stripes : (forall x x' y, 0 <= x < gw (to_gray img) -> 0 <= x' < gw (to_gray img) -> 0 <= y < gh (to_gray img) ->
    get_pixel (to_gray img) x y = get_pixel (to_gray img) x' y) ->
  exists d, default_decoder to_gray = Ok d /\ decode d img = Ok [].
Proof.
  intros HB. destruct HP as (g' & E). eexists. split; [reflexivity|]. unfold decode. cbn [d_prepare]. rewrite E. cbn [bind].
  set (g := to_gray img) in *. destruct (C41_black_white _ g g' HW E) as (HW' & EW & EH & _).
  destruct (stripes_prepared g g' (fun y => pix g 0 y) HW E) as (f' & HF).
  { intros x y Hx Hy. specialize (HB x 0 y Hx ltac:(lia) Hy). rewrite !get_pixel_pix in HB by (auto; lia). now injection HB. }
  rewrite C45_few_changes; [reflexivity|exact HW'|]. intros y Hy. erewrite changes_const; [lia|]. intros x Hx. cbv beta. apply HF; lia.
Qed.
End Striped.

(** bars 1:1:3:1:1 as in a finder pattern: every row looks like one, also after preparation *)
Definition bars : gray := image_of 11 5 (fun x _ => if (x =? 2) || ((4 <=? x) && (x <=? 6)) || (x =? 8) then 20%N else 220%N).
Example C88_example : wf_gray bars /\ (forall x y y', 0 <= x < gw bars -> 0 <= y < gh bars -> 0 <= y' < gh bars -> get_pixel bars x y = get_pixel bars x y') /\
  exists g', prepare default_prepare bars = Ok g' /\ five_stretches (fun x => pix g' x 3) 2 9.
Proof.
  assert (W : wf_gray bars).
  { apply image_of_wf; [unfold u32_max; lia|unfold u32_max; lia|]. intros x y. now destruct (_ || _). }
  split; [exact W|]. split.
  - intros x y y' Hx Hy Hy'. cbn [gw gh bars image_of] in *. unfold bars. rewrite !image_of_pixel by lia. reflexivity.
  - eexists. split; [vm_compute; reflexivity|]. exists 3, 4, 7, 8. unfold plain. repeat split; try lia; try (vm_compute; discriminate).
    all: intros t Ht.
    all: assert (K : t = 2 \/ t = 3 \/ t = 4 \/ t = 5 \/ t = 6 \/ t = 7 \/ t = 8) by lia.
    all: repeat match goal with H : _ \/ _ |- _ => destruct H as [-> | H] end; subst; lia || reflexivity.
Qed.
