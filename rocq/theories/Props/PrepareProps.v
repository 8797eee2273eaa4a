(** Preparing an image: C41 to C44. *)
From Coq Require Import NArith ZArith Reals List Lia Bool Arith.
From Flocq Require Import Core.Raux.
From Verif.Model Require Import Prepare.
From Verif.Spec Require Import Window.
From Verif.Proofs Require Import BaseP PrepareP FloatP.
Import ListNotations.
Local Open Scope Z_scope.

(** *** C41: black and white, same size *)
Theorem C41_black_white cfg g g' : wf_gray g -> prepare cfg g = Ok g' ->
  wf_gray g' /\ gw g' = gw g /\ gh g' = gh g /\
  forall x y, 0 <= x < gw g' -> 0 <= y < gh g' ->
    get_pixel g' x y = Ok 0%N \/ get_pixel g' x y = Ok 255%N.
Proof.
  intros (W1 & W2 & WL & WB) E. unfold prepare in E. apply bind_ok in E. destruct E as (blocks & _ & E).
  apply bind_ok in E. destruct E as (means & _ & E). unfold to_threshold in E. apply bind_ok in E.
  destruct E as (buf & E & [= <-]). cbn [gw gh gbuf].
  assert (HL : length buf = Z.to_nat (gw g * gh g)).
  { rewrite (mapM_length _ _ _ E), enumerate_pix by (now split). rewrite map_length.
    apply coords_length; lia. }
  assert (HB : Forall (fun b => b = 0%N \/ b = 255%N) buf).
  { apply mapM_Forall2 in E. clear - E. induction E as [|[[x y] p] b l buf Hb E IH]; constructor; [|exact IH].
    apply bind_ok in Hb. destruct Hb as ([bw bh] & _ & Hb). apply bind_ok in Hb. destruct Hb as ([cx cy] & _ & Hb).
    apply bind_ok in Hb. destruct Hb as (i & _ & Hb). apply bind_ok in Hb. destruct Hb as (m & _ & [= <-]).
    unfold threshold. destruct (fgt m _); [auto|]. destruct (flt m _); [auto|]. destruct (fgt _ m); auto. }
  split; [|split; [reflexivity|split; [reflexivity|]]].
  - repeat split; cbn [gw gh gbuf]; try lia. eapply Forall_impl; [|exact HB]. intros b [-> | ->]; reflexivity.
  - intros x y Hx Hy. unfold get_pixel. cbn [gw gh gbuf].
    destruct (Z.ltb_spec x (gw g)); [|lia]. destruct (Z.ltb_spec y (gh g)); [|lia]. cbn [andb].
    assert (Hi : (Z.to_nat (y * gw g + x) < length buf)%nat) by (rewrite HL; apply Z2Nat.inj_lt; nia).
    destruct (get_lt buf _ Hi) as (b & -> & Hb). apply nth_error_In in Hb.
    rewrite Forall_forall in HB. destruct (HB b Hb) as [-> | ->]; auto.
Qed.

(** blocks of 2 in an image of 5 by 3: both colours, and blocks that do not fit *)
Example C41_example :
  prepare (BlockedMean 2 3) (Gray 5 3 [10; 20; 30; 40; 50; 90; 80; 70; 60; 50; 1; 99; 1; 99; 7])%N
  = Ok (Gray 5 3 [0; 0; 0; 0; 0; 255; 255; 255; 255; 0; 0; 255; 0; 255; 0])%N.
Proof. vm_compute. reflexivity. Qed.

(** *** C42: which images are accepted *)

(** the full statement *)
Definition C42_statement : Prop := forall cfg g, wf_gray g -> 0 < block_size cfg <= u32_max -> 0 < block_mean_size cfg <= u32_max ->
  exists g', prepare cfg g = Ok g'.

(** exactly the sizes that are accepted: the image must be at least one block wide and
    high, block_mean_size must be at least 3, and the index arithmetic must stay within
    u32.  Missing from the full statement: all other sizes, which panic. *)
Theorem C42_accepted_partial cfg g : wf_gray g -> 0 <= block_size cfg -> 0 <= block_mean_size cfg ->
  ((exists g', prepare cfg g = Ok g') <->
   1 <= block_size cfg /\ 3 <= block_mean_size cfg /\ block_size cfg <= gw g /\ block_size cfg <= gh g /\
   (gw g / block_size cfg + 1) * (gh g / block_size cfg + 1) <= u32_max /\
   gw g / block_size cfg + (block_mean_size cfg - 1) / 2 <= u32_max /\
   gh g / block_size cfg + (block_mean_size cfg - 1) / 2 <= u32_max).
Proof.
  intros HW Hb Hm. split.
  - intros (g' & E). exact (prepare_good cfg g g' HW Hb Hm E).
  - intros HG. eexists. apply prepare_ok; [exact HW|exact HG].
Qed.

(** all others panic: there is no third outcome *)
Theorem C42_panics_partial cfg g : wf_gray g -> 0 <= block_size cfg -> 0 <= block_mean_size cfg ->
  ((exists p, prepare cfg g = Panic p) <-> ~ exists g', prepare cfg g = Ok g').
Proof.
  intros HW Hb Hm. destruct (prepare cfg g) as [g'|e|p] eqn:E.
  - split; [intros (p & X); discriminate|]. intros X. contradiction X. eauto.
  - now apply prepare_no_err in E.
  - split; [|eauto]. intros _ (g' & X). discriminate.
Qed.

(** the default sizes: all images of at least 5 by 5 pixels, up to 2^36 pixels *)
Theorem C42_default_partial g : wf_gray g -> 5 <= gw g -> 5 <= gh g -> gw g * gh g <= 2 ^ 36 -> exists g', prepare default_prepare g = Ok g'.
Proof.
  intros HW H1 H2 H3. apply C42_accepted_partial; auto; cbn [default_prepare block_size block_mean_size]; try lia.
  pose proof HW as (W1 & W2 & _). unfold u32_max in *.
  pose proof (Z.mul_div_le (gw g) 5 ltac:(lia)). pose proof (Z.mul_div_le (gh g) 5 ltac:(lia)).
  change ((7 - 1) / 2) with 3.
  assert (1 <= gw g / 5) by (apply Z.div_le_lower_bound; lia). assert (1 <= gh g / 5) by (apply Z.div_le_lower_bound; lia).
  set (a := gw g / 5) in *. set (b := gh g / 5) in *. clearbody a b.
  repeat split; try lia; nia.
Qed.

Example C42_example : wf_gray (Gray 5 6 (repeat 9%N 30)) /\ 5 * 6 <= 2 ^ 36 /\
  prepare default_prepare (Gray 5 6 (repeat 9%N 30)) = Ok (Gray 5 6 (repeat 0%N 30)).
Proof.
  split; [|split; [lia|vm_compute; reflexivity]]. unfold wf_gray, u32_max. cbn [gw gh gbuf]. repeat split; try lia.
  apply Forall_forall. intros b Hb. apply repeat_spec in Hb. now subst.
Qed.

Theorem C42_refuted : ~ C42_statement.
Proof.
  intros H. destruct (H default_prepare (Gray 4 4 (repeat 255%N 16))) as (g' & E).
  - unfold wf_gray, u32_max. cbn [gw gh gbuf]. repeat split; try lia.
    apply Forall_forall. intros b Hb. apply repeat_spec in Hb. now subst.
  - cbn [default_prepare block_size]. unfold u32_max. lia.
  - cbn [default_prepare block_mean_size]. unfold u32_max. lia.
  - vm_compute in E. discriminate.
Qed.

(** *** C43: the threshold *)

Definition pixel_value (g : gray) (x y : Z) : Z := Z.of_N (pix g x y).

(** the full statement, with the documented window *)
Definition C43_statement : Prop := forall cfg g g' x y, wf_gray g -> 0 <= block_size cfg -> 0 <= block_mean_size cfg ->
  prepare cfg g = Ok g' -> 0 <= x < gw g -> 0 <= y < gh g ->
  let r := centred_window (block_size cfg) (block_mean_size cfg) (gw g) (gh g) x y in
  rect_count r <= 2 ^ 45 ->
  get_pixel g' x y = Ok (Z.to_N (black_or_white (rect_sum r (pixel_value g)) (rect_count r) (pixel_value g x y))).

Lemma used_window_of cfg w h x y : good cfg w h -> 0 <= x < w -> 0 <= y < h ->
  window_of cfg w h (x / block_size cfg) (y / block_size cfg)
  = used_window (block_size cfg) (block_mean_size cfg) w h x y.
Proof.
  intros (Hb & Hm & Hw & Hh & _) Hx Hy. unfold window_of, used_window. set (bs := block_size cfg) in *.
  set (s := (block_mean_size cfg - 1) / 2).
  assert (K : forall z, bs * (z / bs) = z - z mod bs) by (intros z; rewrite Z.mod_eq by lia; lia).
  assert (M : forall u, bs * Z.max 0 u = Z.max 0 (bs * u)).
  { intros u. rewrite <- (Z.mul_max_distr_nonneg_l 0 u bs) by lia. now rewrite Z.mul_0_r. }
  assert (N : forall u v, bs * Z.min u v = Z.min (bs * u) (bs * v)).
  { intros u v. now rewrite (Z.mul_min_distr_nonneg_l u v bs) by lia. }
  now rewrite !M, !N, !K.
Qed.

Lemma rect_sum_bounds r f : (forall x y, 0 <= f x y <= 255) -> rx0 r <= rx1 r -> ry0 r <= ry1 r ->
  0 <= rect_sum r f <= 255 * rect_count r.
Proof.
  intros H H1 H2. rewrite <- rect_sum_one by lia. unfold rect_sum, sum_between.
  generalize (Z.to_nat (rx1 r - rx0 r)) as n. generalize (Z.to_nat (ry1 r - ry0 r)) as m.
  generalize (rx0 r) as a. generalize (ry0 r) as b. intros b a m n.
  assert (K : forall x b, 0 <= sum_from m b (fun y => f x y) <= 255 * sum_from m b (fun _ => 1)).
  { intros x. clear a b n. induction m as [|m IH]; intros b; cbn [sum_from]; [lia|]. specialize (IH (b + 1)). specialize (H x b). lia. }
  revert a. induction n as [|n IH]; intros a; cbn [sum_from]; [lia|].
  specialize (IH (a + 1)). specialize (K a b). lia.
Qed.

Lemma threshold_exact T C p : 0 < C <= 2 ^ 45 -> 0 <= T <= 255 * C -> (p < 256)%N ->
  threshold (fdiv (of_Z T) (of_Z C)) p = Z.to_N (black_or_white T C (Z.of_N p)).
Proof.
  intros HC HT Hp. unfold threshold, black_or_white.
  assert (B : forall k, 0 <= k <= 255 ->
    fgt (fdiv (of_Z T) (of_Z C)) (of_Z k) = (k * C <? T) /\ flt (fdiv (of_Z T) (of_Z C)) (of_Z k) = (T <? k * C) /\
    fgt (of_Z k) (fdiv (of_Z T) (of_Z C)) = (T <? k * C)).
  { intros k Hk. destruct (quotient_byte T C k) as (q & F & L1 & L2); try lia.
    assert (FK : fin (of_Z k) (IZR k)) by (apply fin_of_Z; lia).
    rewrite (fgt_R _ _ _ _ F FK), (flt_R _ _ _ _ F FK), (fgt_R _ _ _ _ FK F).
    repeat split.
    - destruct (Z.ltb_spec (k * C) T) as [H|H]; [apply Rlt_bool_true; tauto|apply Rlt_bool_false].
      apply Rnot_lt_le. intros X. apply L2 in X. lia.
    - destruct (Z.ltb_spec T (k * C)) as [H|H]; [apply Rlt_bool_true; tauto|apply Rlt_bool_false].
      apply Rnot_lt_le. intros X. apply L1 in X. lia.
    - destruct (Z.ltb_spec T (k * C)) as [H|H]; [apply Rlt_bool_true; tauto|apply Rlt_bool_false].
      apply Rnot_lt_le. intros X. apply L1 in X. lia. }
  destruct (B 250 ltac:(lia)) as (-> & _). destruct (B 5 ltac:(lia)) as (_ & -> & _).
  destruct (B (Z.of_N p) ltac:(lia)) as (_ & _ & ->).
  destruct (250 * C <? T); [reflexivity|]. destruct (T <? 5 * C); [reflexivity|]. now destruct (T <? Z.of_N p * C).
Qed.

(** the decision, in integers, over the window that is really used.
    Missing from the full statement: the window lacks the blocks of its last column and row. *)
Theorem C43_used_partial cfg g g' x y : wf_gray g -> 0 <= block_size cfg -> 0 <= block_mean_size cfg ->
  prepare cfg g = Ok g' -> 0 <= x < gw g -> 0 <= y < gh g ->
  let r := used_window (block_size cfg) (block_mean_size cfg) (gw g) (gh g) x y in
  rect_count r <= 2 ^ 45 ->
  0 < rect_count r /\
  get_pixel g' x y = Ok (Z.to_N (black_or_white (rect_sum r (pixel_value g)) (rect_count r) (pixel_value g x y))).
Proof.
  intros HW Hb Hm E Hx Hy r HC. pose proof (prepare_good cfg g g' HW Hb Hm E) as HG.
  rewrite (prepare_ok cfg g HW HG) in E. injection E as <-.
  change (coords g) with (coords (Gray (gw g) (gh g) [])). rewrite get_pixel_map by lia. unfold mean_of.
  rewrite used_window_of by auto. fold r.
  assert (S : 0 <= rx0 r < rx1 r /\ rx1 r <= gw g /\ 0 <= ry0 r < ry1 r /\ ry1 r <= gh g).
  { unfold r. rewrite <- used_window_of by auto. pose proof HG as (Hb1 & _).
    apply window_shape; [exact HG|apply div_range; lia|apply div_range; lia]. }
  assert (0 < rect_count r) by (unfold rect_count; nia). split; [assumption|].
  f_equal. apply threshold_exact; [lia| |apply pix_byte, HW].
  apply rect_sum_bounds; [|lia|lia]. intros x' y'. pose proof (pix_byte g x' y' HW). unfold pixel_value. lia.
Qed.

(** for the default sizes there are at most 900 pixels in a window *)
Theorem C43_default_partial g g' x y : wf_gray g -> prepare default_prepare g = Ok g' -> 0 <= x < gw g -> 0 <= y < gh g ->
  let r := used_window 5 7 (gw g) (gh g) x y in
  0 < rect_count r <= 900 /\
  get_pixel g' x y = Ok (Z.to_N (black_or_white (rect_sum r (pixel_value g)) (rect_count r) (pixel_value g x y))).
Proof.
  intros HW E Hx Hy r.
  assert (HC : rect_count r <= 900).
  { unfold rect_count, r, used_window. cbn [rx0 rx1 ry0 ry1]. change ((7 - 1) / 2) with 3.
    pose proof (Z.mul_div_le x 5 ltac:(lia)). pose proof (Z.mul_div_le y 5 ltac:(lia)).
    assert (0 <= x / 5) by (apply Z.div_pos; lia). assert (0 <= y / 5) by (apply Z.div_pos; lia).
    assert (L1 : Z.min (gw g - gw g mod 5) (5 * (x / 5 + 3)) - Z.max 0 (5 * (x / 5 - 3)) <= 30) by lia.
    assert (L2 : Z.min (gh g - gh g mod 5) (5 * (y / 5 + 3)) - Z.max 0 (5 * (y / 5 - 3)) <= 30) by lia.
    pose proof (prepare_good default_prepare g g' HW ltac:(cbn; lia) ltac:(cbn; lia) E) as HG.
    pose proof (window_shape default_prepare (gw g) (gh g) (x / 5) (y / 5) HG) as S.
    cbn [default_prepare block_size] in S. specialize (S (div_range x (gw g) 5 ltac:(lia) Hx) (div_range y (gh g) 5 ltac:(lia) Hy)).
    pose proof (used_window_of default_prepare (gw g) (gh g) x y HG Hx Hy) as U. cbn [default_prepare block_size block_mean_size] in U.
    rewrite U in S. unfold used_window in S. cbn [rx0 rx1 ry0 ry1] in S. change ((7 - 1) / 2) with 3 in S.
    destruct S as (S1 & _ & S2 & _). change 900 with (30 * 30). apply Z.mul_le_mono_nonneg; lia. }
  pose proof (C43_used_partial default_prepare g g' x y HW) as X. cbn [default_prepare block_size block_mean_size] in X.
  fold r in X. destruct X as [H1 H2]; [lia|lia|exact E|exact Hx|exact Hy|lia|]. split; [lia|exact H2].
Qed.

Lemma wf_check w h buf : (0 <=? w) && (w <=? u32_max) && (0 <=? h) && (h <=? u32_max) && (Z.of_nat (length buf) =? w * h)
  && forallb (fun b => N.ltb b 256) buf = true -> wf_gray (Gray w h buf).
Proof.
  intros H. rewrite !andb_true_iff, !Z.leb_le, Z.eqb_eq, forallb_forall in H. destruct H as [[[[[A B] C] D] E] F].
  repeat split; cbn [gw gh gbuf]; try lia. apply Forall_forall. intros b Hb. apply N.ltb_lt. auto.
Qed.

(** 15 by 15 pixels in blocks of 5: black, but for the last block, which is white.  The
    middle pixel is compared with a mean of 0 rather than 28. *)
Definition corner_image (last : N) : gray :=
  Gray 15 15 (map (fun '(x, y) => if (10 <=? x) && (10 <=? y) then last else if (x =? 7) && (y =? 7) then 20%N else 0%N)
                  (coords (Gray 15 15 []))).

(** a non-trivial case of the theorem: a bright pixel among dark ones *)
Example C43_example : exists g', prepare (BlockedMean 5 3) (corner_image 255) = Ok g' /\
  used_window 5 3 15 15 2 2 = Rect 0 5 0 5 /\ used_window 5 3 15 15 7 7 = Rect 0 10 0 10 /\
  used_window 5 3 15 15 14 12 = Rect 5 15 5 15 /\
  get_pixel g' 14 12 = Ok 255%N /\ get_pixel g' 9 11 = Ok 0%N.
Proof. eexists. split; [vm_compute; reflexivity|]. repeat split. Qed.

(** the middle pixel is 30, the last block 255, the rest 10: the pixel is darker than the mean
    of the documented window (over 37) but brighter than that of the window used (about 10) *)
Definition bright_corner : gray :=
  Gray 15 15 (map (fun '(x, y) => if (10 <=? x) && (10 <=? y) then 255%N else if (x =? 7) && (y =? 7) then 30%N else 10%N)
                  (coords (Gray 15 15 []))).
Lemma bright_corner_wf : wf_gray bright_corner.
Proof. apply wf_check. vm_compute. reflexivity. Qed.
Lemma bright_corner_used : exists g', prepare (BlockedMean 5 3) bright_corner = Ok g' /\ get_pixel g' 7 7 = Ok 255%N.
Proof. eexists. split; vm_compute; reflexivity. Qed.
Lemma bright_corner_documented :
  let r := centred_window 5 3 15 15 7 7 in
  rect_count r = 225 /\ black_or_white (rect_sum r (pixel_value bright_corner)) 225 (pixel_value bright_corner 7 7) = 0.
Proof. split; vm_compute; reflexivity. Qed.

Theorem C43_refuted : ~ C43_statement.
Proof.
  intros H. destruct bright_corner_used as (g' & E & P).
  pose proof (H (BlockedMean 5 3) bright_corner g' 7 7 bright_corner_wf) as X. clear H.
  cbn [block_size block_mean_size] in X. pose proof bright_corner_documented as D. cbv zeta in D, X.
  change (gw bright_corner) with 15 in X. change (gh bright_corner) with 15 in X.
  destruct D as [D1 D2]. rewrite D1, D2, P in X.
  specialize (X ltac:(lia) ltac:(lia) E ltac:(lia) ltac:(lia) ltac:(lia)). clear E P D1 D2. discriminate X.
Qed.

(** *** C44: locality *)

Lemma rect_sum_ext r f f' : (forall x y, inside r x y -> f x y = f' x y) -> rect_sum r f = rect_sum r f'.
Proof.
  intros H. unfold rect_sum. rewrite !sum_between_zsum. apply zsum_ext. intros x Hx. rewrite !sum_between_zsum.
  apply zsum_ext. intros y Hy. apply in_zrange in Hx, Hy. apply H. unfold inside. lia.
Qed.

(** the pixel and its window decide *)
Theorem C44_local cfg g1 g2 r1 r2 x y : wf_gray g1 -> wf_gray g2 -> gw g1 = gw g2 -> gh g1 = gh g2 ->
  0 <= block_size cfg -> 0 <= block_mean_size cfg ->
  prepare cfg g1 = Ok r1 -> prepare cfg g2 = Ok r2 -> 0 <= x < gw g1 -> 0 <= y < gh g1 ->
  (forall x' y', inside (used_window (block_size cfg) (block_mean_size cfg) (gw g1) (gh g1) x y) x' y' ->
     get_pixel g1 x' y' = get_pixel g2 x' y') ->
  get_pixel g1 x y = get_pixel g2 x y ->
  get_pixel r1 x y = get_pixel r2 x y.
Proof.
  intros HW1 HW2 EW EH Hb Hm E1 E2 Hx Hy HA HP.
  pose proof (prepare_good cfg g1 r1 HW1 Hb Hm E1) as HG.
  assert (HG2 : good cfg (gw g2) (gh g2)) by (now rewrite <- EW, <- EH).
  rewrite (prepare_ok cfg g1 HW1 HG) in E1. injection E1 as <-.
  rewrite (prepare_ok cfg g2 HW2 HG2) in E2. injection E2 as <-.
  change (coords g1) with (coords (Gray (gw g1) (gh g1) [])). change (coords g2) with (coords (Gray (gw g2) (gh g2) [])).
  rewrite <- EW, <- EH. rewrite !get_pixel_map by lia. unfold mean_of. rewrite <- EW, <- EH. rewrite used_window_of by auto.
  set (r := used_window _ _ _ _ _ _) in *.
  rewrite !get_pixel_pix in HP by (auto; lia). injection HP as ->. do 4 f_equal. apply rect_sum_ext.
  intros x' y' HI. f_equal.
  assert (S : 0 <= rx0 r < rx1 r /\ rx1 r <= gw g1 /\ 0 <= ry0 r < ry1 r /\ ry1 r <= gh g1).
  { unfold r. rewrite <- used_window_of by auto. pose proof HG as (Hb1 & _).
    apply window_shape; [exact HG|apply div_range; lia|apply div_range; lia]. }
  specialize (HA x' y' HI). unfold inside in HI.
  rewrite !get_pixel_pix in HA by (auto; lia). now injection HA.
Qed.

(** in particular the pixels of the documented window decide *)
Theorem C44_documented cfg g1 g2 r1 r2 x y : wf_gray g1 -> wf_gray g2 -> gw g1 = gw g2 -> gh g1 = gh g2 ->
  0 <= block_size cfg -> 0 <= block_mean_size cfg ->
  prepare cfg g1 = Ok r1 -> prepare cfg g2 = Ok r2 -> 0 <= x < gw g1 -> 0 <= y < gh g1 ->
  (forall x' y', inside (centred_window (block_size cfg) (block_mean_size cfg) (gw g1) (gh g1) x y) x' y' ->
     get_pixel g1 x' y' = get_pixel g2 x' y') ->
  get_pixel r1 x y = get_pixel r2 x y.
Proof.
  intros HW1 HW2 EW EH Hb Hm E1 E2 Hx Hy HA.
  pose proof (prepare_good cfg g1 r1 HW1 Hb Hm E1) as (Hb1 & Hm3 & Hw & Hh & _).
  set (bs := block_size cfg) in *. set (s := (block_mean_size cfg - 1) / 2).
  assert (Hs : 1 <= s) by (apply Z.div_le_lower_bound; lia).
  assert (K : forall z, 0 <= z -> 0 <= z / bs /\ bs * (z / bs) <= z < bs * (z / bs) + bs).
  { intros z Hz. pose proof (Z.div_mod z bs ltac:(lia)). pose proof (Z.mod_pos_bound z bs ltac:(lia)).
    split; [apply Z.div_pos; lia|lia]. }
  assert (B : forall u, 0 <= bs * u - bs * (u - s)) by nia.
  assert (Hbs : bs <= bs * s) by nia.
  apply (C44_local cfg g1 g2 r1 r2 x y); auto.
  - intros x' y' HI. apply HA. unfold inside, used_window, centred_window in *. cbn [rx0 rx1 ry0 ry1] in *. fold bs in HI. fold bs.
    fold s. fold s in HI. pose proof (Z.mod_pos_bound (gw g1) bs ltac:(lia)). pose proof (Z.mod_pos_bound (gh g1) bs ltac:(lia)). lia.
  - apply HA. unfold inside, centred_window. cbn [rx0 rx1 ry0 ry1]. fold bs. fold s.
    destruct (K x ltac:(lia)), (K y ltac:(lia)). lia.
Qed.

(** changing the far corner does not alter the first block *)
Example C44_example : exists r1 r2,
  prepare (BlockedMean 5 3) (corner_image 255) = Ok r1 /\ prepare (BlockedMean 5 3) (corner_image 9) = Ok r2 /\
  get_pixel r1 7 7 = get_pixel r2 7 7 /\ get_pixel r1 14 14 <> get_pixel r2 14 14 /\
  forall x' y', inside (used_window 5 3 15 15 7 7) x' y' -> get_pixel (corner_image 255) x' y' = get_pixel (corner_image 9) x' y'.
Proof.
  eexists. eexists. split; [vm_compute; reflexivity|]. split; [vm_compute; reflexivity|]. split; [reflexivity|].
  split; [vm_compute; discriminate|]. intros x' y' H. unfold inside in H. vm_compute in H.
  assert (Hx : 0 <= x' < 10) by (destruct H as [[H1 H2] _]; split; [|exact H2]; destruct x'; (discriminate || lia || now contradiction H1)).
  assert (Hy : 0 <= y' < 10) by (destruct H as [_ [H1 H2]]; split; [|exact H2]; destruct y'; (discriminate || lia || now contradiction H1)).
  unfold corner_image. rewrite !get_pixel_map by lia.
  destruct (Z.leb_spec 10 x'); [lia|]. reflexivity.
Qed.
