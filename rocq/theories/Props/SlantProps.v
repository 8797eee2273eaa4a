(** Finder patterns at any angle (C73, C74). *)
From Coq Require Import NArith ZArith Reals List Lia Lra Bool Psatz.
From Verif.Model Require Import Prepare Detect.
From Flocq Require Import Core.
From Verif.Spec Require Import Window Finder Plane Symbol Drawing Angle Slant.
From Verif.Proofs Require Import BaseP PrepareP FloatP ApproxP DetectP GeometryP ExtractP AlignP RefineP RefineF ScanP SlantP SlantF SlantScan.
From Verif.Props Require Import DetectProps ExtractProps FinderProps.
Import ListNotations.
Local Open Scope R_scope.

(** the candidate is at most 23/5 pixels beside and 18/5 pixels above or below the centre *)
Definition found_near (m c s ax ay : R) (f : finder_pos) : Prop := exists x y v,
  point_of (fp_location f) (Vec x y) /\ value_of (fp_module_size f) v /\
  Rabs (x - ax) <= 23 / 5 /\ Rabs (y - ay) <= 18 / 5 /\ Rabs (v - m / larger c s) <= 5 / 6.
(** a candidate that is close enough to make the code pass over the pattern *)
Definition close_by (m c s ax ay : R) (f : finder_pos) : Prop := exists p,
  point_of (fp_location f) p /\ norm (minus (Vec ax ay) p) < 7 * (m / larger c s) + 5.

Lemma norm_triangle a b p q : norm (minus (Vec a b) p) <= Rabs (a - vx q) + Rabs (b - vy q) + norm (minus q p).
Proof.
  unfold norm. cbn [minus vx vy]. set (u := a - vx q). set (w := b - vy q). set (k := vx q - vx p). set (l := vy q - vy p).
  replace (a - vx p) with (u + k) by (unfold u, k; ring). replace (b - vy p) with (w + l) by (unfold w, l; ring).
  assert (S : k * k + l * l = sqrt (k * k + l * l) * sqrt (k * k + l * l)) by (symmetry; apply sqrt_sqrt; apply Rplus_le_le_0_compat; apply Rle_0_sqr). set (n := sqrt (k * k + l * l)) in *.
  assert (N0 : 0 <= n) by apply sqrt_pos.
  assert (K : Rabs k <= n /\ Rabs l <= n) by (apply sq_sum_abs; [exact N0|lra]).
  pose proof (Rabs_pos u) as U0. pose proof (Rabs_pos w) as W0.
  apply Rsqr_incr_0_var; [|lra]. unfold Rsqr. assert (SQ : forall t, 0 <= t * t) by (intros t; apply Rle_0_sqr). rewrite sqrt_sqrt by (apply Rplus_le_le_0_compat; apply SQ).
  assert (UU : u * u = Rabs u * Rabs u) by (rewrite <- Rabs_mult, Rabs_pos_eq; auto). assert (WW : w * w = Rabs w * Rabs w) by (rewrite <- Rabs_mult, Rabs_pos_eq; auto).
  assert (UK : u * k <= Rabs u * n). { apply Rle_trans with (1 := Rle_abs _). rewrite Rabs_mult. apply Rmult_le_compat_l; tauto. }
  assert (WL : w * l <= Rabs w * n). { apply Rle_trans with (1 := Rle_abs _). rewrite Rabs_mult. apply Rmult_le_compat_l; tauto. }
  assert (0 <= Rabs u * Rabs w) by (apply Rmult_le_pos; assumption). nra.
Qed.

(** *** C73 *)
(** [y] is the row nearest to the centre and [e] a column right of the first dark column of the pattern *)
Theorem C73_found g m c s ax ay y e cs : wf_gray g -> finder_at_angle (pixel g) m c s ax ay -> 18 <= m -> (gw g <= 2 ^ 26)%Z -> (gh g <= 2 ^ 26)%Z ->
  Rabs (IZR y - ay) <= / 2 -> ax - 2 * (m / larger c s) <= IZR e -> steady (fun x => pix g x y) e -> find_candidates g = Ok cs ->
  exists f, In f cs /\ (found_near m c s ax ay f \/ close_by m c s ax ay f).
Proof.
  intros WF HD SIZE WX WY HY HE HS E.
  destruct (slant_scanned g m c s ax ay WF HD SIZE WX WY y e cs HY HE HS E) as (f & Hf & x' & y' & FX & FY & [H|H]); exists f; (split; [exact Hf|]).
  - left. destruct H as (H1 & H2 & v' & FV & H3). exists x', y', v'. split; [split; now apply fin_value|]. split; [now apply fin_value|]. auto.
  - right. destruct H as (p & x0 & y0 & ms & v & FX0 & FY0 & FV & (B1 & B2 & B3 & B4 & B5 & B6) & N). change (big_cs c s) with (larger c s) in *.
    exists (Vec x' y'). split; [split; now apply fin_value|].
    destruct (find_candidates_ok g WF) as (cs' & E' & HC). rewrite E in E'. injection E' as <-.
    unfold cands_ok in HC. rewrite Forall_forall in HC. destruct (HC f Hf) as (_ & x2 & y2 & X2 & Y2 & BX & BY).
    rewrite (fin_inj _ _ _ X2 FX) in BX. rewrite (fin_inj _ _ _ Y2 FY) in BY.
    assert (W1 : IZR (gw g - 1) <= 67108864) by (apply IZR_le; lia). assert (W2 : IZR (gh g - 1) <= 67108864) by (apply IZR_le; lia).
    destruct (dist_ok p (fp_location f) (Vec x0 y0) (Vec x' y')) as (l & F & L & L1 & _).
    { split; [exact FX0|exact FY0]. } { split; [exact FX|exact FY]. }
    { unfold box; cbn [vx vy]; lra. } { unfold box; cbn [vx vy]; lra. }
    destruct (mul_f (of_Z 7) ms 7 v (fin_of_Z 7 ltac:(lia)) FV) as (w & FW & EW); [unfold top; rabs; lra|]. unfold eps in EW.
    rewrite (flt_R _ _ _ _ F FW) in N. destruct (Rlt_bool_spec l w) as [A|A]; [|discriminate].
    pose proof (norm_triangle ax ay (Vec x' y') (Vec x0 y0)) as T. cbn [vx vy] in T. set (n := norm (minus (Vec x0 y0) (Vec x' y'))) in *.
    rewrite <- Rabs_Ropp in B1. rewrite <- Rabs_Ropp in B2. rewrite !Ropp_minus_distr in *.
    assert (M1 : 18 <= m / larger c s).
    { destruct (big_small g m c s ax ay HD) as (K1 & K2 & K3). change (big_cs c s) with (larger c s) in *. apply Rmult_le_reg_r with (larger c s); [exact K1|].
      unfold Rdiv. rewrite Rmult_assoc, Rinv_l by lra. nra. }
    assert (NB : n <= 7 * v + / 10).
    { destruct (Rlt_or_le n 1) as [C1|C1]; [|specialize (L1 C1); unfold u53 in L1; clear - L1 A EW B6; rabs; lra].
      clear - C1 B3 M1. rabs; lra. }
    clear - T B1 B2 B3 NB. rabs; lra.
Qed.

(** nothing else is close by: the pattern is found near its centre *)
Corollary C73_alone g m c s ax ay y e cs : wf_gray g -> finder_at_angle (pixel g) m c s ax ay -> 18 <= m -> (gw g <= 2 ^ 26)%Z -> (gh g <= 2 ^ 26)%Z ->
  Rabs (IZR y - ay) <= / 2 -> ax - 2 * (m / larger c s) <= IZR e -> steady (fun x => pix g x y) e -> find_candidates g = Ok cs ->
  (forall f, In f cs -> close_by m c s ax ay f -> found_near m c s ax ay f) -> exists f, In f cs /\ found_near m c s ax ay f.
Proof.
  intros WF HD SIZE WX WY HY HE HS E HN. destruct (C73_found g m c s ax ay y e cs WF HD SIZE WX WY HY HE HS E) as (f & Hf & [H|H]); exists f; auto.
Qed.

(** nothing dark to the left of the pattern in the row nearest to the centre *)
Theorem C73_white g m c s ax ay y cs : wf_gray g -> finder_at_angle (pixel g) m c s ax ay -> 18 <= m -> (gw g <= 2 ^ 26)%Z -> (gh g <= 2 ^ 26)%Z ->
  Rabs (IZR y - ay) <= / 2 -> (forall x, (0 <= x)%Z -> IZR x < ax - 4 * (m / larger c s) -> pixel g x y = Some 255%N) -> find_candidates g = Ok cs ->
  exists f, In f cs /\ (found_near m c s ax ay f \/ close_by m c s ax ay f).
Proof.
  intros WF HD SIZE WX WY HY HL E.
  destruct (row_crossed g m c s ax ay WF HD SIZE y HY) as (tau & d & a4 & a3 & a2 & a1 & b1 & b2 & b3 & CR & D0 & HK & HM & K1 & _). change (big_cs c s) with (larger c s) in *.
  destruct CR as [A4 A3 A2 A1 B1 B2 B3 S4 S3 S2 S1 T1 T2 T3 IN]. cbn [fst snd] in IN.
  assert (TA : - / 2 <= tau - ax <= / 2 /\ d <= / 2) by (clear - K1 D0; rabs; lra).
  assert (L : (a3 < a2 < a1)%Z /\ (a1 <= b3)%Z /\ (a3 - 1 <= b3)%Z) by (repeat split; [apply lt_IZR|apply lt_IZR|apply le_IZR|apply le_IZR; rewrite minus_IZR]; lra).
  pose proof (IN (a3 - 1)%Z ltac:(lia)) as I1. pose proof (IN b3 ltac:(lia)) as I2.
  assert (PX : forall x v, (0 <= x < a1)%Z -> get_pixel g x y = Ok v -> pix g x y = v).
  { intros x v Hx G. rewrite get_pixel_pix in G by (auto; lia). now injection G. }
  assert (W3 : forall x, (0 <= x < a3)%Z -> pix g x y = 255%N).
  { intros x Hx. apply PX; [lia|]. destruct (Z_lt_le_dec x a4) as [G|G].
    - apply pixel_get, HL; [lia|]. assert (IZR x + 1 <= IZR a4) by (rewrite <- plus_IZR; apply IZR_le; lia). lra.
    - apply (S4 x). lia. }
  assert (K3 : forall x, (a3 <= x < a2)%Z -> pix g x y = 0%N) by (intros x Hx; apply PX; [lia|]; now apply (S3 x)).
  assert (W2 : forall x, (a2 <= x < a1)%Z -> pix g x y = 255%N) by (intros x Hx; apply PX; [lia|]; now apply (S2 x)).
  apply (C73_found g m c s ax ay y (a1 - 1) cs WF HD SIZE WX WY HY); [rewrite minus_IZR; lra| |exact E].
  intros a b d' HA HB CA NA NB CB ND.
  assert (KA : forall x, (0 < x <= a1 - 1)%Z -> pix g (x - 1) y <> pix g x y -> x = a3 \/ x = a2).
  { intros x Hx N. destruct (Z.eq_dec x a3); [auto|]. destruct (Z.eq_dec x a2); [auto|]. exfalso. apply N.
    destruct (Z_lt_le_dec x a3); [rewrite !W3 by lia; reflexivity|]. destruct (Z_lt_le_dec x a2); [rewrite !K3 by lia; reflexivity|]. rewrite !W2 by lia. reflexivity. }
  exfalso. apply KA in NA; [|lia].
  assert (XB : b = a3 \/ b = a2) by (apply KA; [lia|]; rewrite (CA (b - 1)%Z) by lia; congruence).
  assert (XD : d' = a3 \/ d' = a2) by (apply KA; [lia|]; rewrite (CB (d' - 1)%Z) by lia; congruence).
  lia.
Qed.

(** *** an example: the pattern at an angle with the slope 3/4, 20 pixels per module *)
Definition tipped_pixel (m x y : Z) : N :=
  let column := ((2 * (4 * x + 3 * y) + 45 * m) / (10 * m))%Z in let row := ((2 * (4 * y - 3 * x) + 45 * m) / (10 * m))%Z in
  if ((0 <=? row) && (row <? 9) && (0 <=? column) && (column <? 9) && ringed_finder row column)%Z then 0%N else 255%N.
Definition tipped (m n : Z) : gray := image_of (2 * n) (2 * n) (fun x y => tipped_pixel m (x - n) (y - n)).

Lemma tipped_wf m n : (1 <= n <= 1000)%Z -> wf_gray (tipped m n).
Proof. intros H. apply image_of_wf; [unfold u32_max; lia..|]. intros x y. unfold tipped_pixel. cbv zeta. now destruct (_ && _). Qed.
Lemma tipped_drawn m n : (1 <= m)%Z -> (7 * m <= n)%Z -> finder_at_angle (pixel (tipped m n)) (IZR m) (4 / 5) (3 / 5) (IZR n) (IZR n).
Proof.
  intros Hm Hn. assert (M1 : 1 <= IZR m) by (apply IZR_le; lia). split; [lra|]. split; [lra|]. intros row column i j RR RC [[A1 A2] [B1 B2]].
  unfold middle_x, middle_y in *.
  assert (X : (10 * m * column <= 2 * (4 * (i - n) + 3 * (j - n)) + 45 * m < 10 * m * column + 10 * m)%Z).
  { split; [apply le_IZR|apply lt_IZR]; rewrite ?plus_IZR, ?mult_IZR, ?plus_IZR, ?mult_IZR, ?minus_IZR; lra. }
  assert (Y : (10 * m * row <= 2 * (4 * (j - n) - 3 * (i - n)) + 45 * m < 10 * m * row + 10 * m)%Z).
  { split; [apply le_IZR|apply lt_IZR]; rewrite ?plus_IZR, ?mult_IZR, ?minus_IZR, ?mult_IZR, ?minus_IZR; lra. }
  assert (R10 : (10 * m * row <= 80 * m)%Z) by nia. assert (C10 : (10 * m * column <= 80 * m)%Z) by nia. assert (R0 : (0 <= 10 * m * row)%Z) by nia. assert (C0 : (0 <= 10 * m * column)%Z) by nia.
  assert (0 <= i < 2 * n)%Z by lia. assert (0 <= j < 2 * n)%Z by lia. split; [lia|]. split; [lia|].
  unfold pixel, tipped. rewrite image_of_pixel by lia. unfold tipped_pixel. cbv zeta.
  replace ((2 * (4 * (i - n) + 3 * (j - n)) + 45 * m) / (10 * m))%Z with column by (apply Z.div_unique with (2 * (4 * (i - n) + 3 * (j - n)) + 45 * m - 10 * m * column)%Z; lia).
  replace ((2 * (4 * (j - n) - 3 * (i - n)) + 45 * m) / (10 * m))%Z with row by (apply Z.div_unique with (2 * (4 * (j - n) - 3 * (i - n)) + 45 * m - 10 * m * row)%Z; lia).
  destruct (Z.leb_spec 0 row); [|lia]. destruct (Z.ltb_spec row 9); [|lia]. destruct (Z.leb_spec 0 column); [|lia]. destruct (Z.ltb_spec column 9); [|lia]. reflexivity.
Qed.
Lemma larger_45 : larger (4 / 5) (3 / 5) = 4 / 5.
Proof. unfold larger. rewrite !Rabs_pos_eq by lra. apply Rmax_left. lra. Qed.
Example C73_example : exists cs f, find_candidates (tipped 20 150) = Ok cs /\ In f cs /\
  (found_near 20 (4 / 5) (3 / 5) 150 150 f \/ close_by 20 (4 / 5) (3 / 5) 150 150 f).
Proof.
  assert (WF : wf_gray (tipped 20 150)) by (apply tipped_wf; lia).
  destruct (find_candidates_ok (tipped 20 150) WF) as (cs & E & _). exists cs.
  destruct (C73_white (tipped 20 150) 20 (4 / 5) (3 / 5) 150 150 150 cs) as (f & Hf & H); auto.
  - apply (tipped_drawn 20 150); lia.
  - lra.
  - cbn [tipped image_of gw]. lia.
  - cbn [tipped image_of gh]. lia.
  - rewrite Rminus_diag_eq, Rabs_R0 by reflexivity. lra.
  - rewrite larger_45. intros x X0 XL. assert (XX : (x < 50)%Z) by (apply lt_IZR; lra).
    unfold pixel, tipped. rewrite image_of_pixel by lia. unfold tipped_pixel, ringed_finder. cbv zeta.
    destruct (Z.leb_spec 1 ((2 * (4 * (x - 150) + 3 * (150 - 150)) + 45 * 20) / (10 * 20)))%Z as [L|L]; [|now rewrite !andb_false_r].
    assert ((2 * (4 * (x - 150) + 3 * (150 - 150)) + 45 * 20) / (10 * 20) < 1)%Z by (apply Z.div_lt_upper_bound; lia). lia.
  - exists f. auto.
Qed.

(** *** C74: how far off the centre is *)
Definition within (d ax ay : R) (f : finder_pos) : Prop := exists x y, point_of (fp_location f) (Vec x y) /\ Rabs (x - ax) <= d /\ Rabs (y - ay) <= d.
(** nothing else in the picture *)
Definition only_finder (g : gray) (m c s ax ay : R) : Prop := finder_at_angle (pixel g) m c s ax ay /\
  forall x y, (0 <= x < gw g)%Z -> (0 <= y < gh g)%Z -> pixel g x y <> Some 255%N -> exists row column, (0 <= row < 9)%Z /\ (0 <= column < 9)%Z /\
    in_module m c s (middle_x m c s ax (-4) (-4)) (middle_y m c s ay (-4) (-4)) row column (IZR x) (IZR y).
Definition C74_statement : Prop := forall g m c s ax ay cs, wf_gray g -> only_finder g m c s ax ay -> 5 <= m -> (gw g <= 2 ^ 26)%Z -> (gh g <= 2 ^ 26)%Z ->
  find_candidates g = Ok cs -> exists f, In f cs /\ within (m / 2) ax ay f.

Lemma tipped_only m n : (1 <= m)%Z -> (7 * m <= n)%Z -> only_finder (tipped m n) (IZR m) (4 / 5) (3 / 5) (IZR n) (IZR n).
Proof.
  intros Hm Hn. split; [now apply tipped_drawn|]. intros x y Hx Hy N. cbn [tipped image_of gw gh] in Hx, Hy.
  unfold pixel, tipped in N. rewrite image_of_pixel in N by lia. unfold tipped_pixel in N. cbv zeta in N.
  set (column := ((2 * (4 * (x - n) + 3 * (y - n)) + 45 * m) / (10 * m))%Z) in *. set (row := ((2 * (4 * (y - n) - 3 * (x - n)) + 45 * m) / (10 * m))%Z) in *.
  assert (D : (10 * m * column <= 2 * (4 * (x - n) + 3 * (y - n)) + 45 * m < 10 * m * column + 10 * m)%Z).
  { pose proof (Z.div_mod (2 * (4 * (x - n) + 3 * (y - n)) + 45 * m) (10 * m) ltac:(lia)). pose proof (Z.mod_pos_bound (2 * (4 * (x - n) + 3 * (y - n)) + 45 * m) (10 * m) ltac:(lia)). fold column in H. lia. }
  assert (D2 : (10 * m * row <= 2 * (4 * (y - n) - 3 * (x - n)) + 45 * m < 10 * m * row + 10 * m)%Z).
  { pose proof (Z.div_mod (2 * (4 * (y - n) - 3 * (x - n)) + 45 * m) (10 * m) ltac:(lia)). pose proof (Z.mod_pos_bound (2 * (4 * (y - n) - 3 * (x - n)) + 45 * m) (10 * m) ltac:(lia)). fold row in H. lia. }
  exists row, column. destruct (Z.leb_spec 0 row); [|contradiction N; reflexivity]. destruct (Z.ltb_spec row 9); [|contradiction N; reflexivity].
  destruct (Z.leb_spec 0 column); [|contradiction N; reflexivity]. destruct (Z.ltb_spec column 9); [|contradiction N; reflexivity]. split; [lia|]. split; [lia|].
  destruct D as [D1 D3]. destruct D2 as [D4 D5]. apply IZR_le in D1, D4. apply IZR_lt in D3, D5.
  rewrite ?plus_IZR, ?mult_IZR, ?plus_IZR, ?mult_IZR, ?minus_IZR, ?mult_IZR, ?minus_IZR in *. unfold in_module, middle_x, middle_y. lra.
Qed.

(** five pixels per module, slope 3/4: the row that comes across the pattern first is three pixels off
    when it has been refined, and no other row is tried *)
Theorem C74_refuted : ~ C74_statement.
Proof.
  intros H. assert (E : exists ms l, find_candidates (tipped 5 35) = Ok [FP (Pt (of_Z 33) (of_Z 38)) ms l]) by (do 2 eexists; vm_compute; reflexivity).
  destruct E as (ms & l & E).
  destruct (fun A B => H (tipped 5 35) 5 (4 / 5) (3 / 5) 35 35 _ (tipped_wf 5 35 ltac:(lia)) (tipped_only 5 35 ltac:(lia) ltac:(lia)) ltac:(lra) A B E) as (f & [<-|[]] & x & y & [_ VY] & _ & EY).
  - cbn [tipped image_of gw]. lia.
  - cbn [tipped image_of gh]. lia.
  - cbn [fp_location px py vx vy] in VY. pose proof (fin_inj _ _ _ (fin_of_Z 38 ltac:(lia)) (value_fin _ _ _ VY (fin_of_Z 38 ltac:(lia)))) as V. rewrite <- V in EY.
    rewrite Rabs_pos_eq in EY by lra. lra.
Qed.

(** What holds: from the row nearest to the centre the pattern is found to within 23/5 pixels, less than half a
    module.  Missing from the full statement: the rows further up, which are scanned before. *)
Theorem C74_middle_partial g m c s ax ay p x y ms v : wf_gray g -> finder_at_angle (pixel g) m c s ax ay -> 18 <= m -> (gw g <= 2 ^ 26)%Z -> (gh g <= 2 ^ 26)%Z ->
  point_at p x y -> fin ms v -> 0 <= x <= 67108864 -> 0 <= y <= 67108864 -> m / larger c s <= 11000000 ->
  Rabs (y - ay) <= / 2 -> - / 4 <= x - ax <= 5 / 4 -> Rabs (v - m / larger c s) <= / 7 ->
  exists q ms', refine_all g p ms = Ok (Some (q, ms')) /\ found_near m c s ax ay (FP q ms' (of_Z 0)) /\ within (m / 2) ax ay (FP q ms' (of_Z 0)).
Proof.
  intros WF HD SIZE WX WY [FX FY] FV BX BY MB HY HX HV. change (larger c s) with (big_cs c s) in *.
  destruct (slant_refined g m c s ax ay WF HD SIZE WX WY p x y ms v FX FY BX BY FV MB HY) as (q & ms' & x' & y' & v' & R & F1 & F2 & F3 & G1 & G2 & G3); [intros _; lra..|].
  exists q, ms'. split; [exact R|]. split.
  - exists x', y', v'. cbn [fp_location fp_module_size]. split; [split; now apply fin_value|]. split; [now apply fin_value|]. auto.
  - exists x', y'. cbn [fp_location]. split; [split; now apply fin_value|]. lra.
Qed.
Example C74_example : exists q ms', refine_all (tipped 20 150) (Pt (of_Z 150) (of_Z 150)) (of_Z 25) = Ok (Some (q, ms')) /\ within 10 150 150 (FP q ms' (of_Z 0)).
Proof.
  destruct (C74_middle_partial (tipped 20 150) 20 (4 / 5) (3 / 5) 150 150 (Pt (of_Z 150) (of_Z 150)) 150 150 (of_Z 25) 25) as (q & ms' & R & _ & W);
    rewrite ?larger_45, ?Rminus_diag_eq, ?Rabs_R0; try lra.
  - apply tipped_wf. lia.
  - apply (tipped_drawn 20 150); lia.
  - cbn [tipped image_of gw]. lia.
  - cbn [tipped image_of gh]. lia.
  - split; apply fin_of_Z; lia.
  - apply fin_of_Z. lia.
  - exists q, ms'. split; [exact R|]. now replace 10 with (20 / 2) by lra.
Qed.
