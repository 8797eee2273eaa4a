(** Refinement finds the centre of a finder pattern. *)
From Coq Require Import NArith ZArith Reals List Lia Lra Bool Arith Psatz.
From Verif.Model Require Import Prepare Detect.
From Flocq Require Import Core.
From Verif.Spec Require Import Window Finder Drawing.
From Verif.Proofs Require Import BaseP PrepareP FloatP ApproxP DetectP ExtractP AlignP RefineP.
Import ListNotations.
Local Open Scope Z_scope.

Lemma combine_seq {A B} (f : nat -> A) (h : nat -> B) a : forall b k,
  combine (map f (seq k a)) (map h (seq k b)) = map (fun i => (f i, h i)) (seq k (Nat.min a b)).
Proof.
  induction a as [|a IH]; intros b k; [reflexivity|]. destruct b as [|b]; [reflexivity|]. cbn. now rewrite IH.
Qed.
Lemma combine_zrange a b c d s : combine (zrange a b) (zrange c d) =
  map (fun t => (a - s + t, c - s + t)) (zrange s (s + Z.min (b - a) (d - c))).
Proof.
  unfold zrange. rewrite combine_seq, map_map. replace (Z.to_nat (s + Z.min (b - a) (d - c) - s)) with (Nat.min (Z.to_nat (b - a)) (Z.to_nat (d - c))) by lia.
  apply map_ext. intros i. f_equal; lia.
Qed.

Section Finder.
Context (g : gray) (m fx fy : Z).
Context (WF : wf_gray g) (HF : finder_drawn (pixel g) m fx fy) (Hm : 2 <= m).
Context (WX : gw g <= 2 ^ 26) (WY : gh g <= 2 ^ 26).

Lemma in_pixel x y : 0 <= x < gw g -> 0 <= y < gh g -> exists v, pixel g x y = Some v /\ get_pixel g x y = Ok v.
Proof.
  intros Hx Hy. pose proof (get_pixel_pix g x y WF Hx Hy) as E. exists (pix g x y). split; [|exact E]. unfold pixel. now rewrite E.
Qed.

Lemma corner : 0 <= fx /\ 0 <= fy.
Proof. destruct HF as ((H1 & H2 & _) & _). lia. Qed.

Lemma finder_pixel r c u w : 0 <= r < 7 -> 0 <= c < 7 -> c * m <= u < c * m + m -> r * m <= w < r * m + m ->
  get_pixel g (fx + u) (fy + w) = Ok (colour (finder_dark r c)).
Proof.
  intros Hr Hc Hu Hw. destruct HF as ((_ & _ & _ & D) & _). apply pixel_get.
  replace (fx + u) with (fx + c * m + (u - c * m)) by lia. replace (fy + w) with (fy + r * m + (w - r * m)) by lia.
  unfold colour. apply D; lia.
Qed.

Lemma module_of u : 0 <= u < 7 * m -> exists c, 0 <= c < 7 /\ c * m <= u < c * m + m.
Proof.
  intros H. exists (u / m). pose proof (Z.div_mod u m ltac:(lia)). pose proof (Z.mod_pos_bound u m ltac:(lia)).
  assert (0 <= u / m) by (apply Z.div_pos; lia). assert (u / m < 7) by (apply Z.div_lt_upper_bound; lia). lia.
Qed.

Definition inner (u : Z) : Prop := 2 * m <= u < 5 * m.
Definition middling (u : Z) : Prop := m <= u < 6 * m.
Lemma finder_at u w : 0 <= u < 7 * m -> 0 <= w < 7 * m ->
  (inner u /\ inner w \/ ~ (middling u /\ middling w) -> get_pixel g (fx + u) (fy + w) = Ok 0%N) /\
  (middling u /\ middling w -> ~ (inner u /\ inner w) -> get_pixel g (fx + u) (fy + w) = Ok 255%N).
Proof.
  intros Hu Hw. destruct (module_of u Hu) as (c & Hc & Hu'). destruct (module_of w Hw) as (r & Hr & Hw').
  rewrite (finder_pixel r c) by assumption. unfold inner, middling.
  assert (C : c = 0 \/ c = 1 \/ c = 2 \/ c = 3 \/ c = 4 \/ c = 5 \/ c = 6) by lia.
  assert (R : r = 0 \/ r = 1 \/ r = 2 \/ r = 3 \/ r = 4 \/ r = 5 \/ r = 6) by lia.
  clear Hr Hc. destruct C as [-> | [-> | [-> | [-> | [-> | [-> | ->]]]]]]; destruct R as [-> | [-> | [-> | [-> | [-> | [-> | ->]]]]]];
    cbv [finder_dark colour Z.max Z.abs Z.sub Z.add Z.opp Pos.sub Pos.add Z.pos_sub Pos.compare Pos.compare_cont Z.compare Z.eqb Pos.eqb negb Pos.pred_double Pos.succ Z.double Z.succ_double Z.pred_double Pos.sub_mask];
    (split; [intros K; first [reflexivity|exfalso; lia]|intros K1 K2; first [reflexivity|exfalso; lia]]).
Qed.

Lemma bounds : fx + 7 * m < gw g /\ fy + 7 * m <= gh g.
Proof.
  pose proof corner. destruct HF as (_ & _ & _ & _ & _ & _ & _ & R). split.
  - specialize (R fy ltac:(lia)). apply pixel_get in R. apply get_pixel_in in R; [lia|exact WF|lia|lia].
  - specialize (R (fy + 7 * m - 1) ltac:(lia)). apply pixel_get in R. apply get_pixel_in in R; [lia|exact WF|lia|lia].
Qed.
Lemma m_top : m <= 10000000.
Proof. pose proof bounds. pose proof corner. lia. Qed.

Lemma shows_get c x0 x1 y0 y1 x y : one_colour (pixel g) c x0 x1 y0 y1 -> x0 <= x < x1 -> y0 <= y < y1 -> 0 <= x < gw g -> 0 <= y < gh g -> get_pixel g x y = Ok c.
Proof.
  intros S Hx Hy Gx Gy. destruct (in_pixel x y Gx Gy) as (v & P & ->). f_equal. apply (S x y v); try assumption; lia.
Qed.
Lemma plain_get x0 x1 y0 y1 : plain (pixel g) x0 x1 y0 y1 -> exists c, (c = 0%N \/ c = 255%N) /\
  forall x y, x0 <= x < x1 -> y0 <= y < y1 -> 0 <= x < gw g -> 0 <= y < gh g -> get_pixel g x y = Ok c.
Proof. intros [S|S]; eexists; (split; [|intros x y; now apply (shows_get _ _ _ _ _ x y S)]); tauto. Qed.
Lemma ring x y : fx - m <= x < fx + 8 * m -> fy - m <= y < fy + 8 * m -> ~ (fx <= x < fx + 7 * m /\ fy <= y < fy + 7 * m) ->
  0 <= x < gw g -> 0 <= y < gh g -> get_pixel g x y = Ok 255%N.
Proof.
  intros H1 H2 H3 Gx Gy. destruct (in_pixel x y Gx Gy) as (v & P & ->). f_equal. destruct HF as (_ & R & _). apply (R x y v); try assumption; lia.
Qed.

(** *** the vertical line *)
Lemma vertical finder ms : fin ms (IZR m) -> hf (px finder) (2 * fx + 7 * m) -> py finder = of_Z (fy + 2 * m) ->
  exists ms', fin ms' (IZR m) /\
  refine_vertical g finder ms = Ok (Some (FP (Pt (of_Z (fx + (7 * m + 1) / 2)) (of_Z (fy + 7 * m - 1))) ms' (est_of (7 * m)))).
Proof.
  intros FM FX FY. pose proof bounds as B. pose proof corner as C. pose proof m_top as T.
  exists (fdiv (fadd ms (est_of (7 * m))) (of_Z 2)). split; [apply avg_exact; [lia|exact FM|apply est_exact; lia]|].
  unfold refine_vertical. rewrite FY.
  assert (M5 : hf (fmul (of_Z 5) ms) (5 * (2 * m))) by (apply hf_mul; [apply fin_of_Z; lia|now apply fin_hf|unfold hb; lia]).
  assert (Y : hf (of_Z (fy + 2 * m)) (2 * (fy + 2 * m))) by (apply hf_Z; unfold hb; lia).
  rewrite (hf_round _ _ FX) by (unfold hb; lia).
  rewrite (hf_round _ _ (hf_max0 _ _ (hf_sub _ _ _ _ Y M5 ltac:(unfold hb; lia)))) by (unfold hb; lia).
  rewrite (hf_round _ _ (hf_add _ _ _ _ Y M5 ltac:(unfold hb; lia))) by (unfold hb; lia).
  set (xc := (2 * fx + 7 * m + 1) / 2). assert (XC : xc = fx + (7 * m + 1) / 2).
  { unfold xc. replace (2 * fx + 7 * m + 1) with (7 * m + 1 + fx * 2) by lia. rewrite Z.div_add by lia. lia. }
  rewrite <- XC. assert (KC : fx + 3 * m <= xc < fx + 4 * m).
  { pose proof (Z.div_mod (7 * m + 1) 2 ltac:(lia)). pose proof (Z.mod_pos_bound (7 * m + 1) 2 ltac:(lia)). lia. }
  set (s := (Z.max (2 * (fy + 2 * m) - 5 * (2 * m)) 0 + 1) / 2). assert (S : s = Z.max (fy - 3 * m) 0).
  { unfold s. pose proof (Z.div_mod (Z.max (2 * (fy + 2 * m) - 5 * (2 * m)) 0 + 1) 2 ltac:(lia)).
    pose proof (Z.mod_pos_bound (Z.max (2 * (fy + 2 * m) - 5 * (2 * m)) 0 + 1) 2 ltac:(lia)). lia. }
  replace ((2 * (fy + 2 * m) + 5 * (2 * m) + 1) / 2) with (fy + 7 * m).
  2:{ apply Z.div_unique with 1; lia. }
  rewrite (Z.min_l (fy + 7 * m)) by lia.
  destruct HF as (_ & _ & _ & _ & _ & P1 & P2 & _). destruct (plain_get _ _ _ _ P1) as (c1 & K1 & G1). destruct (plain_get _ _ _ _ P2) as (c2 & K2 & G2).
  pose proof (line g ms false (fun y => (xc, y)) (fy + 7 * m) s fy m (3 * m) (fy - 2 * m) c1 c2) as L. unfold shows_at, crosses, leaves in L. cbn [fst snd] in L. cbv zeta in L.
  replace (fy + 4 * m + 3 * m) with (fy + 7 * m) in L by lia. replace (4 * m + 3 * m) with (7 * m) in L by lia.
  rewrite Z.ltb_irrefl in L. apply L; try lia; try assumption.
  - intros t Ht. apply ring; lia.
  - intros t Ht. apply G1; lia.
  - intros t Ht. apply G2; lia.
  - unfold shows_at. cbn [fst snd]. repeat split; intros t Ht; replace xc with (fx + (xc - fx)) by lia; replace t with (fy + (t - fy)) by lia;
      apply finder_at; unfold inner, middling; lia.
  - rewrite (diff_same ms (est_of (7 * m)) m); [reflexivity|lia|exact FM|apply est_exact; lia].
Qed.

Lemma halves k : 2 * (k / 2) <= k < 2 * (k / 2) + 2.
Proof. pose proof (Z.div_mod k 2 ltac:(lia)). pose proof (Z.mod_pos_bound k 2 ltac:(lia)). lia. Qed.

(** *** the horizontal line *)
Lemma horizontal finder ms : fin ms (IZR m) -> hf (px finder) (2 * (fx + (7 * m + 1) / 2)) -> hf (py finder) (2 * fy + 7 * m - 2) ->
  exists ms', fin ms' (IZR m) /\
  refine_horizontal g finder ms = Ok (Some (FP (Pt (of_Z (fx + 7 * m)) (of_Z (fy + (7 * m - 1) / 2))) ms' (est_of (7 * m)))).
Proof.
  intros FM FX FY. pose proof bounds as B. pose proof corner as C. pose proof m_top as T.
  exists (fdiv (fadd ms (est_of (7 * m))) (of_Z 2)). split; [apply avg_exact; [lia|exact FM|apply est_exact; lia]|].
  unfold refine_horizontal.
  assert (M5 : hf (fmul (of_Z 5) ms) (5 * (2 * m))) by (apply hf_mul; [apply fin_of_Z; lia|now apply fin_hf|unfold hb; lia]).
  pose proof (halves (7 * m + 1)) as XC. set (xh := (7 * m + 1) / 2) in *.
  rewrite (hf_round _ _ FY) by (unfold hb; lia).
  rewrite (hf_round _ _ (hf_max0 _ _ (hf_sub _ _ _ _ FX M5 ltac:(unfold hb; lia)))) by (unfold hb; lia).
  rewrite (hf_round _ _ (hf_add _ _ _ _ FX M5 ltac:(unfold hb; lia))) by (unfold hb; lia).
  set (yr := (2 * fy + 7 * m - 2 + 1) / 2). assert (YR : yr = fy + (7 * m - 1) / 2).
  { unfold yr. replace (2 * fy + 7 * m - 2 + 1) with (7 * m - 1 + fy * 2) by lia. rewrite Z.div_add by lia. lia. }
  rewrite <- YR. assert (KC : fy + 3 * m <= yr < fy + 4 * m) by (pose proof (halves (7 * m - 1)); lia).
  set (s := (Z.max (2 * (fx + xh) - 5 * (2 * m)) 0 + 1) / 2). assert (S : s = Z.max (fx + xh - 5 * m) 0).
  { unfold s. pose proof (halves (Z.max (2 * (fx + xh) - 5 * (2 * m)) 0 + 1)). lia. }
  replace ((2 * (fx + xh) + 5 * (2 * m) + 1) / 2) with (fx + xh + 5 * m).
  2:{ pose proof (halves (2 * (fx + xh) + 5 * (2 * m) + 1)). lia. }
  set (e := Z.min (fx + xh + 5 * m) (gw g)). assert (E : fx + 7 * m < e <= gw g) by (unfold e; lia).
  pose proof HF as (_ & _ & _ & _ & P1 & _). destruct (plain_get _ _ _ _ P1) as (c1 & K1 & G1).
  pose proof (line g ms false (fun x => (x, yr)) e s fx m (3 * m) (fx - 2 * m) c1 c1) as L. unfold shows_at, crosses, leaves in L. cbn [fst snd] in L. cbv zeta in L.
  replace (fx + 4 * m + 3 * m) with (fx + 7 * m) in L by lia. replace (4 * m + 3 * m) with (7 * m) in L by lia.
  destruct (Z.ltb_spec (fx + 7 * m) e); [|lia]. apply L; try lia; try assumption.
  - intros t Ht. apply ring; lia.
  - intros t Ht. apply G1; lia.
  - unfold shows_at. cbn [fst snd]. repeat split; intros t Ht; replace yr with (fy + (yr - fy)) by lia; replace t with (fx + (t - fx)) by lia;
      apply finder_at; unfold inner, middling; lia.
  - intros _ t Ht. apply ring; lia.
  - rewrite (diff_same ms (est_of (7 * m)) m); [reflexivity|lia|exact FM|apply est_exact; lia].
Qed.

(** *** the diagonal *)
Lemma diagonal_starts finder side : let yr := fy + (7 * m - 1) / 2 in
  hf (px finder) (2 * fx + 7 * m) -> hf (py finder) (2 * yr) -> hf side (10 * m) ->
  exists dl s, (dl = 0 \/ dl = 1) /\ - 2 * m <= s <= 0 /\ 0 <= fx + dl + s /\ 0 <= fy + s /\
    round_u32 (fst (diagonal_start finder side)) = fx + dl + s /\ round_u32 (snd (diagonal_start finder side)) = fy + s.
Proof.
  intros yr FX FY FS. pose proof bounds as B. pose proof corner as C. pose proof m_top as T.
  pose proof (halves (7 * m - 1)) as Y. set (yh := (7 * m - 1) / 2) in *. unfold yr in *. clear yr.
  assert (Z0 : round_u32 (of_Z 0) = 0) by (apply round_u32_of_Z; unfold u32_max; lia).
  unfold diagonal_start. rewrite (hf_lt _ _ _ _ FX FS), (hf_lt _ _ _ _ FY FS), (hf_lt _ _ _ _ FX FY).
  pose proof (hf_sub _ _ _ _ FX FY ltac:(unfold hb; lia)) as XY. pose proof (hf_sub _ _ _ _ FY FX ltac:(unfold hb; lia)) as YX.
  pose proof (hf_sub _ _ _ _ FX FS ltac:(unfold hb; lia)) as XS. pose proof (hf_sub _ _ _ _ FY FS ltac:(unfold hb; lia)) as YS.
  assert (DX : 2 * (fy + yh) <= 2 * fx + 7 * m -> exists dl s, (dl = 0 \/ dl = 1) /\ s = - fy /\ 0 <= fx + dl + s /\ 
     round_u32 (fsub (px finder) (py finder)) = fx + dl + s).
  { intros L. exists 1, (- fy). rewrite (hf_round _ _ XY) by (unfold hb; lia). pose proof (halves (2 * fx + 7 * m - 2 * (fy + yh) + 1)). lia. }
  assert (DY : 2 * fx + 7 * m <= 2 * (fy + yh) -> exists dl s, (dl = 0 \/ dl = 1) /\ s = - fx - dl /\ 0 <= fy + s /\ 
     round_u32 (fsub (py finder) (px finder)) = fy + s).
  { intros L. rewrite (hf_round _ _ YX) by (unfold hb; lia). pose proof (halves (2 * (fy + yh) - (2 * fx + 7 * m) + 1)).
    exists (7 * m - 1 - 2 * yh), (- fx - (7 * m - 1 - 2 * yh)). lia. }
  destruct (Z.ltb_spec (2 * fx + 7 * m) (10 * m)); destruct (Z.ltb_spec (2 * (fy + yh)) (10 * m)); cbn [andb fst snd].
  - destruct (Z.ltb_spec (2 * fx + 7 * m) (2 * (fy + yh))); cbn [fst snd].
    + destruct DY as (dl & s & K1 & K2 & K3 & ->); [lia|]. exists dl, s. rewrite Z0. lia.
    + destruct DX as (dl & s & K1 & K2 & K3 & ->); [lia|]. exists dl, s. rewrite Z0. lia.
  - destruct DY as (dl & s & K1 & K2 & K3 & ->); [lia|]. exists dl, s. rewrite Z0. lia.
  - destruct DX as (dl & s & K1 & K2 & K3 & ->); [lia|]. exists dl, s. rewrite Z0. lia.
  - rewrite (hf_round _ _ XS), (hf_round _ _ YS) by (unfold hb; lia).
    pose proof (halves (2 * fx + 7 * m - 10 * m + 1)). pose proof (halves (2 * (fy + yh) - 10 * m + 1)).
    exists 1, (yh - 5 * m). lia.
Qed.

Lemma diagonal finder ms : fin ms (IZR m) -> hf (px finder) (2 * fx + 7 * m) -> hf (py finder) (2 * (fy + (7 * m - 1) / 2)) ->
  exists d, refine_diagonal g finder ms = Ok (Some d).
Proof.
  intros FM FX FY. pose proof bounds as B. pose proof corner as C. pose proof m_top as T.
  assert (M5 : hf (fmul (of_Z 5) ms) (10 * m)).
  { replace (10 * m) with (5 * (2 * m)) by lia. apply hf_mul; [apply fin_of_Z; lia|now apply fin_hf|unfold hb; lia]. }
  destruct (diagonal_starts finder (fmul (of_Z 5) ms) FX FY M5) as (dl & s & DL & HS & SX & SY & RX & RY).
  unfold refine_diagonal. destruct (diagonal_start finder (fmul (of_Z 5) ms)) as [sx sy]. cbn [fst snd] in RX, RY. rewrite RX, RY.
  pose proof (halves (7 * m - 1)) as Y. set (yh := (7 * m - 1) / 2) in *.
  rewrite (hf_round _ _ (hf_add _ _ _ _ FX M5 ltac:(unfold hb; lia))) by (unfold hb; lia).
  rewrite (hf_round _ _ (hf_add _ _ _ _ FY M5 ltac:(unfold hb; lia))) by (unfold hb; lia).
  pose proof (halves (2 * fx + 7 * m + 10 * m + 1)) as EX. pose proof (halves (2 * (fy + yh) + 10 * m + 1)) as EY.
  set (ex := (2 * fx + 7 * m + 10 * m + 1) / 2) in *. set (ey := (2 * (fy + yh) + 10 * m + 1) / 2) in *.
  rewrite (combine_zrange _ _ _ _ s). replace (fx + dl + s - s) with (fx + dl) by lia. replace (fy + s - s) with fy by lia.
  set (e := s + Z.min (Z.min ex (gw g) - (fx + dl + s)) (Z.min ey (gh g) - (fy + s))).
  assert (E : e <= gw g - fx - dl /\ e <= gh g - fy /\ e <= 8 * m + m /\ 7 * m <= e) by (unfold e; lia).
  assert (EB : e <= ey - fy /\ e <= ex - fx - dl) by (unfold e; lia). clearbody e.
  pose proof HF as (_ & _ & P1 & P2 & _). destruct (plain_get _ _ _ _ P1) as (c2 & K2 & G2). destruct (plain_get _ _ _ _ P2) as (c1 & K1 & G1).
  pose proof (fun c => line g ms true (fun t => (fx + dl + t, fy + t)) e s 0 m (3 * m - dl) (- m - 1) c c2) as L. unfold shows_at, crosses, leaves in L. cbn [fst snd] in L. cbv zeta in L.
  rewrite (L (if dl =? 0 then c2 else c1)); [eexists; reflexivity|lia|lia|lia|lia|destruct (dl =? 0); assumption|assumption| | | | |lia| |now rewrite orb_true_r].
  - intros t Ht. apply ring; lia.
  - intros t Ht. destruct (Z.eqb_spec dl 0); [apply G2|apply G1]; lia.
  - intros t Ht. apply G2; lia.
  - unfold shows_at. cbn [fst snd]. repeat split; intros t Ht; replace (fx + dl + t) with (fx + (dl + t)) by lia; 
      apply finder_at; unfold inner, middling; lia.
  - intros L1 t Ht. apply ring; lia.
Qed.

Lemma half_exact : hf (fmul (lit 7 2) (est_of (7 * m))) (7 * m).
Proof.
  pose proof m_top. unfold hf. rewrite <- rnd_half by (unfold hb; lia). replace (IZR (7 * m) / 2)%R with (7 / 2 * IZR m)%R by (rewrite mult_IZR; lra).
  assert (R : (1 <= IZR m <= 10000000)%R) by (split; apply IZR_le; lia).
  apply fin_fmul; [apply fin_7_2|apply est_exact; lia|]. apply half_big. rewrite Rabs_pos_eq; lra.
Qed.

(** all three *)
Lemma refined finder ms : fin ms (IZR m) -> hf (px finder) (2 * fx + 7 * m) -> py finder = of_Z (fy + 2 * m) ->
  exists p ms', refine_all g finder ms = Ok (Some (p, ms')) /\ fin ms' (IZR m) /\ hf (px p) (2 * fx + 7 * m) /\ hf (py p) (2 * (fy + (7 * m - 1) / 2)).
Proof.
  intros FM FX FY. pose proof bounds as B. pose proof corner as C. pose proof m_top as T.
  pose proof half_exact as HH. pose proof (halves (7 * m + 1)) as XH. pose proof (halves (7 * m - 1)) as YH.
  assert (H0 : hf (fmul (of_Z 0) (fmul (lit 7 2) (est_of (7 * m)))) 0).
  { replace 0 with (0 * (7 * m)) at 2 by lia. apply hf_mul; [apply fin_of_Z; lia|exact HH|unfold hb; lia]. }
  assert (H1 : hf (fmul (of_Z 1) (fmul (lit 7 2) (est_of (7 * m)))) (7 * m)).
  { replace (7 * m) with (1 * (7 * m)) at 2 by lia. apply hf_mul; [apply fin_of_Z; lia|exact HH|unfold hb; lia]. }
  unfold refine_all. destruct (vertical finder ms FM FX FY) as (m1 & F1 & ->). cbn [bind adjust fp_location fp_module_size fp_last px py].
  set (xc := fx + (7 * m + 1) / 2) in *. set (yr := fy + (7 * m - 1) / 2) in *.
  edestruct (horizontal (Pt (fsub (of_Z xc) (fmul (of_Z 0) (fmul (lit 7 2) (est_of (7 * m))))) (fsub (of_Z (fy + 7 * m - 1)) (fmul (of_Z 1) (fmul (lit 7 2) (est_of (7 * m)))))) m1)
    as (m2 & F2 & EH); [exact F1| | |].
  { cbn [px]. replace (2 * (fx + (7 * m + 1) / 2)) with (2 * xc - 0) by (unfold xc; lia). apply hf_sub; [apply hf_Z|exact H0|]; unfold hb, xc; lia. }
  { cbn [py]. replace (2 * fy + 7 * m - 2) with (2 * (fy + 7 * m - 1) - 7 * m) by lia. apply hf_sub; [apply hf_Z|exact H1|]; unfold hb; lia. }
  rewrite EH. cbn [bind adjust fp_location fp_module_size fp_last px py]. fold yr.
  set (p := Pt (fsub (of_Z (fx + 7 * m)) (fmul (of_Z 1) (fmul (lit 7 2) (est_of (7 * m))))) (fsub (of_Z yr) (fmul (of_Z 0) (fmul (lit 7 2) (est_of (7 * m)))))).
  assert (PX : hf (px p) (2 * fx + 7 * m)).
  { cbn [p px]. replace (2 * fx + 7 * m) with (2 * (fx + 7 * m) - 7 * m) by lia. apply hf_sub; [apply hf_Z|exact H1|]; unfold hb; lia. }
  assert (PY : hf (py p) (2 * yr)).
  { cbn [p py]. replace (2 * yr) with (2 * yr - 0) by lia. apply hf_sub; [apply hf_Z|exact H0|]; unfold hb, yr; lia. }
  destruct (diagonal p m2 F2 PX PY) as (d & ->). cbn [bind]. exists p, m2. auto.
Qed.
End Finder.
