(** Symbols with an alignment pattern, drawn along the axes. *)
From Coq Require Import NArith ZArith Reals List Lia Lra Bool Arith Psatz.
From Verif.Model Require Import Prepare Detect Extract.
From Flocq Require Import Core.
From Verif.Spec Require Import Drawing.
From Verif.Proofs Require Import BaseP PrepareP FloatP ApproxP DetectP ExtractP.
Import ListNotations.
Local Open Scope R_scope.

Definition pixel (g : gray) (x y : Z) : option N :=
  match get_pixel g x y with Ok v => Some v | _ => None end.
Lemma pixel_get g x y v : pixel g x y = Some v -> get_pixel g x y = Ok v.
Proof. unfold pixel. destruct (get_pixel g x y); congruence. Qed.

Lemma get_pixel_in g x y v : wf_gray g -> (0 <= x)%Z -> (0 <= y)%Z -> get_pixel g x y = Ok v -> (x < gw g /\ y < gh g)%Z.
Proof.
  intros _ Hx Hy. unfold get_pixel. destruct (Z.ltb_spec x (gw g)); [|discriminate]. destruct (Z.ltb_spec y (gh g)); [|discriminate]. lia.
Qed.

(** a point well inside a range of pixels falls into it *)
Lemma pixel_of_range q a b : (0 <= a)%Z -> (b <= u32_max)%Z -> IZR a - /2 < q < IZR b + /2 -> (a <= pixel_of q <= b)%Z.
Proof.
  intros Ha Hb [H1 H2]. unfold pixel_of. pose proof (away_bounds q) as [B1 B2].
  assert (a <= away q)%Z.
  { assert (IZR (a - 1) < IZR (away q)); [|apply lt_IZR in H; lia]. rewrite minus_IZR. lra. }
  assert (away q <= b)%Z.
  { destruct (Rle_lt_dec 0 q).
    - rewrite away_pos by lra. assert (IZR (Zfloor (q + / 2)) < IZR (b + 1)); [|apply lt_IZR in H0; lia].
      pose proof (Zfloor_lb (q + /2)). rewrite plus_IZR. lra.
    - pose proof (away_neg q r). assert (- 1 < IZR b) by (pose proof (IZR_le 0 a Ha); assert (IZR a - / 2 < IZR b + /2) by lra; lra).
      apply lt_IZR in H3. lia. }
  lia.
Qed.

Section Drawn.
Context (g : gray) (m ox oy n : Z) (dark : Z -> Z -> bool).
Context (HD : drawn (pixel g) m ox oy n dark) (HN : (21 <= n <= 177)%Z).
Context (WX : (ox + n * m <= 2 ^ 26)%Z) (WY : (oy + n * m <= 2 ^ 26)%Z).

Definition colour (b : bool) : N := if b then 0%N else 255%N.
(** the middle of column [c] (or row [c], with [oy]), in pixel coordinates *)
Definition middle (o c : Z) : R := middle_of m o c.

Lemma m_pos : 1 <= IZR m.
Proof. destruct HD as (_ & _ & H & _). now apply IZR_le. Qed.

Lemma middle_pixel o c a : (0 <= o)%Z -> (o + n * m <= 2 ^ 26)%Z -> (0 <= c < n)%Z -> Rabs (a - middle o c) < IZR m / 2 ->
  exists i, (0 <= i < m)%Z /\ pixel_of a = (o + c * m + i)%Z.
Proof.
  intros Ho W Hc H. destruct HD as (_ & _ & Hm & _).
  assert (c * m + m <= n * m)%Z by nia. assert (0 <= c * m)%Z by nia.
  assert (R : (o + c * m <= pixel_of a <= o + c * m + m - 1)%Z).
  { apply pixel_of_range; [lia|unfold u32_max; lia|]. unfold middle, middle_of in H. apply Rabs_lt_inv in H.
    rewrite minus_IZR, !plus_IZR, mult_IZR. lra. }
  exists (pixel_of a - o - c * m)%Z. lia.
Qed.

Lemma module_shown r c a b : (0 <= r < n)%Z -> (0 <= c < n)%Z ->
  Rabs (a - middle ox c) < IZR m / 2 -> Rabs (b - middle oy r) < IZR m / 2 ->
  get_pixel g (pixel_of a) (pixel_of b) = Ok (colour (dark r c)).
Proof.
  intros Hr Hc HA HB. destruct HD as (Hx & Hy & Hm & P).
  destruct (middle_pixel ox c a) as (i & Hi & ->); auto. destruct (middle_pixel oy r b) as (j & Hj & ->); auto.
  apply pixel_get. now apply P.
Qed.

Lemma module_at r c p x y d : (0 <= r < n)%Z -> (0 <= c < n)%Z -> apx (px p) x d -> apx (py p) y d ->
  Rabs (x - middle ox c) + d < IZR m / 2 -> Rabs (y - middle oy r) + d < IZR m / 2 ->
  pixel_at g p = Ok (colour (dark r c)).
Proof.
  intros Hr Hc AX AY HX HY. unfold pixel_at. destruct (round_pixel _ _ _ AX) as (a & HA & ->). destruct (round_pixel _ _ _ AY) as (b & HB & ->).
  apply module_shown; auto.
  - replace (a - middle ox c) with ((a - x) + (x - middle ox c)) by lra. eapply Rle_lt_trans; [apply Rabs_triang|]. lra.
  - replace (b - middle oy r) with ((b - y) + (y - middle oy r)) by lra. eapply Rle_lt_trans; [apply Rabs_triang|]. lra.
Qed.

Lemma middle_small o c : (0 <= o)%Z -> (o + n * m <= 2 ^ 26)%Z -> (0 <= c < n)%Z -> 0 <= middle o c /\ middle o c + IZR m / 2 <= 67108864.
Proof.
  intros Ho W Hc. unfold middle, middle_of. destruct HD as (_ & _ & Hm & _). pose proof m_pos.
  assert (0 <= c * m)%Z by nia. assert (c * m + m <= n * m)%Z by nia.
  assert (IZR (o + c * m + m) <= IZR (2 ^ 26)) by (apply IZR_le; lia). assert (0 <= IZR (o + c * m)) by (apply IZR_le; lia).
  rewrite !plus_IZR, mult_IZR in *. replace (IZR (2 ^ 26)) with 67108864 in * by reflexivity. lra.
Qed.

Lemma corner_small o c e : (0 <= o)%Z -> (o + n * m <= 2 ^ 26)%Z -> (0 <= c < n)%Z -> Rabs e <= 3 * IZR m / 8 -> Rabs (middle o c + e) <= 67108864.
Proof.
  intros Ho W Hc He. pose proof (middle_small o c Ho W Hc). pose proof m_pos. apply Rabs_le_inv in He. apply Rabs_le.
  assert (IZR m <= 67108864) by (destruct HD as (_ & _ & Hm & _); apply IZR_le; nia). lra.
Qed.

(** the module in row [r] and column [c] of the symbol is in column [mcol r c] and row [mrow r c]
    of the drawing: the symbol may have been turned *)
Context (kx ux wx ky uy wy : Z).
Definition mcol (r c : Z) : Z := (kx + ux * c + wx * r)%Z.
Definition mrow (r c : Z) : Z := (ky + uy * c + wy * r)%Z.
Definition module (r c : Z) : bool := dark (mrow r c) (mcol r c).
Context (HU : (Z.abs ux + Z.abs wx = 1)%Z) (HU' : (Z.abs uy + Z.abs wy = 1)%Z).
Context (HP : forall r c, (0 <= r < n)%Z -> (0 <= c < n)%Z -> (0 <= mcol r c < n)%Z /\ (0 <= mrow r c < n)%Z).

(** the located corners: the centres of the finders, up to the same offset (ex, ey) for all three *)
Context (loc : qrloc) (ex ey : R) (HE : Rabs ex <= 3 * IZR m / 8) (HE' : Rabs ey <= 3 * IZR m / 8).
Definition centred (p : point) (r c : Z) : Prop := fin (px p) (middle ox (mcol r c) + ex) /\ fin (py p) (middle oy (mrow r c) + ey).
Context (L1 : centred (top_left loc) 3 3) (L2 : centred (top_right loc) 3 (n - 4)) (L3 : centred (bottom_left loc) (n - 4) 3).

(** the steps *)
Definition DXx := fdiv (fsub (px (top_right loc)) (px (top_left loc))) (of_Z (n - 7)).
Definition DXy := fdiv (fsub (py (top_right loc)) (py (top_left loc))) (of_Z (n - 7)).
Definition DYx := fdiv (fsub (px (bottom_left loc)) (px (top_left loc))) (of_Z (n - 7)).
Definition DYy := fdiv (fsub (py (bottom_left loc)) (py (top_left loc))) (of_Z (n - 7)).

Lemma middle_add o c d : middle o (c + d) = middle o c + IZR d * IZR m.
Proof. unfold middle, middle_of. rewrite plus_IZR. lra. Qed.
Lemma mcol_add r c b a : mcol (r + b) (c + a) = (mcol r c + (ux * a + wx * b))%Z.
Proof. unfold mcol. lia. Qed.
Lemma mrow_add r c b a : mrow (r + b) (c + a) = (mrow r c + (uy * a + wy * b))%Z.
Proof. unfold mrow. lia. Qed.
Lemma unit_R a b : (Z.abs a + Z.abs b = 1)%Z -> Rabs (IZR a) <= 1.
Proof. intros H. rewrite <- abs_IZR. apply IZR_le. lia. Qed.
Lemma unit_m a b : (Z.abs a + Z.abs b = 1)%Z -> Rabs (IZR a * IZR m) <= IZR m.
Proof.
  intros H. pose proof m_pos. pose proof (unit_R a b H). rewrite Rabs_mult, (Rabs_pos_eq (IZR m)) by lra.
  rewrite <- (Rmult_1_l (IZR m)) at 2. apply Rmult_le_compat_r; lra.
Qed.
Lemma HUs : (Z.abs wx + Z.abs ux = 1)%Z /\ (Z.abs wy + Z.abs uy = 1)%Z.
Proof. lia. Qed.
Lemma units : Rabs (IZR ux * IZR m) <= IZR m /\ Rabs (IZR uy * IZR m) <= IZR m /\ Rabs (IZR wx * IZR m) <= IZR m /\ Rabs (IZR wy * IZR m) <= IZR m.
Proof. pose proof HUs as [A B]. split; [|split; [|split]]; eapply unit_m; eassumption. Qed.

Lemma col_small r c : (0 <= r < n)%Z -> (0 <= c < n)%Z -> Rabs (middle ox (mcol r c) + ex) <= 67108864.
Proof. intros Hr Hc. destruct HD as (Ho & _). destruct (HP r c Hr Hc). now apply corner_small. Qed.
Lemma row_small r c : (0 <= r < n)%Z -> (0 <= c < n)%Z -> Rabs (middle oy (mrow r c) + ey) <= 67108864.
Proof. intros Hr Hc. destruct HD as (_ & Ho & _). destruct (HP r c Hr Hc). now apply corner_small. Qed.

Lemma steps_ok : apx DXx (IZR ux * IZR m) (2 * u24) /\ apx DXy (IZR uy * IZR m) (2 * u24) /\ apx DYx (IZR wx * IZR m) (2 * u24) /\ apx DYy (IZR wy * IZR m) (2 * u24).
Proof.
  destruct L1 as [A1 A2], L2 as [B1 B2], L3 as [C1 C2].
  assert (N7 : IZR (n - 7) <> 0) by (apply not_0_IZR; lia).
  assert (E : forall o e k d, (middle o (k + d * (n - 7)) + e - (middle o k + e)) / IZR (n - 7) = IZR d * IZR m).
  { intros. rewrite middle_add, mult_IZR. field. exact N7. }
  assert (EX : mcol 3 (n - 4) = (mcol 3 3 + ux * (n - 7))%Z) by (unfold mcol; lia). assert (EX' : mcol (n - 4) 3 = (mcol 3 3 + wx * (n - 7))%Z) by (unfold mcol; lia).
  assert (EY : mrow 3 (n - 4) = (mrow 3 3 + uy * (n - 7))%Z) by (unfold mrow; lia). assert (EY' : mrow (n - 4) 3 = (mrow 3 3 + wy * (n - 7))%Z) by (unfold mrow; lia).
  split; [|split; [|split]].
  - rewrite <- (E ox ex (mcol 3 3) ux), <- EX. apply step_apx; auto; try lia; apply col_small; lia.
  - rewrite <- (E oy ey (mrow 3 3) uy), <- EY. apply step_apx; auto; try lia; apply row_small; lia.
  - rewrite <- (E ox ex (mcol 3 3) wx), <- EX'. apply step_apx; auto; try lia; apply col_small; lia.
  - rewrite <- (E oy ey (mrow 3 3) wy), <- EY'. apply step_apx; auto; try lia; apply row_small; lia.
Qed.

(** [p] is the point [i] modules right of and [j] below the centre of the alignment pattern, as the symbol goes *)
Definition near (e : R) (p : point) (i j : Z) : Prop :=
  apx (px p) (middle ox (mcol (n - 7 + j) (n - 7 + i)) + ex) e /\ apx (py p) (middle oy (mrow (n - 7 + j) (n - 7 + i)) + ey) e.

Lemma near_weaken e e' p i j : near e p i j -> e <= e' -> near e' p i j.
Proof. intros [A B] H. split; eapply apx_weaken; eauto. Qed.

Lemma near_colour e p i j : (-2 <= i <= 2)%Z -> (-2 <= j <= 2)%Z -> e <= 1024 * u24 -> near e p i j ->
  pixel_at g p = Ok (colour (module (n - 7 + j) (n - 7 + i))).
Proof.
  intros Hi Hj He [A B]. pose proof m_pos. assert (u24 = / 16777216) as U by reflexivity. destruct (HP (n - 7 + j) (n - 7 + i) ltac:(lia) ltac:(lia)) as [P1 P2].
  apply (module_at _ _ p _ _ e P2 P1 A B).
  - set (k := middle ox _). replace (k + ex - k) with ex by lra. lra.
  - set (k := middle oy _). replace (k + ey - k) with ey by lra. lra.
Qed.

(** a step *)
Definition about (d : delta) (vx vy w : R) : Prop := apx (dlx d) vx w /\ apx (dly d) vy w.

Lemma m_small : IZR m <= 67108864.
Proof. destruct HD as (Hx & _ & Hm & _). apply IZR_le. nia. Qed.

Lemma about_mul d vx vy w a : about d vx vy w -> (Z.abs a <= 2)%Z -> Rabs vx <= IZR m -> Rabs vy <= IZR m -> w <= 1 ->
  about (dmul (of_Z a) d) (vx * IZR a) (vy * IZR a) (2 * w + u24).
Proof.
  intros [A B] Ha HX HY Hw. pose proof (apx_nonneg _ _ _ A). pose proof m_small.
  assert (R : Rabs (IZR a) <= 2) by (rewrite <- abs_IZR; apply IZR_le; lia). pose proof (Rabs_pos (IZR a)).
  assert (Rabs (IZR a) * w <= 2 * w) by (apply Rmult_le_compat_r; lra).
  assert (Rabs vx * Rabs (IZR a) <= 67108864 * 2) by (apply Rmult_le_compat; try apply Rabs_pos; lra).
  assert (Rabs vy * Rabs (IZR a) <= 67108864 * 2) by (apply Rmult_le_compat; try apply Rabs_pos; lra).
  split; cbn [dmul dlx dly]; (eapply apx_weaken; [apply mulz29; [eassumption|lia|rewrite Rabs_mult; unfold big29; lra]|lra]).
Qed.

(** [a] modules along the columns and [b] along the rows of the symbol *)
Definition step (d : delta) (a b : Z) (w : R) : Prop := about d (IZR (ux * a + wx * b) * IZR m) (IZR (uy * a + wy * b) * IZR m) w.

Lemma near_add e p i j d a b w : near e p i j -> step d a b w -> e + w <= 1 ->
  (-4 <= i + a <= 4)%Z -> (-4 <= j + b <= 4)%Z -> near (e + w + u24) (padd p d) (i + a) (j + b).
Proof.
  intros [A B] [C D] H Hi Hj.
  pose proof (col_small (n - 7 + (j + b)) (n - 7 + (i + a)) ltac:(lia) ltac:(lia)) as K1. pose proof (row_small (n - 7 + (j + b)) (n - 7 + (i + a)) ltac:(lia) ltac:(lia)) as K2.
  unfold near. rewrite !Z.add_assoc in *. rewrite (mcol_add (n - 7 + j) (n - 7 + i) b a), middle_add in *. rewrite (mrow_add (n - 7 + j) (n - 7 + i) b a), middle_add in *.
  set (k1 := middle ox _) in *. set (k2 := middle oy _) in *. set (s1 := IZR (ux * a + wx * b) * IZR m) in *. set (s2 := IZR (uy * a + wy * b) * IZR m) in *.
  split; cbn [padd px py].
  - apply apx_eq with (k1 + ex + s1); [|lra]. apply add29; auto. replace (k1 + ex + s1) with (k1 + s1 + ex) by lra. unfold big29. lra.
  - apply apx_eq with (k2 + ey + s2); [|lra]. apply add29; auto. replace (k2 + ey + s2) with (k2 + s2 + ey) by lra. unfold big29. lra.
Qed.

Lemma near_sub e p i j d a b w : near e p i j -> step d a b w -> e + w <= 1 ->
  (-4 <= i - a <= 4)%Z -> (-4 <= j - b <= 4)%Z -> near (e + w + u24) (psub p d) (i - a) (j - b).
Proof.
  intros [A B] [C D] H Hi Hj.
  pose proof (col_small (n - 7 + (j - b)) (n - 7 + (i - a)) ltac:(lia) ltac:(lia)) as K1. pose proof (row_small (n - 7 + (j - b)) (n - 7 + (i - a)) ltac:(lia) ltac:(lia)) as K2.
  unfold near. rewrite !Z.add_sub_assoc in *. replace (n - 7 + j - b)%Z with (n - 7 + j + - b)%Z in * by lia. replace (n - 7 + i - a)%Z with (n - 7 + i + - a)%Z in * by lia.
  rewrite (mcol_add (n - 7 + j) (n - 7 + i) (- b) (- a)), middle_add in *. rewrite (mrow_add (n - 7 + j) (n - 7 + i) (- b) (- a)), middle_add in *.
  replace (ux * - a + wx * - b)%Z with (- (ux * a + wx * b))%Z in * by lia. replace (uy * - a + wy * - b)%Z with (- (uy * a + wy * b))%Z in * by lia. rewrite !opp_IZR in *.
  set (k1 := middle ox _) in *. set (k2 := middle oy _) in *. set (s1 := IZR (ux * a + wx * b)) in *. set (s2 := IZR (uy * a + wy * b)) in *.
  split; cbn [psub px py].
  - apply apx_eq with (k1 + ex - s1 * IZR m); [|lra]. apply sub29; auto. replace (k1 + ex - s1 * IZR m) with (k1 + - s1 * IZR m + ex) by lra. unfold big29. lra.
  - apply apx_eq with (k2 + ey - s2 * IZR m); [|lra]. apply sub29; auto. replace (k2 + ey - s2 * IZR m) with (k2 + - s2 * IZR m + ey) by lra. unfold big29. lra.
Qed.

Context (HV : bottom_right_alignment n module).
(** the same in the drawing, around the module where the centre is; the pattern is symmetric *)
Definition Xc : Z := mcol (n - 7) (n - 7).
Definition Yc : Z := mrow (n - 7) (n - 7).
Context (HR : forall i j, (-2 <= i <= 2)%Z -> (-2 <= j <= 2)%Z -> dark (Yc + j) (Xc + i) = negb (Z.max (Z.abs j) (Z.abs i) =? 1)%Z).
Context (HXc : (6 <= Xc <= n - 7)%Z) (HYc : (6 <= Yc <= n - 7)%Z).

Lemma ring_colour e p i j : (-2 <= i <= 2)%Z -> (-2 <= j <= 2)%Z -> e <= 1024 * u24 -> near e p i j ->
  pixel_at g p = Ok (colour (negb (Z.max (Z.abs j) (Z.abs i) =? 1)%Z)).
Proof. intros Hi Hj He N. rewrite (near_colour e p i j Hi Hj He N), (HV j i Hj Hi). reflexivity. Qed.

Lemma ring_not_white e p i j : (-2 <= i <= 2)%Z -> (-2 <= j <= 2)%Z -> e <= 1024 * u24 -> near e p i j ->
  (Z.max (Z.abs j) (Z.abs i) =? 1)%Z = false -> not_white g p = Ok true.
Proof. intros Hi Hj He N E. unfold not_white. rewrite (ring_colour e p i j), E by assumption. reflexivity. Qed.
Lemma ring_not_black e p i j : (-2 <= i <= 2)%Z -> (-2 <= j <= 2)%Z -> e <= 1024 * u24 -> near e p i j ->
  (Z.max (Z.abs j) (Z.abs i) =? 1)%Z = true -> not_black g p = Ok true.
Proof. intros Hi Hj He N E. unfold not_black. rewrite (ring_colour e p i j), E by assumption. reflexivity. Qed.

Lemma all_ok_true l : Forall (fun c => c = Ok true) l -> all_ok l = Ok true.
Proof. induction 1 as [|c l -> _ IH]; [reflexivity|]. cbn [all_ok bind]. exact IH. Qed.

Lemma turn_small a b i j : (Z.abs a + Z.abs b = 1)%Z -> (-2 <= i <= 2)%Z -> (-2 <= j <= 2)%Z -> (-2 <= a * i + b * j <= 2)%Z.
Proof. intros H Hi Hj. assert (K : (a = 0 /\ (b = 1 \/ b = -1) \/ b = 0 /\ (a = 1 \/ a = -1))%Z) by lia. lia. Qed.

Lemma near_pos e p i j : (-2 <= i <= 2)%Z -> (-2 <= j <= 2)%Z -> e <= 1024 * u24 -> near e p i j -> flt (px p) (of_Z 0) || flt (py p) (of_Z 0) = false.
Proof.
  intros Hi Hj He [A B]. destruct HD as (Hx & Hy & Hm & _). pose proof m_pos. assert (u24 = / 16777216) as U by reflexivity.
  assert (Z0 : apx (of_Z 0) 0 0) by (apply fin_apx, fin_of_Z; lia).
  assert (P : forall o k, (0 <= o)%Z -> (4 <= k)%Z -> IZR m <= middle o k).
  { intros o k Ho Hk. unfold middle, middle_of. assert (4 <= IZR k) by (apply IZR_le; lia). pose proof (IZR_le 0 o Ho).
    assert (4 * IZR m <= IZR k * IZR m) by (apply Rmult_le_compat_r; lra). lra. }
  rewrite mcol_add in A. rewrite mrow_add in B. fold Xc in A. fold Yc in B.
  pose proof (turn_small ux wx i j HU Hi Hj). pose proof (turn_small uy wy i j HU' Hi Hj).
  pose proof (P ox (Xc + (ux * i + wx * j))%Z Hx ltac:(lia)). pose proof (P oy (Yc + (uy * i + wy * j))%Z Hy ltac:(lia)). apply Rabs_le_inv in HE, HE'.
  apply orb_false_iff. split; (eapply apx_flt_false; [eassumption|exact Z0|lra]).
Qed.

Lemma near_inside e p i j : wf_gray g -> (-2 <= i <= 2)%Z -> (-2 <= j <= 2)%Z -> e <= 1024 * u24 -> near e p i j ->
  fge (fround (px p)) (of_Z (gw g)) || fge (fround (py p)) (of_Z (gh g)) = false.
Proof.
  intros HW Hi Hj He N. pose proof (near_colour e p i j Hi Hj He N) as PX. pose proof HW as (W1 & W2 & _). unfold pixel_at in PX.
  destruct N as [(a & FA & HA) (b & FB & HB)].
  rewrite (round_u32_R _ _ FA), (round_u32_R _ _ FB) in PX. apply get_pixel_in in PX; auto; [|unfold u32_max; lia|unfold u32_max; lia].
  unfold u32_max in *.
  rewrite (fge_R _ _ _ _ (fin_fround _ _ FA) (fin_of_Z (gw g) ltac:(lia))), (fge_R _ _ _ _ (fin_fround _ _ FB) (fin_of_Z (gh g) ltac:(lia))).
  apply orb_false_iff. split; apply Rle_bool_false, IZR_lt; lia.
Qed.

Definition scale1 : f64 := fadd (of_Z 1) (fdiv (of_Z 0) (of_Z 10)).
Lemma scale1_fin : fin scale1 1.
Proof. change scale1 with (of_Z 1). apply fin_of_Z. lia. Qed.

Lemma alignment_ok e p dx dy : wf_gray g -> e <= 512 * u24 -> near e p 0 0 -> step dx 1 0 (2 * u24) -> step dy 0 1 (2 * u24) ->
  is_alignment g p dx dy scale1 = Ok true.
Proof.
  intros HW He NP AX AY. assert (u24 = / 16777216) as U by reflexivity. pose proof m_pos as MP. pose proof m_small as MS.
  unfold is_alignment. rewrite (near_pos e p 0 0) by (auto; lia || lra).
  assert (MUL : forall d a b c w, step d a b w -> (a = 0 /\ b = 1 \/ a = 1 /\ b = 0)%Z -> (Z.abs c <= 2)%Z -> w <= 1 -> step (dmul (of_Z c) d) (c * a) (c * b) (2 * w + u24)).
  { intros d a b c w S AB Hc Hw. pose proof units as (U1 & U2 & U3 & U4).
    assert (X : (ux * (c * a) + wx * (c * b) = (ux * a + wx * b) * c)%Z) by ring. assert (Y : (uy * (c * a) + wy * (c * b) = (uy * a + wy * b) * c)%Z) by ring.
    destruct (about_mul _ _ _ _ c S Hc) as [P Q]; [| |exact Hw|].
    - destruct AB as [[-> ->]|[-> ->]]; [replace (ux * 0 + wx * 1)%Z with wx by lia|replace (ux * 1 + wx * 0)%Z with ux by lia]; lra.
    - destruct AB as [[-> ->]|[-> ->]]; [replace (uy * 0 + wy * 1)%Z with wy by lia|replace (uy * 1 + wy * 0)%Z with uy by lia]; lra.
    - unfold step. rewrite X, Y, !mult_IZR. split; [eapply apx_eq; [exact P|lra]|eapply apx_eq; [exact Q|lra]]. }
  assert (SX : step (dmul scale1 dx) 1 0 (5 * u24)).
  { change scale1 with (of_Z 1). pose proof (MUL _ _ _ 1%Z _ AX ltac:(lia) ltac:(lia) ltac:(lra)) as [P Q]. split; (eapply apx_weaken; [eassumption|lra]). }
  assert (SY : step (dmul scale1 dy) 0 1 (5 * u24)).
  { change scale1 with (of_Z 1). pose proof (MUL _ _ _ 1%Z _ AY ltac:(lia) ltac:(lia) ltac:(lra)) as [P Q]. split; (eapply apx_weaken; [eassumption|lra]). }
  set (dx' := dmul scale1 dx) in *. set (dy' := dmul scale1 dy) in *. clearbody dx' dy'.
  assert (MX : forall a, (Z.abs a <= 2)%Z -> step (dmul (of_Z a) dx') a 0 (11 * u24)).
  { intros a Ha. pose proof (MUL _ _ _ a _ SX ltac:(lia) Ha ltac:(lra)) as [P Q]. rewrite Z.mul_1_r, Z.mul_0_r in *. split; (eapply apx_weaken; [eassumption|lra]). }
  assert (MY : forall a, (Z.abs a <= 2)%Z -> step (dmul (of_Z a) dy') 0 a (11 * u24)).
  { intros a Ha. pose proof (MUL _ _ _ a _ SY ltac:(lia) Ha ltac:(lra)) as [P Q]. rewrite Z.mul_1_r, Z.mul_0_r in *. split; (eapply apx_weaken; [eassumption|lra]). }
  (* all the points probed *)
  assert (SS : forall a b, (Z.abs a <= 2)%Z -> (Z.abs b <= 2)%Z -> near (600 * u24) (psub (psub p (dmul (of_Z a) dx')) (dmul (of_Z b) dy')) (- a) (- b)).
  { intros a b Ha Hb. eapply near_weaken; [replace (- a)%Z with (0 - a - 0)%Z by lia; replace (- b)%Z with (0 - 0 - b)%Z by lia|].
    - eapply near_sub; [eapply near_sub; [exact NP|apply MX; exact Ha|lra|lia|lia]|apply MY; exact Hb|lra|lia|lia].
    - lra. }
  assert (SA : forall a b, (Z.abs a <= 2)%Z -> (Z.abs b <= 2)%Z -> near (600 * u24) (padd (psub p (dmul (of_Z a) dx')) (dmul (of_Z b) dy')) (- a) b).
  { intros a b Ha Hb. eapply near_weaken; [replace (- a)%Z with (0 - a + 0)%Z by lia; replace b with (0 - 0 + b)%Z at 2 by lia|].
    - eapply near_add; [eapply near_sub; [exact NP|apply MX; exact Ha|lra|lia|lia]|apply MY; exact Hb|lra|lia|lia].
    - lra. }
  assert (AS : forall a b, (Z.abs a <= 2)%Z -> (Z.abs b <= 2)%Z -> near (600 * u24) (psub (padd p (dmul (of_Z a) dx')) (dmul (of_Z b) dy')) a (- b)).
  { intros a b Ha Hb. eapply near_weaken; [replace a with (0 + a - 0)%Z at 2 by lia; replace (- b)%Z with (0 + 0 - b)%Z by lia|].
    - eapply near_sub; [eapply near_add; [exact NP|apply MX; exact Ha|lra|lia|lia]|apply MY; exact Hb|lra|lia|lia].
    - lra. }
  assert (AA : forall a b, (Z.abs a <= 2)%Z -> (Z.abs b <= 2)%Z -> near (600 * u24) (padd (padd p (dmul (of_Z a) dx')) (dmul (of_Z b) dy')) a b).
  { intros a b Ha Hb. eapply near_weaken; [replace a with (0 + a + 0)%Z at 2 by lia; replace b with (0 + 0 + b)%Z at 2 by lia|].
    - eapply near_add; [eapply near_add; [exact NP|apply MX; exact Ha|lra|lia|lia]|apply MY; exact Hb|lra|lia|lia].
    - lra. }
  assert (S1S : forall b, (Z.abs b <= 2)%Z -> near (600 * u24) (psub (psub p dx') (dmul (of_Z b) dy')) (-1) (- b)).
  { intros b Hb. eapply near_weaken; [replace (-1)%Z with (0 - 1 - 0)%Z by lia; replace (- b)%Z with (0 - 0 - b)%Z by lia|].
    - eapply near_sub; [eapply near_sub; [exact NP|exact SX|lra|lia|lia]|apply MY; exact Hb|lra|lia|lia].
    - lra. }
  assert (S1A : forall b, (Z.abs b <= 2)%Z -> near (600 * u24) (padd (psub p dx') (dmul (of_Z b) dy')) (-1) b).
  { intros b Hb. eapply near_weaken; [replace (-1)%Z with (0 - 1 + 0)%Z by lia; replace b with (0 - 0 + b)%Z at 2 by lia|].
    - eapply near_add; [eapply near_sub; [exact NP|exact SX|lra|lia|lia]|apply MY; exact Hb|lra|lia|lia].
    - lra. }
  assert (S1 : near (600 * u24) (psub p dy') 0 (-1)).
  { eapply near_weaken; [replace (-1)%Z with (0 - 1)%Z by lia; replace 0%Z with (0 - 0)%Z at 1 by lia; eapply near_sub; [exact NP|exact SY|lra|lia|lia]|lra]. }
  assert (A1 : near (600 * u24) (padd p dy') 0 1).
  { eapply near_weaken; [replace 1%Z with (0 + 1)%Z by lia; replace 0%Z with (0 + 0)%Z at 1 by lia; eapply near_add; [exact NP|exact SY|lra|lia|lia]|lra]. }
  rewrite (near_pos (600 * u24) _ (- (2)) (- (2)) ltac:(lia) ltac:(lia) ltac:(lra) (SS 2%Z 2%Z ltac:(lia) ltac:(lia))).
  rewrite (near_inside (600 * u24) _ 2 2 HW ltac:(lia) ltac:(lia) ltac:(lra) (AA 2%Z 2%Z ltac:(lia) ltac:(lia))).
  rewrite all_ok_true.
  - cbn [bind]. rewrite (ring_colour e p 0 0) by (auto; lia || lra). reflexivity.
  - cbn [flat_map app].
    repeat (apply Forall_cons; [first
      [ eapply ring_not_white; [| | |eapply SS; lia|reflexivity]; lia || lra
      | eapply ring_not_white; [| | |eapply SA; lia|reflexivity]; lia || lra
      | eapply ring_not_white; [| | |eapply AS; lia|reflexivity]; lia || lra
      | eapply ring_not_black; [| | |eapply S1S; lia|reflexivity]; lia || lra
      | eapply ring_not_black; [| | |eapply S1A; lia|reflexivity]; lia || lra
      | eapply ring_not_black; [| | |exact S1|reflexivity]; lia || lra
      | eapply ring_not_black; [| | |exact A1|reflexivity]; lia || lra ] |]).
    constructor.
Qed.

Lemma first_white_at pixel l1 c l2 d : (forall x, In x l1 -> pixel x = Ok 0%N) -> pixel c = Ok 255%N -> first_white pixel (l1 ++ c :: l2) d = Ok c.
Proof.
  intros H1 H2. induction l1 as [|x l1 IH]; cbn [app first_white].
  - rewrite H2. reflexivity.
  - rewrite (H1 x) by (now left). cbn [bind]. change (N.eqb 0 255) with false. apply IH. intros y Hy. apply H1. now right.
Qed.

(** the corner pixel of the middle of the alignment pattern *)
Definition X0 : Z := (ox + Xc * m)%Z.
Definition Y0 : Z := (oy + Yc * m)%Z.

Lemma ring_pixel i j a b : (-2 <= i <= 2)%Z -> (-2 <= j <= 2)%Z -> (0 <= a < m)%Z -> (0 <= b < m)%Z ->
  get_pixel g (X0 + i * m + a) (Y0 + j * m + b) = Ok (colour (negb (Z.max (Z.abs j) (Z.abs i) =? 1)%Z)).
Proof.
  intros Hi Hj Ha Hb. destruct HD as (_ & _ & _ & P). apply pixel_get. unfold X0, Y0.
  replace (ox + Xc * m + i * m + a)%Z with (ox + (Xc + i) * m + a)%Z by lia.
  replace (oy + Yc * m + j * m + b)%Z with (oy + (Yc + j) * m + b)%Z by lia.
  rewrite P by lia. now rewrite HR.
Qed.

Lemma centre_pixel x y : (X0 <= x < X0 + m)%Z -> (Y0 <= y < Y0 + m)%Z -> get_pixel g x y = Ok 0%N.
Proof.
  intros Hx Hy. pose proof (ring_pixel 0 0 (x - X0) (y - Y0) ltac:(lia) ltac:(lia) ltac:(lia) ltac:(lia)) as E.
  replace (X0 + 0 * m + (x - X0))%Z with x in E by lia. replace (Y0 + 0 * m + (y - Y0))%Z with y in E by lia. exact E.
Qed.
Lemma left_pixel y : (Y0 <= y < Y0 + m)%Z -> get_pixel g (X0 - 1) y = Ok 255%N.
Proof.
  intros Hy. destruct HD as (_ & _ & Hm & _). pose proof (ring_pixel (-1) 0 (m - 1) (y - Y0) ltac:(lia) ltac:(lia) ltac:(lia) ltac:(lia)) as E.
  replace (X0 + -1 * m + (m - 1))%Z with (X0 - 1)%Z in E by lia. replace (Y0 + 0 * m + (y - Y0))%Z with y in E by lia. exact E.
Qed.
Lemma right_pixel y : (Y0 <= y < Y0 + m)%Z -> get_pixel g (X0 + m) y = Ok 255%N.
Proof.
  intros Hy. destruct HD as (_ & _ & Hm & _). pose proof (ring_pixel 1 0 0 (y - Y0) ltac:(lia) ltac:(lia) ltac:(lia) ltac:(lia)) as E.
  replace (X0 + 1 * m + 0)%Z with (X0 + m)%Z in E by lia. replace (Y0 + 0 * m + (y - Y0))%Z with y in E by lia. exact E.
Qed.
Lemma above_pixel x : (X0 <= x < X0 + m)%Z -> get_pixel g x (Y0 - 1) = Ok 255%N.
Proof.
  intros Hx. destruct HD as (_ & _ & Hm & _). pose proof (ring_pixel 0 (-1) (x - X0) (m - 1) ltac:(lia) ltac:(lia) ltac:(lia) ltac:(lia)) as E.
  replace (Y0 + -1 * m + (m - 1))%Z with (Y0 - 1)%Z in E by lia. replace (X0 + 0 * m + (x - X0))%Z with x in E by lia. exact E.
Qed.
Lemma below_pixel x : (X0 <= x < X0 + m)%Z -> get_pixel g x (Y0 + m) = Ok 255%N.
Proof.
  intros Hx. destruct HD as (_ & _ & Hm & _). pose proof (ring_pixel 0 1 (x - X0) 0 ltac:(lia) ltac:(lia) ltac:(lia) ltac:(lia)) as E.
  replace (Y0 + 1 * m + 0)%Z with (Y0 + m)%Z in E by lia. replace (X0 + 0 * m + (x - X0))%Z with x in E by lia. exact E.
Qed.

Lemma scan_down pixel a b d : (1 <= a)%Z -> (a <= b)%Z -> (forall x, (a <= x < b)%Z -> pixel x = Ok 0%N) -> pixel (a - 1)%Z = Ok 255%N ->
  first_white pixel (rev (zrange 0 b)) d = Ok (a - 1)%Z.
Proof.
  intros Ha Hb H1 H2. rewrite (zrange_app 0 (a - 1) b), (zrange_cons (a - 1) b) by lia.
  replace (a - 1 + 1)%Z with a by lia. rewrite rev_app_distr. cbn [rev]. rewrite <- app_assoc. cbn [app].
  apply first_white_at; [|exact H2]. intros x Hx. apply in_rev, in_zrange in Hx. now apply H1.
Qed.
Lemma scan_up pixel a b w d : (a <= b)%Z -> (b < w)%Z -> (forall x, (a <= x < b)%Z -> pixel x = Ok 0%N) -> pixel b = Ok 255%N ->
  first_white pixel (zrange a w) d = Ok b.
Proof.
  intros Ha Hb H1 H2. rewrite (zrange_app a b w), (zrange_cons b w) by lia.
  apply first_white_at; [|exact H2]. intros x Hx. apply in_zrange in Hx. now apply H1.
Qed.

(** the average of the neighbours of the run [a, a + m) is its middle *)
Lemma average a : (0 <= a)%Z -> (a + m <= 2 ^ 26)%Z -> fin (fdiv (fadd (of_Z (a - 1)) (of_Z (a + m))) (of_Z 2)) (IZR a + IZR m / 2 - / 2).
Proof.
  intros Ha W. destruct HD as (_ & _ & Hm & _).
  assert (FA : fin (fadd (of_Z (a - 1)) (of_Z (a + m))) (IZR (a - 1 + (a + m)))).
  { rewrite <- rnd_int by lia. rewrite plus_IZR. apply fin_fadd; try (apply fin_of_Z; lia).
    rewrite <- plus_IZR. apply small_big with 29%Z; [lia|]. rewrite <- abs_IZR. change (bpow radix2 29) with (IZR 536870912). apply IZR_le. lia. }
  replace (IZR a + IZR m / 2 - / 2) with (rnd (IZR (a - 1 + (a + m)) / IZR 2)).
  - apply fin_fdiv; [exact FA|apply fin_of_Z; lia|lra|].
    apply small_big with 29%Z; [lia|]. unfold Rdiv. rewrite Rabs_mult, (Rabs_pos_eq (/ 2)) by lra.
    assert (Rabs (IZR (a - 1 + (a + m))) <= IZR 536870912) by (rewrite <- abs_IZR; apply IZR_le; lia). change (bpow radix2 29) with (IZR 536870912). pose proof (Rabs_pos (IZR (a - 1 + (a + m)))). lra.
  - replace (IZR (a - 1 + (a + m)) / IZR 2) with (IZR (a - 1 + (a + m)) * bpow radix2 (-1)) by (simpl; lra).
    rewrite rnd_dyadic by lia. simpl. rewrite !plus_IZR, minus_IZR. lra.
Qed.

Lemma X0_range : (6 * m <= X0)%Z /\ (X0 + 7 * m <= 2 ^ 26)%Z /\ (6 * m <= Y0)%Z /\ (Y0 + 7 * m <= 2 ^ 26)%Z.
Proof. destruct HD as (Hx & Hy & Hm & _). unfold X0, Y0. nia. Qed.

Lemma round_middle x a : (0 <= a)%Z -> (a + m <= 2 ^ 26)%Z -> fin x (IZR a + IZR m / 2 - / 2) -> (a <= round_u32 x < a + m)%Z.
Proof.
  intros Ha W F. destruct HD as (_ & _ & Hm & _). pose proof m_pos. rewrite (round_u32_R _ _ F). fold (pixel_of (IZR a + IZR m / 2 - / 2)).
  assert (a <= pixel_of (IZR a + IZR m / 2 - / 2) <= a + m - 1)%Z; [|lia].
  apply pixel_of_range; [lia|unfold u32_max; lia|]. rewrite minus_IZR, plus_IZR. lra.
Qed.

Lemma near_round e p : e <= 1024 * u24 -> near e p 0 0 -> (X0 <= round_u32 (px p) < X0 + m)%Z /\ (Y0 <= round_u32 (py p) < Y0 + m)%Z.
Proof.
  intros He [A B]. destruct HD as (Hx & Hy & Hm & _). pose proof m_pos. assert (u24 = / 16777216) as U by reflexivity.
  destruct (round_pixel _ _ _ A) as (a & HA & ->). destruct (round_pixel _ _ _ B) as (b & HB & ->).
  rewrite !Z.add_0_r in HA, HB. fold Xc in HA. fold Yc in HB.
  destruct (middle_pixel ox Xc a Hx WX ltac:(lia)) as (i & Hi & ->).
  { replace (a - middle ox Xc) with ((a - (middle ox Xc + ex)) + ex) by lra. eapply Rle_lt_trans; [apply Rabs_triang|]. lra. }
  destruct (middle_pixel oy Yc b Hy WY ltac:(lia)) as (j & Hj & ->).
  { replace (b - middle oy Yc) with ((b - (middle oy Yc + ey)) + ey) by lra. eapply Rle_lt_trans; [apply Rabs_triang|]. lra. }
  unfold X0, Y0. lia.
Qed.

Lemma centre_alignment_ok e p : wf_gray g -> e <= 1024 * u24 -> near e p 0 0 ->
  exists q, centre_alignment g p = Ok q /\ fin (px q) (middle ox Xc) /\ fin (py q) (middle oy Yc).
Proof.
  intros HW He NP. destruct (near_round e p He NP) as [RX RY]. pose proof HW as (W1 & W2 & _). pose proof X0_range as (A1 & A2 & A3 & A4).
  destruct HD as (Hx & Hy & Hm & _). unfold centre_alignment. set (ax := round_u32 (px p)) in *. set (ay := round_u32 (py p)) in *.
  rewrite (scan_down _ X0 ax) by (first [lia|intros x Hx'; apply centre_pixel; lia|apply left_pixel; lia]). cbn [bind].
  pose proof (get_pixel_in g (X0 + m) ay _ HW ltac:(lia) ltac:(lia) (right_pixel ay RY)) as [G1 _].
  rewrite (scan_up _ ax (X0 + m) (gw g)) by (first [lia|intros x Hx'; apply centre_pixel; lia|apply right_pixel; lia]). cbn [bind].
  pose proof (average X0 ltac:(lia) ltac:(lia)) as FX. set (cx := fdiv _ _) in *.
  pose proof (round_middle cx X0 ltac:(lia) ltac:(lia) FX) as RX'.
  rewrite (scan_down _ Y0 ay) by (first [lia|intros y Hy'; apply centre_pixel; lia|apply above_pixel; lia]). cbn [bind].
  pose proof (get_pixel_in g (round_u32 cx) (Y0 + m) _ HW ltac:(lia) ltac:(lia) (below_pixel _ RX')) as [_ G2].
  rewrite (scan_up _ ay (Y0 + m) (gh g)) by (first [lia|intros y Hy'; apply centre_pixel; lia|apply below_pixel; lia]). cbn [bind].
  eexists. split; [reflexivity|]. cbn [px py].
  assert (E : forall o k a, a = (o + k * m)%Z -> middle o k = IZR a + IZR m / 2 - / 2).
  { intros o k a ->. unfold middle, middle_of. rewrite plus_IZR, mult_IZR. lra. }
  rewrite (E ox Xc X0 eq_refl), (E oy Yc Y0 eq_refl). split; [exact FX|]. apply average; lia.
Qed.

(** *** the perspective *)
Definition dX := ddiv (pdiff (top_right loc) (top_left loc)) (of_Z (n - 7)).
Definition dY := ddiv (pdiff (bottom_left loc) (top_left loc)) (of_Z (n - 7)).
Lemma dX_about : about dX (IZR ux * IZR m) (IZR uy * IZR m) (2 * u24).
Proof. destruct steps_ok as (A & B & _). now split. Qed.
Lemma dY_about : about dY (IZR wx * IZR m) (IZR wy * IZR m) (2 * u24).
Proof. destruct steps_ok as (_ & _ & A & B). now split. Qed.
Lemma dX_step : step dX 1 0 (2 * u24).
Proof. unfold step. rewrite !Z.mul_1_r, !Z.mul_0_r, !Z.add_0_r. exact dX_about. Qed.
Lemma dY_step : step dY 0 1 (2 * u24).
Proof. unfold step. rewrite !Z.mul_1_r, !Z.mul_0_r, !Z.add_0_l. exact dY_about. Qed.

Lemma estimate_near : near (400 * u24) (estimate loc dX dY (n - 10)) 0 0.
Proof.
  pose proof dX_about as [X1 X2]. pose proof dY_about as [Y1 Y2]. assert (U : u24 = / 16777216) by reflexivity.
  pose proof m_pos as MP. pose proof m_small as MS. destruct HD as (Hx & Hy & Hm & _). pose proof units as (U1 & U2 & U3 & U4).
  destruct L2 as [B1 _], L3 as [_ C2]. unfold estimate. unfold near. cbn [px py padd psub dmul dlx dly].
  assert (N10 : 11 <= IZR (n - 10) <= 167) by (split; apply IZR_le; lia).
  assert (NM : IZR (n - 10) * IZR m <= 67108864) by (rewrite <- mult_IZR; apply IZR_le; nia).
  assert (M3 : forall f z, Rabs z <= IZR m -> apx f z (2 * u24) -> apx (fmul f (of_Z 3)) (z * IZR 3) (7 * u24)).
  { intros f z Hz A. apply apx_weaken with (IZR 3 * (2 * u24) + u24); [|lra]. apply mul29; auto; [lia|].
    rewrite Rabs_mult, (Rabs_pos_eq (IZR 3)) by lra. unfold big29. lra. }
  assert (MN : forall f z, Rabs z <= IZR m -> apx f z (2 * u24) -> apx (fmul f (of_Z (n - 10))) (z * IZR (n - 10)) (335 * u24)).
  { intros f z Hz A. assert (IZR (n - 10) * (2 * u24) <= 167 * (2 * u24)) by (apply Rmult_le_compat_r; lra).
    apply apx_weaken with (IZR (n - 10) * (2 * u24) + u24); [|lra].
    apply mul29; auto; [lia|]. rewrite Rabs_mult, (Rabs_pos_eq (IZR (n - 10))) by lra.
    assert (Rabs z * IZR (n - 10) <= IZR m * IZR (n - 10)) by (apply Rmult_le_compat_r; lra). unfold big29. lra. }
  pose proof (M3 _ _ U1 X1) as T1. pose proof (M3 _ _ U4 Y2) as T4. pose proof (MN _ _ U3 Y1) as T3. pose proof (MN _ _ U2 X2) as T2.
  rewrite !Z.add_0_r.
  assert (EX1 : middle ox (mcol 3 (n - 7)) = middle ox (mcol 3 (n - 4)) - IZR ux * IZR m * IZR 3).
  { replace (mcol 3 (n - 7)) with (mcol 3 (n - 4) + ux * -3)%Z by (unfold mcol; lia). rewrite middle_add, mult_IZR. lra. }
  assert (EX2 : middle ox (mcol (n - 7) (n - 7)) = middle ox (mcol 3 (n - 4)) - IZR ux * IZR m * IZR 3 + IZR wx * IZR m * IZR (n - 10)).
  { replace (mcol (n - 7) (n - 7)) with (mcol 3 (n - 7) + wx * (n - 10))%Z by (unfold mcol; lia). rewrite middle_add, mult_IZR, EX1. lra. }
  assert (EY1 : middle oy (mrow (n - 4) (n - 7)) = middle oy (mrow (n - 4) 3) + IZR uy * IZR m * IZR (n - 10)).
  { replace (mrow (n - 4) (n - 7)) with (mrow (n - 4) 3 + uy * (n - 10))%Z by (unfold mrow; lia). rewrite middle_add, mult_IZR. lra. }
  assert (EY2 : middle oy (mrow (n - 7) (n - 7)) = middle oy (mrow (n - 4) 3) + IZR uy * IZR m * IZR (n - 10) - IZR wy * IZR m * IZR 3).
  { replace (mrow (n - 7) (n - 7)) with (mrow (n - 4) (n - 7) + wy * -3)%Z by (unfold mrow; lia). rewrite middle_add, mult_IZR, EY1. lra. }
  pose proof (col_small 3 (n - 7) ltac:(lia) ltac:(lia)) as K1. pose proof (col_small (n - 7) (n - 7) ltac:(lia) ltac:(lia)) as K2.
  pose proof (row_small (n - 4) (n - 7) ltac:(lia) ltac:(lia)) as K3. pose proof (row_small (n - 7) (n - 7) ltac:(lia) ltac:(lia)) as K4.
  rewrite EX1 in K1. rewrite EX2 in K2. rewrite EY1 in K3. rewrite EY2 in K4. rewrite EX2, EY2.
  set (kx0 := middle ox _) in *. set (ky0 := middle oy _) in *. set (s1 := IZR ux * IZR m) in *. set (s2 := IZR uy * IZR m) in *. set (s3 := IZR wx * IZR m) in *. set (s4 := IZR wy * IZR m) in *.
  set (l := IZR (n - 10)) in *.
  split.
  - apply apx_eq with (kx0 + ex - s1 * IZR 3 + s3 * l); [|lra].
    apply apx_weaken with (0 + 7 * u24 + u24 + 335 * u24 + u24); [|lra].
    replace (kx0 - s1 * IZR 3 + ex) with (kx0 + ex - s1 * IZR 3) in K1 by lra. replace (kx0 - s1 * IZR 3 + s3 * l + ex) with (kx0 + ex - s1 * IZR 3 + s3 * l) in K2 by lra.
    apply add29; [apply sub29; [now apply fin_apx|exact T1|]|exact T3|]; unfold big29; lra.
  - apply apx_eq with (ky0 + ey + s2 * l - s4 * IZR 3); [|lra].
    apply apx_weaken with (0 + 335 * u24 + u24 + 7 * u24 + u24); [|lra].
    replace (ky0 + s2 * l + ey) with (ky0 + ey + s2 * l) in K3 by lra. replace (ky0 + s2 * l - s4 * IZR 3 + ey) with (ky0 + ey + s2 * l - s4 * IZR 3) in K4 by lra.
    apply sub29; [apply add29; [now apply fin_apx|exact T2|]|exact T4|]; unfold big29; lra.
Qed.

(** how much [dx] grows per row: the offset is gone when the alignment pattern is reached *)
Definition growth (e : R) : R := - e / IZR ((n - 10) * (n - 10)).

Lemma sq_range : (121 <= (n - 10) * (n - 10) <= 27889)%Z.
Proof. nia. Qed.

Lemma delta_apx c e x y : apx x (c + e) (400 * u24) -> fin y c -> Rabs e <= 67108864 ->
  apx (fdiv (fsub y x) (of_Z ((n - 10) * (n - 10)))) (growth e) (5 * u24).
Proof.
  intros A F He. assert (U : u24 = / 16777216) by reflexivity. pose proof sq_range as SQ. set (q := ((n - 10) * (n - 10))%Z) in *.
  assert (Q : 121 <= IZR q) by (apply IZR_le; lia). unfold growth. fold q. replace (- e) with (c - (c + e)) by lra.
  apply apx_weaken with ((0 + 400 * u24 + u24) / Rabs (IZR q) + bpow radix2 (29 - 53)).
  - apply apx_fdiv; [lia| |apply fin_of_Z; lia|lra|].
    + apply sub29; auto; [now apply fin_apx|]. replace (c - (c + e)) with (- e) by lra. rewrite Rabs_Ropp. unfold big29. lra.
    + replace (c - (c + e)) with (- e) by lra. rewrite (Rabs_pos_eq (IZR q)) by lra. unfold Rdiv.
      rewrite Rabs_mult, Rabs_Ropp, (Rabs_pos_eq (/ IZR q)) by (apply Rlt_le, Rinv_0_lt_compat; lra). rewrite <- Rmult_plus_distr_r.
      apply Rle_trans with ((Rabs e + (0 + 400 * u24 + u24)) * 1).
      * apply Rmult_le_compat_l; [pose proof (Rabs_pos e); lra|]. rewrite <- Rinv_1. apply Rinv_le; lra.
      * change (bpow radix2 29) with big29. unfold big29. lra.
  - rewrite (Rabs_pos_eq (IZR q)) by lra. change (bpow radix2 (29 - 53)) with u24.
    assert ((0 + 400 * u24 + u24) / IZR q <= (0 + 400 * u24 + u24) * / 121); [|lra].
    apply Rmult_le_compat_l; [lra|]. apply Rinv_le; lra.
Qed.

Lemma perspective_ok v : wf_gray g -> (v =? 1)%Z = false ->
  exists dd, determine_perspective g v n loc = Ok (Persp dX dd dY no_delta) /\ about dd (growth ex) (growth ey) (5 * u24).
Proof.
  intros HW Hv. unfold determine_perspective. rewrite sub_Z_ok by lia. cbn [bind]. rewrite Hv. rewrite sub_Z_ok by lia. cbn [bind].
  fold dX dY. assert (U : u24 = / 16777216) by reflexivity. pose proof estimate_near as EN.
  set (est := estimate loc dX dY (n - 10)) in *.
  assert (H : exists rest, search_points est dX dY = (scale1, est) :: rest) by (eexists; reflexivity).
  destruct H as (rest & ->). cbn [find_alignment].
  rewrite (alignment_ok (400 * u24)) by (auto using dX_step, dY_step; lra). cbn [bind].
  destruct (centre_alignment_ok (400 * u24) est HW ltac:(lra) EN) as (q & -> & Q1 & Q2). cbn [bind].
  pose proof sq_range. rewrite chk_u32_ok by (unfold u32_max; lia). cbn [bind].
  eexists. split; [reflexivity|]. destruct EN as [E1 E2]. rewrite Z.add_0_r in E1, E2. pose proof m_small. pose proof m_pos.
  split; cbn [ddiv pdiff dlx dly].
  - apply (delta_apx (middle ox Xc)); auto; lra.
  - apply (delta_apx (middle oy Yc)); auto; lra.
Qed.

(** *** the samples *)
Lemma spread r c : (25 <= n)%Z -> (0 <= r < n)%Z -> (0 <= c < n)%Z ->
  (-7 * ((n - 10) * (n - 10)) <= 25 * ((r - 3) * (c - 3)) <= 49 * ((n - 10) * (n - 10)))%Z.
Proof.
  intros H Hr Hc. assert (A : (-3 * (n - 4) <= (r - 3) * (c - 3) <= (n - 4) * (n - 4))%Z) by (split; nia).
  assert (75 * (n - 4) <= 7 * ((n - 10) * (n - 10)))%Z by nia.
  assert (25 * ((n - 4) * (n - 4)) <= 49 * ((n - 10) * (n - 10)))%Z by nia. lia.
Qed.

Lemma offset_small e r c : (25 <= n)%Z -> (0 <= r < n)%Z -> (0 <= c < n)%Z -> Rabs e <= 3 * IZR m / 8 ->
  Rabs (e + IZR ((r - 3) * (c - 3)) * growth e) <= 12 * IZR m / 25.
Proof.
  intros H Hr Hc He. pose proof (spread r c H Hr Hc) as [S1 S2]. pose proof m_pos. pose proof sq_range as [Q1 _].
  unfold growth. set (q := ((n - 10) * (n - 10))%Z) in *. set (p := ((r - 3) * (c - 3))%Z) in *.
  assert (Q : 121 <= IZR q) by (apply IZR_le; lia).
  apply IZR_le in S1, S2. rewrite !mult_IZR in S1, S2.
  replace (e + IZR p * (- e / IZR q)) with (e * ((IZR q - IZR p) * / IZR q)) by (field; lra).
  rewrite Rabs_mult. replace (12 * IZR m / 25) with (3 * IZR m / 8 * (32 / 25)) by lra.
  apply Rmult_le_compat; try apply Rabs_pos; auto. rewrite Rabs_mult, (Rabs_pos_eq (/ IZR q)) by (apply Rlt_le, Rinv_0_lt_compat; lra).
  apply Rmult_le_reg_r with (IZR q); [lra|]. rewrite Rmult_assoc, Rinv_l by lra. rewrite Rmult_1_r. apply Rabs_le. lra.
Qed.

Lemma grid_x r c : grid (middle ox (mcol 3 3) + ex) (IZR ux * IZR m) (growth ex) (IZR wx * IZR m) r c
  = middle ox (mcol (Z.of_nat r) (Z.of_nat c)) + (ex + IZR ((Z.of_nat r - 3) * (Z.of_nat c - 3)) * growth ex).
Proof.
  replace (mcol (Z.of_nat r) (Z.of_nat c)) with (mcol 3 3 + (ux * (Z.of_nat c - 3) + wx * (Z.of_nat r - 3)))%Z by (unfold mcol; lia).
  rewrite middle_add. unfold grid. rewrite plus_IZR, !mult_IZR, !minus_IZR, <- !INR_IZR_INZ. ring.
Qed.
Lemma grid_y r c : grid (middle oy (mrow 3 3) + ey) (IZR uy * IZR m) (growth ey) (IZR wy * IZR m) r c
  = middle oy (mrow (Z.of_nat r) (Z.of_nat c)) + (ey + IZR ((Z.of_nat r - 3) * (Z.of_nat c - 3)) * growth ey).
Proof.
  replace (mrow (Z.of_nat r) (Z.of_nat c)) with (mrow 3 3 + (uy * (Z.of_nat c - 3) + wy * (Z.of_nat r - 3)))%Z by (unfold mrow; lia).
  rewrite middle_add. unfold grid. rewrite plus_IZR, !mult_IZR, !minus_IZR, <- !INR_IZR_INZ. ring.
Qed.

Lemma off_middle o c e k : (0 <= o)%Z -> (o + n * m <= 2 ^ 26)%Z -> (0 <= c < n)%Z -> Rabs (e + k) <= 12 * IZR m / 25 ->
  Rabs (middle o c + (e + k)) <= 67108864.
Proof.
  intros Ho W Hc He. pose proof (middle_small o c Ho W Hc). pose proof m_pos. apply Rabs_le_inv in He. apply Rabs_le.
  assert (IZR m <= 67108864) by (destruct HD as (_ & _ & Hm & _); apply IZR_le; nia). lra.
Qed.

Theorem extract_turned : (25 <= n)%Z -> wf_gray g -> n = (17 + 4 * version loc)%Z ->
  extract g loc = Ok (mkQRData (rows (fun r c => colour (module (Z.of_nat r) (Z.of_nat c))) (Z.to_nat n)) (version loc) n).
Proof.
  intros H25 HW HNV. unfold extract. rewrite !chk_u32_ok by (unfold u32_max; lia). cbn [bind]. rewrite chk_u32_ok by (unfold u32_max; lia). cbn [bind].
  replace (17 + version loc * 4)%Z with n by lia.
  destruct (perspective_ok (version loc) HW) as (dd & -> & G1 & G2); [apply Z.eqb_neq; lia|]. cbn [bind pdx pddx pdy pddy].
  pose proof dX_about as [X1 X2]. pose proof dY_about as [Y1 Y2].
  destruct HD as (Hx & Hy & Hm & _). destruct L1 as [A1 A2].
  assert (Z0 : fin (of_Z 0) 0) by (apply fin_of_Z; lia). pose proof m_pos as MP.
  rewrite (sample_rows_ok g _ (fun r c => colour (module (Z.of_nat r) (Z.of_nat c))) (Z.to_nat n) (Z.to_nat n)).
  - cbn [bind app]. unfold qrdata_new. rewrite !chk_u32_ok by (unfold u32_max; lia). cbn [bind].
    rewrite chk_u32_ok by (unfold u32_max; lia). cbn [bind]. do 2 f_equal. lia.
  - intros r c Hr Hc. cbn [pddx pddy]. unfold psub, dsub, dmul, no_delta. cbn [px py dlx dly].
    assert (B : forall r c, (r <= Z.to_nat (n - 1))%nat -> (c <= Z.to_nat (n - 1))%nat ->
       Rabs (grid (middle ox (mcol 3 3) + ex) (IZR ux * IZR m) (growth ex) (IZR wx * IZR m) r c) <= 67108864 /\
       Rabs (grid (middle oy (mrow 3 3) + ey) (IZR uy * IZR m) (growth ey) (IZR wy * IZR m) r c) <= 67108864).
    { intros r' c' Hr' Hc'. rewrite grid_x, grid_y. destruct (HP (Z.of_nat r') (Z.of_nat c') ltac:(lia) ltac:(lia)).
      split; apply off_middle; auto; try lia; apply offset_small; auto; lia. }
    destruct (round_pixel _ _ _ (sample_apx (px (top_left loc)) (dlx dX) (dlx dd) (dlx dY) (of_Z 0) (middle ox (mcol 3 3) + ex) (IZR ux * IZR m) (growth ex) (IZR wx * IZR m)
      (Z.to_nat (n - 1)) r c ltac:(lia) ltac:(lia) ltac:(lia) A1 X1 G1 Y1 Z0 (fun r c h1 h2 => proj1 (B r c h1 h2)))) as (a & HA & EA).
    destruct (round_pixel _ _ _ (sample_apx (py (top_left loc)) (dly dX) (dly dd) (dly dY) (of_Z 0) (middle oy (mrow 3 3) + ey) (IZR uy * IZR m) (growth ey) (IZR wy * IZR m)
      (Z.to_nat (n - 1)) r c ltac:(lia) ltac:(lia) ltac:(lia) A2 X2 G2 Y2 Z0 (fun r c h1 h2 => proj2 (B r c h1 h2)))) as (b & HB & EB).
    unfold sample in EA, EB. rewrite EA, EB. rewrite grid_x in HA. rewrite grid_y in HB. unfold slack in HA, HB.
    pose proof (offset_small ex (Z.of_nat r) (Z.of_nat c) H25 ltac:(lia) ltac:(lia) HE) as O1.
    pose proof (offset_small ey (Z.of_nat r) (Z.of_nat c) H25 ltac:(lia) ltac:(lia) HE') as O2.
    destruct (HP (Z.of_nat r) (Z.of_nat c) ltac:(lia) ltac:(lia)) as [P1 P2]. unfold module.
    set (o1 := ex + _) in *. set (o2 := ey + _) in *. set (cc := mcol (Z.of_nat r) (Z.of_nat c)) in *. set (rr := mrow (Z.of_nat r) (Z.of_nat c)) in *.
    apply module_shown; try lia.
    + replace (a - middle ox cc) with ((a - (middle ox cc + o1)) + o1) by lra. eapply Rle_lt_trans; [apply Rabs_triang|]. lra.
    + replace (b - middle oy rr) with ((b - (middle oy rr + o2)) + o2) by lra. eapply Rle_lt_trans; [apply Rabs_triang|]. lra.
Qed.
End Drawn.

(** version 1 needs no alignment pattern *)
Theorem extract_turned_1 g m ox oy dark kx ux wx ky uy wy loc ex ey : drawn (pixel g) m ox oy 21 dark ->
  (ox + 21 * m <= 2 ^ 26)%Z -> (oy + 21 * m <= 2 ^ 26)%Z ->
  (forall r c, (0 <= r < 21)%Z -> (0 <= c < 21)%Z -> (0 <= mcol kx ux wx r c < 21)%Z /\ (0 <= mrow ky uy wy r c < 21)%Z) ->
  Rabs ex <= 3 * IZR m / 8 -> Rabs ey <= 3 * IZR m / 8 -> version loc = 1%Z ->
  centred m ox oy kx ux wx ky uy wy ex ey (top_left loc) 3 3 -> centred m ox oy kx ux wx ky uy wy ex ey (top_right loc) 3 17 ->
  centred m ox oy kx ux wx ky uy wy ex ey (bottom_left loc) 17 3 ->
  extract g loc = Ok (mkQRData (rows (fun r c => colour (module dark kx ux wx ky uy wy (Z.of_nat r) (Z.of_nat c))) 21) 1 21).
Proof.
  intros HD WX WY HP HE HE' HV [A1 A2] [B1 B2] [C1 C2]. pose proof HD as (Hx & Hy & Hm & _).
  assert (MP : 1 <= IZR m) by now apply IZR_le.
  apply (extract_1 g loc (fun r c => colour (module dark kx ux wx ky uy wy (Z.of_nat r) (Z.of_nat c))) _ _ _ _ _ _ HV A1 A2 B1 B2 C1 C2).
  intros r c Hr Hc. cbv zeta. destruct (HP (Z.of_nat r) (Z.of_nat c) ltac:(lia) ltac:(lia)) as [P1 P2].
  assert (E : forall o e k u w, grid (middle m o (k + u * 3 + w * 3) + e) ((middle m o (k + u * 17 + w * 3) + e - (middle m o (k + u * 3 + w * 3) + e)) / 14) 0
     ((middle m o (k + u * 3 + w * 17) + e - (middle m o (k + u * 3 + w * 3) + e)) / 14) r c = middle m o (k + u * Z.of_nat c + w * Z.of_nat r) + e).
  { intros. unfold grid, middle, middle_of. rewrite !plus_IZR, !mult_IZR, <- !INR_IZR_INZ. field. }
  unfold mcol, mrow in *. rewrite !E. split; [|split].
  - apply (corner_small g m ox oy 21 dark HD); auto; lia.
  - apply (corner_small g m ox oy 21 dark HD); auto; lia.
  - intros a b HA HB. unfold slack in *. unfold module, mcol, mrow.
    set (cc := (kx + ux * Z.of_nat c + wx * Z.of_nat r)%Z) in *. set (rr := (ky + uy * Z.of_nat c + wy * Z.of_nat r)%Z) in *.
    apply (module_shown g m ox oy 21 dark HD); auto; try lia.
    + replace (a - middle m ox cc) with ((a - (middle m ox cc + ex)) + ex) by lra. eapply Rle_lt_trans; [apply Rabs_triang|]. lra.
    + replace (b - middle m oy rr) with ((b - (middle m oy rr + ey)) + ey) by lra. eapply Rle_lt_trans; [apply Rabs_triang|]. lra.
Qed.

(** a symbol that has not been turned *)
Lemma rows_ext f f' n : (forall r c, f r c = f' r c) -> rows f n = rows f' n.
Proof. intros H. unfold rows. apply flat_map_ext. intros r. apply map_ext. intros c. apply H. Qed.
Lemma upright r c : mcol 0 1 0 r c = c /\ mrow 0 0 1 r c = r.
Proof. unfold mcol, mrow. lia. Qed.
Lemma upright_centred m ox oy ex ey p r c : fin (px p) (middle m ox c + ex) /\ fin (py p) (middle m oy r + ey) -> centred m ox oy 0 1 0 0 0 1 ex ey p r c.
Proof. unfold centred. destruct (upright r c) as [-> ->]. trivial. Qed.

Theorem extract_drawn g m ox oy n dark loc ex ey : drawn (pixel g) m ox oy n dark ->
  (ox + n * m <= 2 ^ 26)%Z -> (oy + n * m <= 2 ^ 26)%Z -> Rabs ex <= 3 * IZR m / 8 -> Rabs ey <= 3 * IZR m / 8 ->
  fin (px (top_left loc)) (middle m ox 3 + ex) /\ fin (py (top_left loc)) (middle m oy 3 + ey) ->
  fin (px (top_right loc)) (middle m ox (n - 4) + ex) /\ fin (py (top_right loc)) (middle m oy 3 + ey) ->
  fin (px (bottom_left loc)) (middle m ox 3 + ex) /\ fin (py (bottom_left loc)) (middle m oy (n - 4) + ey) ->
  bottom_right_alignment n dark -> (25 <= n <= 177)%Z -> wf_gray g -> n = (17 + 4 * version loc)%Z ->
  extract g loc = Ok (mkQRData (rows (fun r c => colour (dark (Z.of_nat r) (Z.of_nat c))) (Z.to_nat n)) (version loc) n).
Proof.
  intros HD WX WY HE HE' A B C HV HN HW HNV.
  assert (M : forall r c, module dark 0 1 0 0 0 1 r c = dark r c) by (intros r c; unfold module; now destruct (upright r c) as [-> ->]).
  rewrite (extract_turned g m ox oy n dark HD ltac:(lia) WX WY 0 1 0 0 0 1 eq_refl eq_refl
    (fun r c Hr Hc => match upright r c with conj a b => conj (eq_ind_r (fun k => 0 <= k < n)%Z Hc a) (eq_ind_r (fun k => 0 <= k < n)%Z Hr b) end)
    loc ex ey HE HE' (upright_centred _ _ _ _ _ _ _ _ A) (upright_centred _ _ _ _ _ _ _ _ B) (upright_centred _ _ _ _ _ _ _ _ C)); auto; try lia.
  - do 2 f_equal. apply rows_ext. intros r c. now rewrite M.
  - intros i j Hi Hj. rewrite M. now apply HV.
  - intros i j Hi Hj. unfold Xc, Yc. destruct (upright (n - 7) (n - 7)) as [-> ->]. rewrite HV by assumption. reflexivity.
  - unfold Xc, mcol. lia.
  - unfold Yc, mrow. lia.
Qed.

Theorem extract_drawn_1 g m ox oy dark loc ex ey : drawn (pixel g) m ox oy 21 dark ->
  (ox + 21 * m <= 2 ^ 26)%Z -> (oy + 21 * m <= 2 ^ 26)%Z -> Rabs ex <= 3 * IZR m / 8 -> Rabs ey <= 3 * IZR m / 8 ->
  fin (px (top_left loc)) (middle m ox 3 + ex) /\ fin (py (top_left loc)) (middle m oy 3 + ey) ->
  fin (px (top_right loc)) (middle m ox 17 + ex) /\ fin (py (top_right loc)) (middle m oy 3 + ey) ->
  fin (px (bottom_left loc)) (middle m ox 3 + ex) /\ fin (py (bottom_left loc)) (middle m oy 17 + ey) -> version loc = 1%Z ->
  extract g loc = Ok (mkQRData (rows (fun r c => colour (dark (Z.of_nat r) (Z.of_nat c))) 21) 1 21).
Proof.
  intros HD WX WY HE HE' A B C HV.
  rewrite (extract_turned_1 g m ox oy dark 0 1 0 0 0 1 loc ex ey HD WX WY); try (apply upright_centred); try assumption.
  - apply (f_equal (fun l => Ok (mkQRData l 1 21))), rows_ext. intros r c. unfold module. now destruct (upright (Z.of_nat r) (Z.of_nat c)) as [-> ->].
  - intros r c Hr Hc. destruct (upright r c) as [-> ->]. now split.
Qed.

(** *** when sampling fails *)
Lemma get_pixel_in_or_out g x y : wf_gray g -> (0 <= x)%Z -> (0 <= y)%Z ->
  (x < gw g /\ y < gh g)%Z /\ (exists v, get_pixel g x y = Ok v) \/ ~ (x < gw g /\ y < gh g)%Z /\ get_pixel g x y = Panic PIndex.
Proof.
  intros HW Hx Hy. destruct (Z_lt_dec x (gw g)) as [A|A]; [destruct (Z_lt_dec y (gh g)) as [B|B]|].
  - left. split; [lia|]. eexists. apply get_pixel_pix; auto; lia.
  - right. split; [lia|]. unfold get_pixel. destruct (Z.ltb_spec y (gh g)); [lia|]. now rewrite andb_false_r.
  - right. split; [lia|]. unfold get_pixel. destruct (Z.ltb_spec x (gw g)); [lia|]. reflexivity.
Qed.

Lemma sample_row_reads g : forall n line dx data data', sample_row n g line dx data = Ok data' ->
  forall i, (i < n)%nat -> exists v, get_pixel g (round_u32 (steps i (px line) (dlx dx))) (round_u32 (steps i (py line) (dly dx))) = Ok v.
Proof.
  induction n as [|n IH]; intros line dx data data' E i Hi; [lia|]. cbn [sample_row] in E.
  apply bind_ok in E. destruct E as (v & E1 & E). destruct i as [|i]; [exists v; exact E1|].
  exact (IH _ _ _ _ E i ltac:(lia)).
Qed.
Lemma sample_rows_reads g p cols : forall n start dx dy data data', sample_rows n cols g p start dx dy data = Ok data' ->
  forall r c, (r < n)%nat -> (c < cols)%nat -> exists v,
     get_pixel g (round_u32 (coord (px start) (dlx dx) (dlx (pddx p)) (dlx dy) (dlx (pddy p)) r c))
                 (round_u32 (coord (py start) (dly dx) (dly (pddx p)) (dly dy) (dly (pddy p)) r c)) = Ok v.
Proof.
  induction n as [|n IH]; intros start dx dy data data' E r c Hr Hc; [lia|]. cbn [sample_rows] in E.
  apply bind_ok in E. destruct E as (d & E1 & E). destruct r as [|r].
  - exact (sample_row_reads g _ _ _ _ _ E1 c Hc).
  - exact (IH _ _ _ _ _ E r c ltac:(lia) Hc).
Qed.
Lemma sample_row_no_err g : forall n line dx data e, sample_row n g line dx data <> Err e.
Proof.
  induction n as [|n IH]; intros line dx data e; cbn [sample_row]; [discriminate|].
  destruct (get_pixel g _ _) as [v|e'|p] eqn:E; cbn [bind]; [apply IH| |discriminate].
  unfold get_pixel in E. destruct (_ && _); [|discriminate]. unfold get in E. destruct (nth_error _ _); discriminate.
Qed.
Lemma sample_rows_no_err g p cols : forall n start dx dy data e, sample_rows n cols g p start dx dy data <> Err e.
Proof.
  induction n as [|n IH]; intros start dx dy data e; cbn [sample_rows]; [discriminate|].
  destruct (sample_row _ _ _ _ _) as [v|e'|q] eqn:E; cbn [bind]; [apply IH| |discriminate]. now apply sample_row_no_err in E.
Qed.

Section Version1.
Context (g : gray) (loc : qrloc) (xl yl xr yr xb yb : R) (HV : version loc = 1%Z).
Context (F1 : fin (px (top_left loc)) xl) (F2 : fin (py (top_left loc)) yl) (F3 : fin (px (top_right loc)) xr) (F4 : fin (py (top_right loc)) yr).
Context (F5 : fin (px (bottom_left loc)) xb) (F6 : fin (py (bottom_left loc)) yb).
Definition grid_x1 (r c : nat) : R := grid xl ((xr - xl) / 14) 0 ((xb - xl) / 14) r c.
Definition grid_y1 (r c : nat) : R := grid yl ((yr - yl) / 14) 0 ((yb - yl) / 14) r c.
Context (HB : forall r c, (r < 21)%nat -> (c < 21)%nat -> Rabs (grid_x1 r c) <= 67108864 /\ Rabs (grid_y1 r c) <= 67108864).

Definition sample_x1 (r c : nat) : f64 := sample (px (top_left loc)) (fdiv (fsub (px (top_right loc)) (px (top_left loc))) (of_Z 14)) (of_Z 0)
  (fdiv (fsub (px (bottom_left loc)) (px (top_left loc))) (of_Z 14)) (of_Z 0) r c.
Definition sample_y1 (r c : nat) : f64 := sample (py (top_left loc)) (fdiv (fsub (py (top_right loc)) (py (top_left loc))) (of_Z 14)) (of_Z 0)
  (fdiv (fsub (py (bottom_left loc)) (py (top_left loc))) (of_Z 14)) (of_Z 0) r c.

Lemma points_1 r c : (r < 21)%nat -> (c < 21)%nat -> exists a b, Rabs (a - grid_x1 r c) <= slack /\ Rabs (b - grid_y1 r c) <= slack /\
  round_u32 (sample_x1 r c) = pixel_of a /\ round_u32 (sample_y1 r c) = pixel_of b.
Proof.
  intros Hr Hc.
  assert (C3 : forall t a b, grid t a 0 b 3 3 = t) by (intros; unfold grid; change (INR 3) with (1 + 1 + 1); lra).
  assert (CR : forall t q b, grid t ((q - t) / 14) 0 b 3 17 = q).
  { intros. unfold grid. replace (INR 17) with 17 by (simpl; lra). change (INR 3) with (1 + 1 + 1). field. }
  assert (CB : forall t q b, grid t b 0 ((q - t) / 14) 17 3 = q).
  { intros. unfold grid. replace (INR 17) with 17 by (simpl; lra). change (INR 3) with (1 + 1 + 1). field. }
  pose proof (HB 3 3 ltac:(lia) ltac:(lia))%nat as B33. unfold grid_x1, grid_y1 in B33. rewrite !C3 in B33.
  pose proof (HB 3 17 ltac:(lia) ltac:(lia))%nat as B3r. unfold grid_x1, grid_y1 in B3r. rewrite !CR in B3r.
  pose proof (HB 17 3 ltac:(lia) ltac:(lia))%nat as Br3. unfold grid_x1, grid_y1 in Br3. rewrite !CB in Br3.
  assert (Z0 : fin (of_Z 0) 0) by (apply fin_of_Z; lia).
  assert (Z5 : apx (of_Z 0) 0 (5 * u24)) by (apply apx_weaken with 0; [now apply fin_apx|unfold u24; lra]).
  assert (BP : forall r c, (r <= 20)%nat -> (c <= 20)%nat -> Rabs (grid_x1 r c) <= 67108864 /\ Rabs (grid_y1 r c) <= 67108864) by (intros; apply HB; lia).
  destruct (round_pixel _ _ _ (sample_apx (px (top_left loc)) (fdiv (fsub (px (top_right loc)) (px (top_left loc))) (of_Z 14)) (of_Z 0)
      (fdiv (fsub (px (bottom_left loc)) (px (top_left loc))) (of_Z 14)) (of_Z 0) xl ((xr - xl) / 14) 0 ((xb - xl) / 14) 20 r c
      ltac:(lia) ltac:(lia) ltac:(lia) F1 (step_apx _ _ _ _ 14 F3 F1 (proj1 B3r) (proj1 B33) ltac:(lia)) Z5
      (step_apx _ _ _ _ 14 F5 F1 (proj1 Br3) (proj1 B33) ltac:(lia)) Z0 (fun r c h1 h2 => proj1 (BP r c h1 h2)))) as (a & HA & EA).
  destruct (round_pixel _ _ _ (sample_apx (py (top_left loc)) (fdiv (fsub (py (top_right loc)) (py (top_left loc))) (of_Z 14)) (of_Z 0)
      (fdiv (fsub (py (bottom_left loc)) (py (top_left loc))) (of_Z 14)) (of_Z 0) yl ((yr - yl) / 14) 0 ((yb - yl) / 14) 20 r c
      ltac:(lia) ltac:(lia) ltac:(lia) F2 (step_apx _ _ _ _ 14 F4 F2 (proj2 B3r) (proj2 B33) ltac:(lia)) Z5
      (step_apx _ _ _ _ 14 F6 F2 (proj2 Br3) (proj2 B33) ltac:(lia)) Z0 (fun r c h1 h2 => proj2 (BP r c h1 h2)))) as (b & HB' & EB).
  exists a, b. auto.
Qed.

Lemma unfold_1 : exists p start dx dy, extract g loc = (data <- sample_rows 21 21 g p start dx dy [] ;; Ok (mkQRData data 1 21)) /\
  forall r c, coord (px start) (dlx dx) (dlx (pddx p)) (dlx dy) (dlx (pddy p)) r c = sample_x1 r c /\
              coord (py start) (dly dx) (dly (pddx p)) (dly dy) (dly (pddy p)) r c = sample_y1 r c.
Proof.
  unfold extract. rewrite HV. change (1 * 4)%Z with 4%Z. cbn [bind chk_u32].
  change (chk_u32 4) with (Ok 4%Z). cbn [bind]. change (chk_u32 (17 + 4)) with (Ok 21%Z). cbn [bind].
  unfold determine_perspective. change (sub_Z 21 7) with (Ok 14%Z). cbn [bind]. change (1 =? 1)%Z with true. cbv beta iota. cbn [bind].
  cbn [pdx pddx pdy pddy]. change (Z.to_nat 21) with 21%nat.
  do 4 eexists. split; [reflexivity|]. intros r c. split; reflexivity.
Qed.

Lemma outside_1 r c : wf_gray g -> (r < 21)%nat -> (c < 21)%nat ->
  IZR (gw g) - /2 + slack <= grid_x1 r c \/ IZR (gh g) - /2 + slack <= grid_y1 r c -> exists p, extract g loc = Panic p.
Proof.
  intros HW Hr Hc HO. destruct unfold_1 as (p & start & dx & dy & -> & U).
  destruct (sample_rows _ _ _ _ _ _ _ _) as [data|e|q] eqn:E; cbn [bind]; [exfalso|now apply sample_rows_no_err in E|eauto].
  destruct (sample_rows_reads _ _ _ _ _ _ _ _ _ E r c Hr Hc) as (v & P). destruct (U r c) as [U1 U2]. rewrite U1, U2 in P.
  destruct (points_1 r c Hr Hc) as (a & b & HA & HB' & EA & EB). rewrite EA, EB in P. apply Rabs_le_inv in HA, HB'.
  pose proof HW as (W1 & W2 & _).
  assert (K : forall q z, (0 <= z <= u32_max)%Z -> IZR z - / 2 <= q -> (z <= pixel_of q)%Z).
  { intros q z Hz Hq. unfold pixel_of. destruct (Z.eq_dec z 0) as [->|NZ]; [unfold u32_max; lia|]. assert (1 <= IZR z) by (apply IZR_le; lia).
    rewrite away_pos by lra. assert (z <= Zfloor (q + / 2))%Z by (apply Zfloor_lub; lra). lia. }
  assert (0 <= pixel_of a /\ 0 <= pixel_of b)%Z by (unfold pixel_of, u32_max; lia).
  apply get_pixel_in in P; try tauto. destruct HO as [HO|HO].
  - assert (gw g <= pixel_of a)%Z by (apply K; [unfold u32_max in *; lia|lra]). lia.
  - assert (gh g <= pixel_of b)%Z by (apply K; [unfold u32_max in *; lia|lra]). lia.
Qed.

Lemma inside_1 : wf_gray g -> (0 < gw g)%Z -> (0 < gh g)%Z ->
  (forall r c, (r < 21)%nat -> (c < 21)%nat -> grid_x1 r c < IZR (gw g) - /2 - slack /\ grid_y1 r c < IZR (gh g) - /2 - slack) ->
  exists data, extract g loc = Ok (mkQRData data 1 21).
Proof.
  intros HW W0 H0 HI. pose proof HW as (W1 & W2 & _). destruct unfold_1 as (p & start & dx & dy & -> & U).
  rewrite (sample_rows_ok g p (fun r c => pix g (round_u32 (sample_x1 r c)) (round_u32 (sample_y1 r c)))); [cbn [bind]; eauto|].
  intros r c Hr Hc. destruct (U r c) as [-> ->]. destruct (points_1 r c Hr Hc) as (a & b & HA & HB' & -> & ->).
  destruct (HI r c Hr Hc) as [I1 I2]. apply Rabs_le_inv in HA, HB'.
  assert (S0 : 0 < slack < / 2) by (unfold slack; lra).
  assert (K : forall q z, (0 < z <= u32_max)%Z -> q < IZR z - / 2 -> (0 <= pixel_of q < z)%Z).
  { intros q z Hz Hq. destruct (Rlt_le_dec q 0) as [L|L].
    - unfold pixel_of. pose proof (away_neg q L). unfold u32_max in *. lia.
    - assert (X : (0 <= pixel_of q <= z - 1)%Z); [|lia]. apply pixel_of_range; [lia|lia|]. rewrite minus_IZR. lra. }
  apply get_pixel_pix; [exact HW|apply K; [unfold u32_max in *; lia|lra]|apply K; [unfold u32_max in *; lia|lra]].
Qed.
End Version1.
