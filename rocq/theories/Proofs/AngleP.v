(** Symbols at any angle: which pixels are read, and where the centre of the alignment pattern is measured. *)
From Coq Require Import NArith ZArith Reals List Lia Lra Bool Psatz.
From Verif.Model Require Import Prepare Detect Extract.
From Flocq Require Import Core.
From Verif.Spec Require Import Drawing Perspective Angle.
From Verif.Proofs Require Import BaseP FloatP ApproxP DetectP ExtractP AlignP GridP.
Import ListNotations.
Local Open Scope R_scope.

(** *** one module: a square with half sides [h] around (0, 0) *)
Definition sq (c s h x y : R) : Prop := Rabs (c * x + s * y) <= h /\ Rabs (c * y - s * x) <= h.
Definition sq' (c s h x y : R) : Prop := - h <= c * x + s * y < h /\ - h <= c * y - s * x < h.

Lemma sq_quarter c s h x y : sq c s h x y <-> sq (- s) c h x y.
Proof.
  unfold sq. replace (- s * x + c * y) with (c * y - s * x) by ring. replace (- s * y - c * x) with (- (c * x + s * y)) by ring. rewrite Rabs_Ropp. tauto.
Qed.
Lemma sq_half c s h x y : sq c s h x y <-> sq (- c) (- s) h x y.
Proof. rewrite sq_quarter, sq_quarter. reflexivity. Qed.
Lemma sq_mirror c s h x y : sq c s h x y <-> sq c (- s) h x (- y).
Proof. unfold sq. replace (c * x + - s * - y) with (c * x + s * y) by ring. replace (c * - y - - s * x) with (- (c * y - s * x)) by ring. rewrite Rabs_Ropp. tauto. Qed.
Lemma sq_opp c s h x y : sq c s h x y <-> sq c s h (- x) (- y).
Proof.
  unfold sq. replace (c * - x + s * - y) with (- (c * x + s * y)) by ring. replace (c * - y - s * - x) with (- (c * y - s * x)) by ring. rewrite !Rabs_Ropp. tauto.
Qed.

(** the opposite chord begins and ends close by *)
Lemma chord_0 c s h x y : c * c + s * s = 1 -> 0 <= s <= c -> 0 <= y -> 2 * (y * y) <= h * h -> 0 <= h -> sq c s h x y ->
  exists x', Rabs (x' - x) <= 2 * y /\ sq c s h x' (- y).
Proof.
  intros U [S0 SC] Y0 YH H0 [A B]. apply Rabs_le_inv in A, B. assert (C0 : 0 < c) by nra.
  assert (CS : (c + s) * (c + s) <= 2) by nra. assert (YS : y * (c + s) <= h).
  { apply Rsqr_incr_0_var; [|lra]. unfold Rsqr. assert (0 <= y * y) by nra. nra. }
  assert (C1 : c <= 1) by nra. assert (S1 : 1 <= c + s) by nra.
  assert (K : s * x <= h - c * y).
  { assert (c * (s * x) <= s * (h - s * y)) by nra. apply Rmult_le_reg_l with c; [lra|].
    assert (0 <= (c - s) * (h - y * (c + s))) by nra. nra. }
  destruct (Rle_lt_dec (- h + s * y) (c * x)) as [L|L].
  - exists x. split; [replace (x - x) with 0 by ring; rewrite Rabs_R0; lra|]. split; apply Rabs_le; nra.
  - exists ((- h + s * y) / c). set (z := (- h + s * y) / c). assert (EZ : c * z = - h + s * y) by (unfold z; field; lra).
    assert (X1 : x <= z) by nra. assert (X2 : z - x <= 2 * y).
    { assert (c * (z - x) <= 2 * s * y) by lra. assert (2 * s * y <= c * (2 * y)) by nra. apply Rmult_le_reg_l with c; lra. }
    split; [apply Rabs_le; lra|]. split; apply Rabs_le.
    + split; [lra|]. nra.
    + split.
      * assert (s * z <= h - c * y); [|lra]. apply Rmult_le_reg_l with c; [lra|]. replace (c * (s * z)) with (s * (c * z)) by ring. rewrite EZ. nra.
      * assert (s * x <= s * z) by nra. nra.
Qed.

Lemma chord_1 c s h x y : c * c + s * s = 1 -> Rabs s <= c -> 2 * (y * y) <= h * h -> 0 <= h -> sq c s h x y ->
  exists x', Rabs (x' - x) <= 2 * Rabs y /\ sq c s h x' (- y).
Proof.
  intros U SC YH H0 A.
  assert (K : forall s y, c * c + s * s = 1 -> Rabs s <= c -> 0 <= y -> 2 * (y * y) <= h * h -> forall x, sq c s h x y -> exists x', Rabs (x' - x) <= 2 * y /\ sq c s h x' (- y)).
  { clear - H0. intros s y U SC Y0 YH x A. apply Rabs_le_inv in SC. destruct (Rle_lt_dec 0 s) as [S|S].
    - apply chord_0; auto; lra.
    - (* mirrored left to right *)
      assert (A' : sq c (- s) h (- x) y) by (apply sq_opp, sq_mirror in A; now rewrite Ropp_involutive in A).
      destruct (chord_0 c (- s) h (- x) y ltac:(lra) ltac:(lra) Y0 YH H0 A') as (x' & D & B). exists (- x'). split.
      + replace (- x' - x) with (- (x' - - x)) by ring. now rewrite Rabs_Ropp.
      + apply sq_mirror, sq_opp. now rewrite !Ropp_involutive. }
  destruct (Rle_lt_dec 0 y) as [Y|Y].
  - rewrite (Rabs_pos_eq y) by lra. now apply K.
  - rewrite (Rabs_left y) by lra. destruct (K (- s) (- y)) with (x := x) as (x' & D & B); try lra.
    + now rewrite Rabs_Ropp.
    + apply sq_mirror. now rewrite !Ropp_involutive.
    + exists x'. split; [exact D|]. apply sq_mirror in B. exact B.
Qed.

Lemma chord c s h x y : c * c + s * s = 1 -> 2 * (y * y) <= h * h -> 0 <= h -> sq c s h x y -> exists x', Rabs (x' - x) <= 2 * Rabs y /\ sq c s h x' (- y).
Proof.
  intros U YH H0 A. destruct (Rle_lt_dec (Rabs s) (Rabs c)) as [L|L].
  - destruct (Rle_lt_dec 0 c) as [C|C].
    + rewrite (Rabs_pos_eq c) in L by lra. now apply chord_1.
    + rewrite (Rabs_left c) in L by lra. destruct (chord_1 (- c) (- s) h x y) as (x' & D & B); auto; try lra.
      * now rewrite Rabs_Ropp.
      * now apply -> sq_half.
      * exists x'. split; [exact D|]. now apply sq_half.
  - destruct (Rle_lt_dec 0 s) as [C|C].
    + rewrite (Rabs_pos_eq s) in L by lra. destruct (chord_1 s (- c) h x y) as (x' & D & B); auto; try lra.
      * rewrite Rabs_Ropp. lra.
      * apply sq_quarter. rewrite Ropp_involutive. exact A.
      * exists x'. split; [exact D|]. apply sq_quarter in B. now rewrite Ropp_involutive in B.
    + rewrite (Rabs_left s) in L by lra. destruct (chord_1 (- s) c h x y) as (x' & D & B); auto; try lra.
      * now apply -> sq_quarter.
      * exists x'. split; [exact D|]. now apply sq_quarter.
Qed.

Lemma sq'_sq c s h x y : sq' c s h x y -> sq c s h x y.
Proof. intros [A B]. split; apply Rabs_le; lra. Qed.
Lemma sq'_dec c s h x y : {sq' c s h x y} + {~ sq' c s h x y}.
Proof.
  unfold sq'. destruct (Rle_lt_dec (- h) (c * x + s * y)); [|right; lra]. destruct (Rlt_le_dec (c * x + s * y) h); [|right; lra].
  destruct (Rle_lt_dec (- h) (c * y - s * x)); [|right; lra]. destruct (Rlt_le_dec (c * y - s * x) h); [left; lra|right; lra].
Qed.
Lemma sq'_turn c s h x y : sq' c s h x y <-> sq' c (- s) h y x.
Proof. unfold sq'. replace (c * y + - s * x) with (c * y - s * x) by ring. replace (c * x - - s * y) with (c * x + s * y) by ring. tauto. Qed.
(** between a point inside and one at the border *)
Lemma sq'_between c s h y a b t : sq' c s h a y -> sq c s h b y -> a < t < b \/ b < t < a -> sq' c s h t y.
Proof.
  intros [[A1 A2] [A3 A4]] [B1 B2] T. apply Rabs_le_inv in B1, B2.
  assert (K : exists k, 0 < k <= 1 /\ t = k * a + (1 - k) * b).
  { exists ((t - b) / (a - b)). destruct T as [T|T].
    - assert (N : a - b < 0) by lra. split; [|field; lra]. replace ((t - b) / (a - b)) with ((b - t) / (b - a)) by (field; lra).
      split; [apply Rdiv_lt_0_compat; lra|]. apply Rmult_le_reg_r with (b - a); [lra|]. replace ((b - t) / (b - a) * (b - a)) with (b - t) by (field; lra). lra.
    - split; [|field; lra]. split; [apply Rdiv_lt_0_compat; lra|]. apply Rmult_le_reg_r with (a - b); [lra|]. replace ((t - b) / (a - b) * (a - b)) with (t - b) by (field; lra). lra. }
  destruct K as (k & [K1 K2] & ->). unfold sq'.
  replace (c * (k * a + (1 - k) * b) + s * y) with (k * (c * a + s * y) + (1 - k) * (c * b + s * y)) by ring.
  replace (c * y - s * (k * a + (1 - k) * b)) with (k * (c * y - s * a) + (1 - k) * (c * y - s * b)) by ring.
  set (u := c * a + s * y) in *. set (u' := c * b + s * y) in *. set (v := c * y - s * a) in *. set (v' := c * y - s * b) in *. clearbody u u' v v'. clear - A1 A2 A3 A4 B1 B2 K1 K2.
  assert (0 <= (1 - k) * (h - u')) by nra. assert (0 <= (1 - k) * (u' + h)) by nra. assert (0 <= (1 - k) * (h - v')) by nra. assert (0 <= (1 - k) * (v' + h)) by nra.
  assert (0 < k * (h - u)) by nra. assert (0 <= k * (u + h)) by nra. assert (0 < k * (h - v)) by nra. assert (0 <= k * (v + h)) by nra. lra.
Qed.

(** the middle of the run of pixels of a module in a row that passes its centre at the distance [e] *)
Lemma run_centre c s h X e (white : Z -> Prop) w x l r : c * c + s * s = 1 -> 0 <= h -> 2 * (e * e) <= h * h ->
  let P z := sq' c s h (IZR z - X) e in
  (forall z, P z -> (0 <= z < w)%Z /\ ~ white z) ->
  (forall z, ~ P z -> P (z + 1)%Z \/ P (z - 1)%Z -> (0 <= z < w)%Z /\ white z) ->
  P x -> run_between white w x l r -> Rabs (IZR (l + r) / 2 - X) <= / 2 + Rabs e.
Proof.
  intros U H0 EH P HI HO HX ((LL & LN) & RR & RN).
  assert (PD : forall z, {P z} + {~ P z}) by (intros z; apply sq'_dec).
  assert (KL : forall k, (l < x - Z.of_nat k)%Z -> P (x - Z.of_nat k)%Z).
  { induction k as [|k IH]; intros Hk; [now replace (x - Z.of_nat 0)%Z with x by lia|].
    destruct (PD (x - Z.of_nat (S k))%Z) as [D|D]; [exact D|]. exfalso.
    destruct (HO _ D) as [_ W]; [left; replace (x - Z.of_nat (S k) + 1)%Z with (x - Z.of_nat k)%Z by lia; apply IH; lia|]. apply (LN (x - Z.of_nat (S k))%Z); [lia|exact W]. }
  assert (KL' : forall z, (l < z <= x)%Z -> P z) by (intros z Hz; replace z with (x - Z.of_nat (Z.to_nat (x - z)))%Z by lia; apply KL; lia).
  assert (KR : forall k, (x + Z.of_nat k < r)%Z -> P (x + Z.of_nat k)%Z).
  { induction k as [|k IH]; intros Hk; [now replace (x + Z.of_nat 0)%Z with x by lia|].
    destruct (PD (x + Z.of_nat (S k))%Z) as [D|D]; [exact D|]. exfalso.
    destruct (HO _ D) as [_ W]; [right; replace (x + Z.of_nat (S k) - 1)%Z with (x + Z.of_nat k)%Z by lia; apply IH; lia|]. apply (RN (x + Z.of_nat (S k))%Z); [lia|exact W]. }
  assert (KR' : forall z, (x <= z < r)%Z -> P z) by (intros z Hz; replace z with (x + Z.of_nat (Z.to_nat (z - x)))%Z by lia; apply KR; lia).
  destruct (HI x HX) as [X0 XW].
  assert (L0 : ~ P l /\ (l < x)%Z).
  { destruct LL as [(L1 & L2)|(-> & L2)].
    - split; [|lia]. intros D. exact (proj2 (HI l D) L2).
    - exfalso. assert (P0 : P 0%Z).
      { destruct (Z.eq_dec x 0) as [->|NX]; [exact HX|]. destruct (PD 0%Z) as [D|D]; [exact D|]. exfalso. destruct (HO _ D) as [_ W]; [left; apply KL'; lia|]. destruct L2; [lia|auto]. }
      destruct (PD (-1)%Z) as [D|D]; [destruct (HI _ D); lia|]. destruct (HO _ D) as [W _]; [now left|]. lia. }
  assert (R0 : ~ P r /\ (x < r)%Z).
  { destruct RR as [(R1 & R2)| ->].
    - split; [intros D; exact (proj2 (HI r D) R2)|]. destruct (Z.eq_dec x r) as [E|N]; [|lia]. subst r. contradiction.
    - exfalso. assert (P0 : P (w - 1)%Z) by (apply KR'; lia). destruct (PD w) as [D|D]; [destruct (HI _ D); lia|]. destruct (HO _ D) as [W _]; [now right|]. lia. }
  destruct L0 as [L0 LX]. destruct R0 as [R0 RX].
  assert (BL : forall b, sq c s h (b - X) e -> IZR l <= b).
  { intros b B. destruct (Rle_lt_dec (IZR l) b) as [G|G]; [exact G|]. exfalso. apply L0. apply (sq'_between c s h e (IZR x - X) (b - X)); [exact HX|exact B|right]. apply IZR_lt in LX. lra. }
  assert (BR : forall b, sq c s h (b - X) e -> b <= IZR r).
  { intros b B. destruct (Rle_lt_dec b (IZR r)) as [G|G]; [exact G|]. exfalso. apply R0. apply (sq'_between c s h e (IZR x - X) (b - X)); [exact HX|exact B|left]. apply IZR_lt in RX. lra. }
  assert (P1 : P (l + 1)%Z) by (apply KL'; lia). assert (P2 : P (r - 1)%Z) by (apply KR'; lia).
  destruct (chord c s h _ _ U EH H0 (sq'_sq _ _ _ _ _ P1)) as (a & A1 & A2). destruct (chord c s h _ _ U EH H0 (sq'_sq _ _ _ _ _ P2)) as (b & B1 & B2).
  apply sq_opp in A2, B2. rewrite Ropp_involutive in A2, B2.
  assert (A3 := BR (X - a) ltac:(replace (X - a - X) with (- a) by ring; exact A2)). assert (B3 := BL (X - b) ltac:(replace (X - b - X) with (- b) by ring; exact B2)).
  rewrite plus_IZR in A1. rewrite minus_IZR in B1. apply Rabs_le_inv in A1, B1. rewrite plus_IZR. apply Rabs_le. lra.
Qed.

(** *** the pixels of a symbol *)
Section Angle.
Context (g : gray) (n : Z) (dark : Z -> Z -> bool) (m c s ax ay : R) (HD : drawn_at_angle (pixel g) m c s ax ay n dark).
Notation mx := (middle_x m c s ax).
Notation my := (middle_y m c s ay).

Lemma unit_cs : c * c + s * s = 1. Proof. exact (proj1 (proj2 HD)). Qed.
Lemma m_pos : 0 < m. Proof. exact (proj1 HD). Qed.

Lemma in_module_sq row column x y : in_module m c s ax ay row column x y <-> sq' c s (m / 2) (x - mx (IZR row) (IZR column)) (y - my (IZR row) (IZR column)).
Proof.
  pose proof unit_cs as U. unfold in_module, sq', middle_x, middle_y.
  replace (c * (x - (ax + m * (c * IZR column - s * IZR row))) + s * (y - (ay + m * (s * IZR column + c * IZR row))))
    with (c * (x - ax) + s * (y - ay) - m * IZR column * (c * c + s * s)) by ring.
  replace (c * (y - (ay + m * (s * IZR column + c * IZR row))) - s * (x - (ax + m * (c * IZR column - s * IZR row))))
    with (c * (y - ay) - s * (x - ax) - m * IZR row * (c * c + s * s)) by ring.
  rewrite U. split; intros H; lra.
Qed.

Lemma close_in_sq h x y a b : Rabs x <= a -> Rabs y <= b -> 0 <= h -> a * a + b * b < h * h -> sq' c s h x y.
Proof.
  intros A B H0 H. pose proof unit_cs as U. assert (X : x * x <= a * a) by (apply Rabs_le_inv in A; nra). assert (Y : y * y <= b * b) by (apply Rabs_le_inv in B; nra).
  assert (K : forall p q, p * p + q * q = 1 -> - h < p * x + q * y < h).
  { intros p q P. assert ((p * x + q * y) * (p * x + q * y) + (p * y - q * x) * (p * y - q * x) = (p * p + q * q) * (x * x + y * y)) by ring.
    pose proof (Rle_0_sqr (p * y - q * x)) as SQ. unfold Rsqr in SQ. assert (LT : Rsqr (p * x + q * y) < Rsqr h) by (unfold Rsqr; rewrite P in *; lra).
    apply Rsqr_lt_abs_0 in LT. rewrite (Rabs_pos_eq h) in LT by exact H0. apply Rabs_def2 in LT. lra. }
  pose proof (K c s U) as K1. pose proof (K (- s) c ltac:(lra)) as K2. unfold sq'. lra.
Qed.

Lemma close_in row column x y a b : Rabs (x - mx (IZR row) (IZR column)) <= a -> Rabs (y - my (IZR row) (IZR column)) <= b -> a * a + b * b < m / 2 * (m / 2) ->
  in_module m c s ax ay row column x y.
Proof. intros A B H. apply in_module_sq. pose proof m_pos. apply (close_in_sq _ _ _ a b); auto. lra. Qed.

Lemma pixel_in row column i j : (0 <= row < n)%Z -> (0 <= column < n)%Z -> in_module m c s ax ay row column (IZR i) (IZR j) ->
  (0 <= i < gw g)%Z /\ (0 <= j < gh g)%Z /\ pixel g i j = Some (colour (dark row column)).
Proof.
  intros Hr Hc H. destruct HD as (_ & _ & K). destruct (K row column i j Hr Hc H) as (I & J & P). split; [|split; [|exact P]];
    (unfold pixel, get_pixel in P; destruct (Z.ltb_spec i (gw g)), (Z.ltb_spec j (gh g)); cbn [andb] in P; try discriminate; lia).
Qed.

(** points up to (a, b) from the middle of a module are read as the module *)
Lemma near_pixels row column x y a b : (0 <= row < n)%Z -> (0 <= column < n)%Z ->
  Rabs (x - mx (IZR row) (IZR column)) <= a -> Rabs (y - my (IZR row) (IZR column)) <= b -> 0 <= a -> 0 <= b ->
  (a + 33 / 64) * (a + 33 / 64) + (b + 33 / 64) * (b + 33 / 64) < m / 2 * (m / 2) ->
  (- / 2 <= x < IZR (gw g) + / 2) /\ (- / 2 <= y < IZR (gh g) + / 2) /\ clearly (pixel g) x y (colour (dark row column)).
Proof.
  intros Hr Hc A B A0 B0 H. apply Rabs_le_inv in A, B.
  assert (NR : forall z, exists k, IZR k - / 2 <= z < IZR k + / 2).
  { intros z. exists (Zfloor (z + / 2)). pose proof (Zfloor_lb (z + / 2)). pose proof (Zfloor_ub (z + / 2)). lra. }
  destruct (NR x) as (i & HI). destruct (NR y) as (j & HJ).
  assert (K : forall i j, Rabs (IZR i - x) <= 33 / 64 -> Rabs (IZR j - y) <= 33 / 64 -> in_module m c s ax ay row column (IZR i) (IZR j)).
  { intros i' j' HI' HJ'. apply Rabs_le_inv in HI', HJ'. apply (close_in row column _ _ (a + 33 / 64) (b + 33 / 64)); [apply Rabs_le; lra|apply Rabs_le; lra|exact H]. }
  destruct (pixel_in row column i j Hr Hc) as (I & J & _); [apply K; apply Rabs_le; lra|].
  assert (0 <= IZR i <= IZR (gw g) - 1) by (split; [apply IZR_le; lia|]; rewrite <- minus_IZR; apply IZR_le; lia).
  assert (0 <= IZR j <= IZR (gh g) - 1) by (split; [apply IZR_le; lia|]; rewrite <- minus_IZR; apply IZR_le; lia).
  split; [lra|]. split; [lra|]. intros i' j' I' J' [P1 P2]. apply IZR_le in I', J'.
  assert (X : forall k z, 0 <= IZR k -> - / 2 <= z -> Rabs (IZR k - Rmax 0 z) <= / 2 + / 64 -> Rabs (IZR k - z) <= 33 / 64).
  { intros k z K0 Z0 KZ. unfold Rmax in KZ. destruct (Rle_dec 0 z) as [L|L]; [replace (33 / 64) with (/ 2 + / 64) by lra; exact KZ|].
    apply Rabs_le_inv in KZ. assert (k < 1)%Z by (apply lt_IZR; lra). assert (0 <= k)%Z by (apply le_IZR; lra). replace k with 0%Z by lia. apply Rabs_le. lra. }
  apply (pixel_in row column i' j' Hr Hc). apply K; apply X; auto; lra.
Qed.

(** ... and lie in the image *)
Lemma near_positive row column x y a b : (0 <= row < n)%Z -> (0 <= column < n)%Z ->
  Rabs (x - mx (IZR row) (IZR column)) <= a -> Rabs (y - my (IZR row) (IZR column)) <= b ->
  (a + 65 / 64) * (a + 65 / 64) + (b + 65 / 64) * (b + 65 / 64) < m / 2 * (m / 2) ->
  / 64 <= x <= IZR (gw g) /\ / 64 <= y <= IZR (gh g).
Proof.
  intros Hr Hc A B H. apply Rabs_le_inv in A, B.
  assert (LO : forall z, exists k, IZR k < z /\ z - 65 / 64 <= IZR k /\ (z < / 64 -> (k < 0)%Z)).
  { intros z. exists (Zfloor (z - / 64)). pose proof (Zfloor_lb (z - / 64)). pose proof (Zfloor_ub (z - / 64)). split; [lra|]. split; [lra|].
    intros N. apply lt_IZR. lra. }
  assert (HI : forall z, exists k, z <= IZR k + 1 /\ IZR k <= z) by (intros z; exists (Zfloor z); pose proof (Zfloor_lb z); pose proof (Zfloor_ub z); lra).
  destruct (LO x) as (i & I1 & I2 & I3). destruct (LO y) as (j & J1 & J2 & J3). destruct (HI x) as (i' & I4 & I5). destruct (HI y) as (j' & J4 & J5).
  destruct (pixel_in row column i j Hr Hc) as (P1 & P2 & _); [apply (close_in row column _ _ (a + 65 / 64) (b + 65 / 64)); [apply Rabs_le; lra|apply Rabs_le; lra|exact H]|].
  destruct (pixel_in row column i' j' Hr Hc) as (P3 & P4 & _); [apply (close_in row column _ _ (a + 65 / 64) (b + 65 / 64)); [apply Rabs_le; lra|apply Rabs_le; lra|exact H]|].
  assert (IZR i' <= IZR (gw g) - 1) by (rewrite <- minus_IZR; apply IZR_le; lia). assert (IZR j' <= IZR (gh g) - 1) by (rewrite <- minus_IZR; apply IZR_le; lia).
  split; (split; [|lra]).
  - destruct (Rle_lt_dec (/ 64) x) as [L|L]; [exact L|]. specialize (I3 L). lia.
  - destruct (Rle_lt_dec (/ 64) y) as [L|L]; [exact L|]. specialize (J3 L). lia.
Qed.

(** *** the centre of the alignment pattern *)
Context (HN : (25 <= n <= 177)%Z) (HA : bottom_right_alignment n dark) (M1 : 1 <= m).
Notation cx := (mx (IZR (n - 7)) (IZR (n - 7))).
Notation cy := (my (IZR (n - 7)) (IZR (n - 7))).

Lemma centre_dark i j : sq' c s (m / 2) (IZR i - cx) (IZR j - cy) -> (0 <= i < gw g)%Z /\ (0 <= j < gh g)%Z /\ pixel g i j = Some 0%N.
Proof.
  intros H. apply in_module_sq in H. pose proof (HA 0%Z 0%Z ltac:(lia) ltac:(lia)) as E. rewrite Z.add_0_r in E. change (dark (n - 7)%Z (n - 7)%Z = true) in E.
  destruct (pixel_in (n - 7) (n - 7) i j ltac:(lia) ltac:(lia) H) as (A & B & P). rewrite E in P. auto.
Qed.

Lemma ring_white i j a b : sq' c s (m / 2) a b -> Rabs (IZR i - cx - a) + Rabs (IZR j - cy - b) <= 1 -> ~ sq' c s (m / 2) (IZR i - cx) (IZR j - cy) ->
  (0 <= i < gw g)%Z /\ (0 <= j < gh g)%Z /\ pixel g i j = Some 255%N.
Proof.
  intros [[A1 A2] [A3 A4]] D N. pose proof unit_cs as U.
  set (x := IZR i - cx) in *. set (y := IZR j - cy) in *.
  assert (K : forall p q, p * p + q * q = 1 -> Rabs (p * x + q * y - (p * a + q * b)) <= 1).
  { intros p q P. replace (p * x + q * y - (p * a + q * b)) with (p * (x - a) + q * (y - b)) by ring. eapply Rle_trans; [apply Rabs_triang|]. rewrite !Rabs_mult.
    assert (Rabs p <= 1) by (apply Rabs_le; nra). assert (Rabs q <= 1) by (apply Rabs_le; nra).
    pose proof (Rabs_pos (x - a)). pose proof (Rabs_pos (y - b)). nra. }
  pose proof (K c s U) as K1. pose proof (K (- s) c ltac:(lra)) as K2. apply Rabs_le_inv in K1, K2.
  set (u := c * x + s * y) in *. set (w := c * y - s * x) in *.
  assert (F : forall z, - (m / 2) - 1 <= z < m / 2 + 1 -> exists k, (-1 <= k <= 1)%Z /\ m * (IZR k - / 2) <= z < m * (IZR k + / 2) /\ (k = 0%Z -> - (m / 2) <= z < m / 2)).
  { intros z Hz. destruct (Rlt_le_dec z (- (m / 2))) as [L|L]; [exists (-1)%Z|destruct (Rle_lt_dec (m / 2) z) as [L'|L']; [exists 1%Z|exists 0%Z]]; (split; [lia|]); (split; [|intros; (lia || lra)]); lra. }
  destruct (F u) as (k & HK & K3 & K5); [lra|]. destruct (F w) as (l & HL & K4 & K6); [unfold w; lra|].
  assert (NZ : ~ (k = 0 /\ l = 0)%Z) by (intros [-> ->]; apply N; split; [now apply K5|now apply K6]).
  assert (IM : in_module m c s ax ay (n - 7 + l) (n - 7 + k) (IZR i) (IZR j)).
  { apply in_module_sq. unfold sq'. assert (EX : IZR i - mx (IZR (n - 7 + l)) (IZR (n - 7 + k)) = x - m * (c * IZR k - s * IZR l)) by (unfold x, middle_x; rewrite !plus_IZR; ring).
    assert (EY : IZR j - my (IZR (n - 7 + l)) (IZR (n - 7 + k)) = y - m * (s * IZR k + c * IZR l)) by (unfold y, middle_y; rewrite !plus_IZR; ring). rewrite EX, EY.
    replace (c * (x - m * (c * IZR k - s * IZR l)) + s * (y - m * (s * IZR k + c * IZR l))) with (u - m * IZR k * (c * c + s * s)) by (unfold u; ring).
    replace (c * (y - m * (s * IZR k + c * IZR l)) - s * (x - m * (c * IZR k - s * IZR l))) with (w - m * IZR l * (c * c + s * s)) by (unfold w; ring). rewrite U. lra. }
  destruct (pixel_in (n - 7 + l) (n - 7 + k) i j ltac:(lia) ltac:(lia) IM) as (P1 & P2 & P3). rewrite HA in P3 by lia.
  destruct (Z.eqb_spec (Z.max (Z.abs l) (Z.abs k)) 1) as [_|NE]; [|lia]. auto.
Qed.

Lemma centre_near x y l r x' t u o : 0 <= o -> 5 + 4 * o <= m -> Rabs (IZR x - cx) <= 33 / 64 + o -> Rabs (IZR y - cy) <= 33 / 64 + o -> centred_at g x y l r x' t u ->
  Rabs (IZR (l + r) / 2 - cx) <= 65 / 64 + o /\ Rabs (IZR (t + u) / 2 - cy) <= 129 / 64 + o.
Proof.
  intros O0 OM NX NY (R1 & EX & R2). pose proof unit_cs as U.
  assert (S1 : (33 / 64 + o) * (33 / 64 + o) + (33 / 64 + o) * (33 / 64 + o) < m / 2 * (m / 2)) by nra.
  assert (C1 : Rabs (IZR (l + r) / 2 - cx) <= 65 / 64 + o).
  { assert (K : Rabs (IZR (l + r) / 2 - cx) <= / 2 + Rabs (IZR y - cy)); [|lra].
    apply (run_centre c s (m / 2) cx (IZR y - cy) (white_in_row g y) (gw g) x l r U); [lra| | | | |exact R1].
    - apply Rabs_le_inv in NY. nra.
    - intros z Hz. destruct (centre_dark z y Hz) as (A & B & P). split; [exact A|]. unfold white_in_row. rewrite P. discriminate.
    - intros z Hz Hz'. assert (E : exists a, sq' c s (m / 2) a (IZR y - cy) /\ Rabs (IZR z - cx - a) <= 1).
      { destruct Hz' as [Hz'|Hz']; (eexists; split; [exact Hz'|]); rewrite ?plus_IZR, ?minus_IZR; apply Rabs_le; lra. }
      destruct E as (a & E1 & E2). destruct (ring_white z y a (IZR y - cy) E1) as (A & B & P); [replace (IZR y - cy - (IZR y - cy)) with 0 by ring; rewrite Rabs_R0; lra|exact Hz|]. split; [exact A|exact P].
    - apply (close_in_sq _ _ _ _ _ NX NY); [lra|exact S1]. }
  split; [exact C1|].
  assert (X' : Rabs (IZR x' - cx) <= 97 / 64 + o).
  { assert (E : Rabs (IZR x' - IZR (l + r) / 2) <= / 2) by (destruct EX as [E|E]; apply IZR_eq in E; rewrite mult_IZR, ?plus_IZR in E; rewrite plus_IZR; apply Rabs_le; lra).
    apply Rabs_le_inv in C1, E. apply Rabs_le. lra. }
  assert (S2 : (97 / 64 + o) * (97 / 64 + o) + (33 / 64 + o) * (33 / 64 + o) < m / 2 * (m / 2)) by nra.
  assert (K : Rabs (IZR (t + u) / 2 - cy) <= / 2 + Rabs (IZR x' - cx)); [|lra].
  apply (run_centre c (- s) (m / 2) cy (IZR x' - cx) (white_in_column g x') (gh g) y t u); [nra|lra| | | | |exact R2].
  - apply Rabs_le_inv in X'. set (z := IZR x' - cx) in *. clearbody z. clear - X' O0 OM. assert (z * z <= (97 / 64 + o) * (97 / 64 + o)) by nra. nra.
  - intros z Hz. apply sq'_turn in Hz. rewrite ?Ropp_involutive in Hz. destruct (centre_dark x' z Hz) as (A & B & P). split; [exact B|]. unfold white_in_column. rewrite P. discriminate.
  - intros z Hz Hz'. assert (E : exists b, sq' c s (m / 2) (IZR x' - cx) b /\ Rabs (IZR z - cy - b) <= 1).
    { destruct Hz' as [Hz'|Hz']; apply sq'_turn in Hz'; rewrite ?Ropp_involutive in Hz'; (eexists; split; [exact Hz'|]); rewrite ?plus_IZR, ?minus_IZR; apply Rabs_le; lra. }
    destruct E as (b & E1 & E2). destruct (ring_white x' z (IZR x' - cx) b E1) as (A & B & P); [replace (IZR x' - cx - (IZR x' - cx)) with 0 by ring; rewrite Rabs_R0; lra| |split; [exact B|exact P]].
    intros F. apply Hz. now apply -> sq'_turn.
  - apply -> sq'_turn. apply (close_in_sq _ _ _ _ _ X' NY); [lra|exact S2].
Qed.
End Angle.
