(** Upright finder patterns of any size: lines through them. *)
From Coq Require Import NArith ZArith Reals List Lia Lra Bool Arith Psatz.
From Verif.Model Require Import Prepare Detect.
From Flocq Require Import Core.
From Verif.Spec Require Import Window Finder Drawing Angle Slant.
From Verif.Proofs Require Import BaseP PrepareP FloatP ApproxP DetectP ExtractP AlignP RefineP RefineF CrossP SlantP SlantF.
Import ListNotations.
Local Open Scope Z_scope.

(** *** a line that ends inside of the last run of the pattern *)
Section Cut.
Context (g : gray) (ms : f64) (h : Z -> Z * Z) (s e : Z).
Context (SE : s < e) (SMALL : e - s <= 2 ^ 27).
Context (READ : forall t, s <= t < e -> exists v, get_pixel g (fst (h t)) (snd (h t)) = Ok v).
Context (a4 a3 a2 a1 b1 b2 : Z).

Lemma crossing_cut : shows_at g h (Z.max s a4) a3 255 -> shows_at g h a3 a2 0 -> shows_at g h a2 a1 255 -> shows_at g h a1 b1 0 ->
  shows_at g h b1 b2 255 -> shows_at g h b2 e 0 -> about_right s (e + 1) a4 a3 a2 a1 b1 b2 e -> unconfirmed ms false (a1 - s) ->
  let est := est_of (e - a3) in flt (diff ms est) (lit 2 10) = true ->
  refine g ms (map h (zrange s e)) false = Ok (Some (FP (Pt (of_Z (fst (h (e - 1)))) (of_Z (snd (h (e - 1))))) (fdiv (fadd ms est) (of_Z 2)) est)).
Proof.
  intros S4 S3 S2 S1 T1 T2 (L3 & L2 & L1 & LB & LE & R0 & R1 & R2 & R3 & R4 & R5 & F1 & F2 & FR & NT) U est HD.
  pose proof u27 as K.
  assert (UN : forall n, n <= a1 - s -> unconfirmed ms false n) by (intros n Hn; now apply unconfirmed_le with (a1 - s)).
  assert (W0 : refine g ms (map h (zrange s e)) false = walk g ms false h e s 127%N pattern_new).
  { unfold refine, RefineP.walk. rewrite (refine_loop_step g ms false h e s _ _ _ _ SE). now rewrite (refine_loop_step g ms false h e s _ _ _ _ SE). }
  assert (NE : forall r, ~ early false r) by (intros r [N _]; discriminate).
  rewrite W0. clear W0.
  destruct (prefix g ms false h s e SMALL READ (Z.to_nat (Z.max s a4 - s)) s 127%N pattern_new) as [E|(l1 & p & W & HP)]; [lia|lia|apply pat_new; lia|apply UN; lia|now apply NE in E|].
  rewrite Z2Nat.id in W, HP by lia. replace (s + (Z.max s a4 - s)) with (Z.max s a4) in W, HP by lia. rewrite W. clear W.
  destruct (prefix_run g ms false h s e SMALL READ (Z.max s a4) a3 255 l1 p) as [E|(p' & W & HP' & P6)]; [lia|lia|exact S4|exact HP|apply UN; lia|now apply NE in E|].
  rewrite W. clear W HP p l1. destruct p' as [q0 q1 q2 q3 q4 q5 q6]. cbn [p6] in P6.
  assert (B := HP'). unfold pat_ok, pat_sum in B. cbn [p0 p1 p2 p3 p4 p5 p6] in B.
  destruct (next_run g ms false h s e SMALL a3 a2 0 255 q0 q1 q2 q3 q4 q5 q6) as [E|[W HP1]]; [lia|lia|exact S3|discriminate|exact HP'|left; apply UN; lia|lia|now apply NE in E|].
  rewrite W. clear W HP'.
  destruct (next_run g ms false h s e SMALL a2 a1 255 0 q1 q2 q3 q4 q5 q6 (a2 - a3)) as [E|[W HP2]]; [lia|lia|exact S2|discriminate|exact HP1|left; apply UN; lia|lia|now apply NE in E|].
  rewrite W. clear W HP1.
  destruct (next_run g ms false h s e SMALL a1 b1 0 255 q2 q3 q4 q5 q6 (a2 - a3) (a1 - a2)) as [E|[W HP3]]; [lia|lia|exact S1|discriminate|exact HP2|left; apply UN; lia|lia|now apply NE in E|].
  rewrite W. clear W HP2.
  destruct (next_run g ms false h s e SMALL b1 b2 255 0 q3 q4 q5 q6 (a2 - a3) (a1 - a2) (b1 - a1)) as [E|[W HP4]]; [lia|lia|exact T1|discriminate|exact HP3|right; apply not_finder_c; lia|lia|now apply NE in E|].
  rewrite W. clear W HP3.
  destruct (next_run g ms false h s e SMALL b2 e 0 255 q4 q5 q6 (a2 - a3) (a1 - a2) (b1 - a1) (b2 - b1)) as [E|[W HP5]]; [lia|lia|exact T2|discriminate|exact HP4|right; apply not_finder_c; lia|lia|now apply NE in E|].
  rewrite W. clear W HP4.
  unfold walk. rewrite zrange_nil by lia. cbn [map refine_loop].
  unfold confirm. destruct (looks_like_finder_exact _ _ HP5 ltac:(lia)) as (b & -> & _ & BT). cbn [bind].
  rewrite BT; [|exact FR|unfold pat_total; cbn [p2 p3 p4 p5 p6]; lia].
  rewrite (est_ok _ _ HP5) by lia. cbn [bind]. unfold pat_total. cbn [p0 p1 p2 p3 p4 p5 p6].
  replace (a2 - a3 + (a1 - a2) + (b1 - a1) + (b2 - b1) + (e - b2)) with (e - a3) by lia. fold est. now rewrite HD.
Qed.
End Cut.

Local Open Scope R_scope.
Ltac to_R := first [apply le_IZR|apply lt_IZR]; repeat (rewrite plus_IZR || rewrite minus_IZR || rewrite mult_IZR).

Lemma cut_right g h tau M a4 a3 a2 a1 b1 b2 b3 t0 e : crossed g h tau M 0 a4 a3 a2 a1 b1 b2 b3 -> 5 <= M ->
  (t0 < a3)%Z -> tau + 7 / 2 * M - 9 / 4 - / 50 <= IZR e -> (e <= b3)%Z -> tau - 7 * M - 3 <= IZR t0 -> about_right t0 (e + 1) a4 a3 a2 a1 b1 b2 e.
Proof.
  intros [A4 A3 A2 A1 B1 B2 B3 S4 S3 S2 S1 T1 T2 T3 _] HM HS HE EB HT. apply IZR_le in EB.
  unfold about_right. split; [exact HS|].
  assert (L1 : (a4 < a3)%Z) by (apply lt_IZR; lra). assert (L2 : (a3 < a2)%Z) by (apply lt_IZR; lra). assert (L3 : (a2 < a1)%Z) by (apply lt_IZR; lra).
  assert (L4 : (a1 < b1)%Z) by (apply lt_IZR; lra). assert (L5 : (b1 < b2)%Z) by (apply lt_IZR; lra). assert (L6 : (b2 < e)%Z) by (apply lt_IZR; lra).
  split; [lia|]. split; [lia|]. split; [lia|]. split; [lia|].
  split. { destruct (Z.max_spec t0 a4) as [[_ ->]|[_ ->]]; [to_R; lra|lia]. }
  split; [to_R; lra|]. split; [to_R; lra|]. split; [to_R; lra|]. split; [to_R; lra|]. split; [to_R; lra|]. split; [to_R; lra|]. split; [to_R; lra|].
  split.
  + unfold finder_runs, stands_for. cbv zeta. replace (a2 - a3 + (a1 - a2) + (b1 - a1) + (b2 - b1) + (e - b2))%Z with (e - a3)%Z by lia.
    assert (AB : forall k r, (3 * (k * (e - a3) - 7 * r) <= 2 * (e - a3))%Z -> (3 * (7 * r - k * (e - a3)) <= 2 * (e - a3))%Z ->
      (3 * Z.abs (k * (e - a3) - 7 * r) <= 2 * (e - a3))%Z) by (intros; lia).
    assert (7 <= e - a3)%Z by (to_R; lra).
    repeat split; try assumption; apply AB; to_R; lra.
  + apply Z.lt_neq. to_R. lra.
Qed.

(** *** the lines through an upright pattern *)
Section Upright.
Context (g : gray) (m ax ay : R) (WF : wf_gray g) (HD : finder_at_angle (pixel g) m 1 0 ax ay).
Context (WX : (gw g <= 2 ^ 26)%Z) (WY : (gh g <= 2 ^ 26)%Z) (SIZE : 7 <= m).
Notation sees := (at_t m 1 0 ax ay).

Lemma sees_iff h r t : sees h r t <-> - (r * m) <= IZR (fst (h t)) - ax < r * m /\ - (r * m) <= IZR (snd (h t)) - ay < r * m.
Proof. unfold at_t, inside, fU, fW. split; intros H; lra. Qed.

(** the borders on a line that meets the square of half side r in r M - z pixels to both sides of tau *)
Record pierced (h : Z -> Z * Z) (tau z : R) (a4 a3 a2 a1 b1 b2 b3 : Z) : Prop := Pierced {
  pi_a4 : tau - 9 / 2 * m + z <= IZR a4 <= tau - 9 / 2 * m + z + 1;
  pi_a3 : tau - 7 / 2 * m + z <= IZR a3 <= tau - 7 / 2 * m + z + 1;
  pi_a2 : tau - 5 / 2 * m + z <= IZR a2 <= tau - 5 / 2 * m + z + 1;
  pi_a1 : tau - 3 / 2 * m + z <= IZR a1 <= tau - 3 / 2 * m + z + 1;
  pi_b1 : tau + 3 / 2 * m - z <= IZR b1 <= tau + 3 / 2 * m - z + 1;
  pi_b2 : tau + 5 / 2 * m - z <= IZR b2 <= tau + 5 / 2 * m - z + 1;
  pi_b3 : tau + 7 / 2 * m - z <= IZR b3 <= tau + 7 / 2 * m - z + 1;
  pi_s4 : shows_at g h a4 a3 255; pi_s3 : shows_at g h a3 a2 0; pi_s2 : shows_at g h a2 a1 255; pi_s1 : shows_at g h a1 b1 0;
  pi_t1 : shows_at g h b1 b2 255; pi_t2 : shows_at g h b2 b3 0; pi_t3 : shows_at g h b3 (b3 + 1) 255;
  pi_in : forall t, (a3 - 1 <= t <= b3)%Z -> (0 <= fst (h t) < gw g)%Z /\ (0 <= snd (h t) < gh g)%Z }.

Lemma pierces h tau z : 0 <= z <= 5 / 2 ->
  (forall r, 3 / 2 <= r -> exists a b, (forall t, sees h r t <-> (a <= t < b)%Z) /\ tau - r * m + z <= IZR a <= tau - r * m + z + 1 /\ tau + r * m - z <= IZR b <= tau + r * m - z + 1) ->
  exists a4 a3 a2 a1 b1 b2 b3, pierced h tau z a4 a3 a2 a1 b1 b2 b3.
Proof.
  intros Z0 CUT.
  destruct (CUT (9 / 2)) as (a4 & b4 & I4 & A4 & B4); [lra|]. destruct (CUT (7 / 2)) as (a3 & b3 & I3 & A3 & B3); [lra|].
  destruct (CUT (5 / 2)) as (a2 & b2 & I2 & A2 & B2); [lra|]. destruct (CUT (3 / 2)) as (a1 & b1 & I1 & A1 & B1); [lra|]. clear CUT.
  assert (L1 : (a4 < a3)%Z) by (apply lt_IZR; lra). assert (L2 : (a3 < a2)%Z) by (apply lt_IZR; lra). assert (L3 : (a2 < a1)%Z) by (apply lt_IZR; lra).
  assert (L4 : (a1 < b1)%Z) by (apply lt_IZR; lra). assert (L5 : (b1 < b2)%Z) by (apply lt_IZR; lra). assert (L6 : (b2 < b3)%Z) by (apply lt_IZR; lra).
  assert (L7 : (b3 < b4)%Z) by (apply lt_IZR; lra).
  assert (COL : forall t, (a4 <= t < b4)%Z -> _) by (intros t Ht; exact (ring_colour g m 1 0 ax ay WF HD _ _ (proj2 (I4 t) Ht))). cbv beta in COL.
  assert (C1 : forall t, (a1 <= t < b1)%Z -> get_pixel g (fst (h t)) (snd (h t)) = Ok 0%N).
  { intros t Ht. destruct (COL t ltac:(lia)) as (K & _). apply K. now apply (I1 t). }
  assert (C2 : forall t, (a2 <= t < b2)%Z -> ~ (a1 <= t < b1)%Z -> get_pixel g (fst (h t)) (snd (h t)) = Ok 255%N).
  { intros t Ht N. destruct (COL t ltac:(lia)) as (_ & K & _). apply K; [now apply (I2 t)|]. now rewrite <- I1 in N. }
  assert (C3 : forall t, (a3 <= t < b3)%Z -> ~ (a2 <= t < b2)%Z -> get_pixel g (fst (h t)) (snd (h t)) = Ok 0%N).
  { intros t Ht N. destruct (COL t ltac:(lia)) as (_ & _ & K & _). apply K; [now apply (I3 t)|]. now rewrite <- I2 in N. }
  assert (C4 : forall t, (a4 <= t < b4)%Z -> ~ (a3 <= t < b3)%Z -> get_pixel g (fst (h t)) (snd (h t)) = Ok 255%N).
  { intros t Ht N. destruct (COL t ltac:(lia)) as (_ & _ & _ & K). apply K. now rewrite <- I3 in N. }
  exists a4, a3, a2, a1, b1, b2, b3. constructor; try assumption; try (intros t Ht; first [apply C1; lia|apply C2; lia|apply C3; lia|apply C4; lia]).
  intros t Ht. destruct (ring_pixel g m 1 0 ax ay WF HD _ _ (proj2 (I4 t) ltac:(lia))) as (row & column & _ & _ & X & Y & _). auto.
Qed.

Lemma pierced_crossed h tau a4 a3 a2 a1 b1 b2 b3 : pierced h tau 0 a4 a3 a2 a1 b1 b2 b3 -> crossed g h tau m 0 a4 a3 a2 a1 b1 b2 b3.
Proof. intros [A4 A3 A2 A1 B1 B2 B3 S4 S3 S2 S1 T1 T2 T3 IN]. constructor; try assumption; lra. Qed.

(** the integers in a half-open interval *)
Lemma integers lo hi : exists a b : Z, (forall t : Z, lo <= IZR t < hi <-> (a <= t < b)%Z) /\ lo <= IZR a <= lo + 1 /\ hi <= IZR b <= hi + 1.
Proof.
  exists (Zceil lo), (Zceil hi). pose proof (Zceil_ub lo). pose proof (Zceil_lb lo). pose proof (Zceil_ub hi). pose proof (Zceil_lb hi). split; [|lra].
  intros t. split.
  - intros [T1 T2]. split; [now apply Zceil_glb|]. apply lt_IZR. lra.
  - intros [T1 T2]. apply IZR_le in T1. split; [lra|]. apply Rnot_le_lt. intros N. apply Zceil_glb in N. lia.
Qed.

Lemma row_pierced y : - (3 / 2 * m) <= IZR y - ay < 3 / 2 * m -> exists a4 a3 a2 a1 b1 b2 b3, pierced (fun x => (x, y)) ax 0 a4 a3 a2 a1 b1 b2 b3.
Proof.
  intros HY. apply pierces; [lra|]. intros r Hr. destruct (integers (ax - r * m) (ax + r * m)) as (a & b & I & A & B). exists a, b. split; [|lra].
  intros t. rewrite <- I, sees_iff. cbn [fst snd]. assert (3 / 2 * m <= r * m) by (apply Rmult_le_compat_r; lra). split; intros; lra.
Qed.
Lemma column_pierced x : - (3 / 2 * m) <= IZR x - ax < 3 / 2 * m -> exists a4 a3 a2 a1 b1 b2 b3, pierced (fun y => (x, y)) ay 0 a4 a3 a2 a1 b1 b2 b3.
Proof.
  intros HX. apply pierces; [lra|]. intros r Hr. destruct (integers (ay - r * m) (ay + r * m)) as (a & b & I & A & B). exists a, b. split; [|lra].
  intros t. rewrite <- I, sees_iff. cbn [fst snd]. assert (3 / 2 * m <= r * m) by (apply Rmult_le_compat_r; lra). split; intros; lra.
Qed.
(** the diagonal, starting at (rx, ry) *)
Lemma diagonal_pierced rx ry : let u := ax - IZR rx in let w := ay - IZR ry in Rabs (u - w) <= 5 ->
  exists a4 a3 a2 a1 b1 b2 b3, pierced (fun t => (rx + t, ry + t)%Z) ((u + w) / 2) (Rabs (u - w) / 2) a4 a3 a2 a1 b1 b2 b3.
Proof.
  intros u w UW. apply pierces; [pose proof (Rabs_pos (u - w)); lra|]. intros r Hr. assert (RM : 3 / 2 * m <= r * m) by (apply Rmult_le_compat_r; lra).
  destruct (integers (Rmax u w - r * m) (Rmin u w + r * m)) as (a & b & I & A & B). exists a, b. split.
  - intros t. rewrite <- I, sees_iff. cbn [fst snd]. rewrite !plus_IZR. unfold u, w, Rmax, Rmin. destruct (Rle_dec _ _); split; intros; lra.
  - clear I. revert A B. unfold Rmax, Rmin. destruct (Rle_dec u w); rabs; lra.
Qed.

(** what the code takes for the runs of the pattern *)
Lemma pierced_right h tau z a4 a3 a2 a1 b1 b2 b3 t0 e : pierced h tau z a4 a3 a2 a1 b1 b2 b3 -> 0 <= z <= 11 / 5 ->
  (t0 < a3)%Z -> (b3 < e)%Z -> tau - 7 * m - 5 <= IZR t0 ->
  borders g h t0 a4 a3 a2 a1 b1 b2 b3 /\ about_right t0 e a4 a3 a2 a1 b1 b2 b3.
Proof.
  intros [A4 A3 A2 A1 B1 B2 B3 S4 S3 S2 S1 T1 T2 T3 _] Z0 HS HE HT. split.
  - repeat split; try assumption. intros t Ht. apply S4. lia.
  - unfold about_right. split; [exact HS|].
    assert (L1 : (a4 < a3)%Z) by (apply lt_IZR; lra). assert (L2 : (a3 < a2)%Z) by (apply lt_IZR; lra). assert (L3 : (a2 < a1)%Z) by (apply lt_IZR; lra).
    assert (L4 : (a1 < b1)%Z) by (apply lt_IZR; lra). assert (L5 : (b1 < b2)%Z) by (apply lt_IZR; lra). assert (L6 : (b2 < b3)%Z) by (apply lt_IZR; lra).
    split; [lia|]. split; [lia|]. split; [lia|]. split; [exact HE|].
    split. { destruct (Z.max_spec t0 a4) as [[_ ->]|[_ ->]]; [to_R; lra|lia]. }
    split; [to_R; lra|]. split; [to_R; lra|]. split; [to_R; lra|]. split; [to_R; lra|]. split; [to_R; lra|]. split; [to_R; lra|]. split; [to_R; lra|].
    split.
    + unfold finder_runs, stands_for. cbv zeta. replace (a2 - a3 + (a1 - a2) + (b1 - a1) + (b2 - b1) + (b3 - b2))%Z with (b3 - a3)%Z by lia.
      assert (AB : forall k r, (3 * (k * (b3 - a3) - 7 * r) <= 2 * (b3 - a3))%Z -> (3 * (7 * r - k * (b3 - a3)) <= 2 * (b3 - a3))%Z ->
        (3 * Z.abs (k * (b3 - a3) - 7 * r) <= 2 * (b3 - a3))%Z) by (intros; lia).
      assert (7 <= b3 - a3)%Z by (to_R; lra).
      repeat split; try assumption; apply AB; to_R; lra.
    + apply Z.lt_neq. to_R. lra.
Qed.

(** *** the refinements *)
Lemma est_range T n q : pat_ok n q -> (n <= 2 ^ 27)%Z -> pat_total q = T -> exists w, fin (est_of T) w /\ 0 <= w /\ Rabs (w - IZR T / 7) <= eps /\ (T <= n)%Z.
Proof.
  intros HQ HN <-. destruct (total_size_ok n q HQ ltac:(unfold u32_max; lia)) as [_ TB].
  destruct (est_f (pat_total q) ltac:(lia)) as (w & FW & EW). pose proof (est_fin (pat_total q) ltac:(unfold u32_max; lia)) as FW'. pose proof (fin_inj _ _ _ FW FW') as WE.
  exists w. split; [exact FW|]. split; [|split; [exact EW|lia]].
  rewrite WE. apply rnd_between with (a := 0%Z) (b := 134217728%Z); [lia|lia|]. destruct TB as [TB1 TB2]. assert (TB3 : (pat_total q <= 134217728)%Z) by lia. apply IZR_le in TB1, TB3. lra.
Qed.
Lemma too_small ms v n : fin ms v -> 1 <= v <= top -> (n <= 2 ^ 27)%Z -> IZR n <= 27 / 5 * v -> unconfirmed ms false n.
Proof.
  intros FM VB HN HV q xx yy HQ. left. unfold confirm.
  destruct (looks_like_finder_exact n q HQ ltac:(unfold u32_max; lia)) as (b & -> & _ & _). cbn [bind]. destruct b; [|reflexivity].
  rewrite (est_ok n q HQ) by (unfold u32_max; lia). cbn [bind]. destruct (est_range _ n q HQ HN eq_refl) as (w & FW & W0 & EW & TB).
  rewrite (diff_far ms (est_of (pat_total q)) v w FM FW VB); [reflexivity|]. split; [exact W0|]. apply IZR_le in TB. unfold eps in *. rabs; lra.
Qed.

Lemma size_bound h tau z a4 a3 a2 a1 b1 b2 b3 : pierced h tau z a4 a3 a2 a1 b1 b2 b3 -> z = 0 -> (b3 - a3 <= 2 ^ 26)%Z -> m <= 10000000.
Proof.
  intros [A4 A3 A2 A1 B1 B2 B3 S4 S3 S2 S1 T1 T2 T3 IN] -> H. apply IZR_le in H. rewrite minus_IZR in H. change (IZR (2 ^ 26)) with 67108864 in H. lra.
Qed.

(** the column, from the uppermost row of the inner square *)
Lemma column_first p x y0 ms v : fin (px p) x -> py p = of_Z y0 -> - / 1000 <= x - ax <= 1 + / 1000 -> fin ms v -> Rabs (v - m) <= / 7 + / 1000 ->
  ay - 3 / 2 * m <= IZR y0 <= ay - 3 / 2 * m + 1 -> m <= 10000000 -> 0 <= x ->
  exists f x' y' v', refine_vertical g p ms = Ok (Some f) /\ let q := fst (adjust f (of_Z 0) (of_Z 1)) in let ms' := snd (adjust f (of_Z 0) (of_Z 1)) in
    fin (px q) x' /\ fin (py q) y' /\ fin ms' v' /\ 0 <= x' <= 67108864 /\ 0 <= y' <= 67108864 /\ Rabs (x' - x) <= / 2 /\
    - 1.66 <= y' - ay <= 1 + / 1000 /\ Rabs (v' - m) <= 0.24.
Proof.
  intros FX EY HX FM HV HY MB X0.
  assert (VB : m - 0.145 <= v <= m + 0.145) by (clear - HV; rabs; lra).
  assert (PP : exists x1 y1, (0 <= x1 < gw g)%Z /\ (0 <= y1 < gh g)%Z /\ IZR x1 <= ax + 1 /\ ax - 1 <= IZR x1).
  { destruct (row_pierced y0 ltac:(lra)) as (a4 & a3 & a2 & a1 & b1 & b2 & b3 & [A4 A3 A2 A1 B1 B2 B3 _ _ _ _ _ _ _ IN]). cbn [fst snd] in IN.
    exists (Zceil ax), y0. pose proof (Zceil_ub ax). pose proof (Zceil_lb ax). destruct (IN (Zceil ax)) as [I1 I2]; [split; to_R; lra|]. split; [exact I1|]. split; [exact I2|]. lra. }
  destruct PP as (xp & yp & XP & YP & XP1 & XP2).
  assert (XB : x <= 67108864).
  { assert (XPR : IZR xp <= 67108863) by (apply IZR_le; lia). assert (ax <= 67108864) by lra.
    destruct (row_pierced y0 ltac:(lra)) as (a4 & a3 & a2 & a1 & b1 & b2 & b3 & [A4 A3 A2 A1 B1 B2 B3 _ _ _ _ _ _ _ IN]). cbn [fst snd] in IN.
    destruct (IN b3) as [I1 _]; [split; [to_R; lra|lia]|]. assert (IZR b3 <= 67108863) by (apply IZR_le; lia). lra. }
  destruct (round_f _ _ FX ltac:(unfold top; lra)) as [R0 R1]. unfold refine_vertical. set (X := round_u32 (px p)) in *.
  assert (XA : - 0.51 <= IZR X - ax <= 1.51) by (clear - R1 HX; rabs; lra).
  destruct (column_pierced X ltac:(lra)) as (a4 & a3 & a2 & a1 & b1 & b2 & b3 & CR).
  pose proof CR as [A4 A3 A2 A1 B1 B2 B3 S4 S3 S2 S1 T1 T2 T3 IN]. cbn [fst snd] in IN.
  pose proof (IN (a3 - 1)%Z ltac:(split; to_R; lra)) as I1. pose proof (IN b3 ltac:(split; to_R; lra)) as I2.
  assert (L : (a3 < b3)%Z) by (apply lt_IZR; lra).
  assert (Y0 : (0 <= y0 < gh g)%Z).
  { assert (a3 <= y0)%Z by (to_R; lra). assert (y0 <= b3)%Z by (to_R; lra). lia. }
  rewrite EY. assert (FY : fin (of_Z y0) (IZR y0)) by (apply fin_of_Z; lia).
  assert (YB : 0 <= IZR y0 <= 67108864) by (split; apply IZR_le; lia).
  destruct (path_start (of_Z y0) (IZR y0) ms v FY FM) as [P0 P1]; [unfold top; lra|unfold top; lra|]. set (t0 := round_u32 (fmax0 _)) in *.
  pose proof (path_end (of_Z y0) (IZR y0) ms v FY FM ltac:(unfold top; lra) ltac:(unfold top; lra)) as P2. set (e0 := round_u32 (fadd _ _)) in *.
  assert (E0 : IZR y0 + 5 * v - 17 / 32 <= IZR e0 <= IZR y0 + 5 * v + 17 / 32) by (clear - P2; rabs; lra).
  set (e := Z.min e0 (gh g)).
  assert (S0 : (t0 < a3)%Z).
  { destruct (Rle_dec (IZR y0 - 5 * v) 0) as [N|N].
    - rewrite Rmax_left in P1 by lra. assert (t0 < 1)%Z by (apply lt_IZR; lra). lia.
    - rewrite Rmax_right in P1 by lra. apply lt_IZR. lra. }
  assert (T0 : IZR y0 - 5 * v - 17 / 32 <= IZR t0) by (pose proof (Rmax_r 0 (IZR y0 - 5 * v)); lra).
  assert (RD : forall t, (t0 <= t < e)%Z -> exists w, get_pixel g X t = Ok w).
  { intros t Ht. eexists. apply get_pixel_pix; [exact WF|destruct (IN a3) as [K _]; [lia|exact K]|unfold e in Ht; lia]. }
  assert (SM : (e - t0 <= 2 ^ 27)%Z) by (unfold e; lia).
  assert (UN : unconfirmed ms false (a1 - t0)).
  { apply too_small with v; [exact FM|unfold top; lra| |rewrite minus_IZR; lra]. assert (a1 < b3)%Z by (to_R; lra). lia. }
  assert (X1 : (X <= 67108864)%Z) by (destruct (IN a3) as [K _]; [lia|]; lia).
  (* the place where the run ends, and the length *)
  assert (KEY : exists k l : Z, refine g ms (map (fun y => (X, y)) (zrange t0 e)) false = Ok (Some (FP (Pt (of_Z X) (of_Z k)) (fdiv (fadd ms (est_of l)) (of_Z 2)) (est_of l))) /\
    (0 <= k < 2 ^ 26)%Z /\ (0 <= l <= 2 ^ 26)%Z /\ 7 * m - 2.275 <= IZR l <= 7 * m + 1 /\ - 1.65 <= IZR k - IZR l / 2 - ay <= 1 /\ 0 <= IZR k - IZR l / 2 - / 2).
  { assert (A30 : 1 <= IZR a3) by (apply IZR_le; lia).
    destruct (Z_lt_le_dec b3 e) as [B|B].
    - destruct (pierced_right _ _ 0 _ _ _ _ _ _ _ t0 e CR ltac:(lra) S0 B ltac:(lra)) as [BO AR].
      destruct (crossing g ms false (fun y => (X, y)) t0 e ltac:(lia) SM RD a4 a3 a2 a1 b1 b2 b3 BO AR) as [[N _]|R]; [now right| |discriminate|].
      + destruct (est_f (b3 - a3) ltac:(lia)) as (w & FW & EW). rewrite minus_IZR in EW. rewrite (diff_near ms (est_of (b3 - a3)) v w FM FW); [reflexivity|unfold top, eps in *; rabs; lra..].
      + exists b3, (b3 - a3)%Z. split; [exact R|]. split; [lia|]. split; [lia|]. rewrite minus_IZR. repeat split; lra.
    - assert (EE : e = e0) by (unfold e in *; lia). rewrite EE in *. assert (BR : IZR e0 <= IZR b3) by (apply IZR_le; exact B).
      assert (LE : (b2 < e0)%Z) by (to_R; lra). assert (L3 : (a3 < b2)%Z) by (to_R; lra).
      pose proof (cut_right _ _ _ _ _ _ _ _ _ _ _ t0 e0 (pierced_crossed _ _ _ _ _ _ _ _ _ CR) ltac:(lra) S0 ltac:(lra) B ltac:(lra)) as AR.
      exists (e0 - 1)%Z, (e0 - a3)%Z. split.
      + apply (crossing_cut g ms (fun y => (X, y)) t0 e0 ltac:(lia) SM RD a4 a3 a2 a1 b1 b2); try assumption; [intros t Ht; apply S4; lia|intros t Ht; apply T2; lia|].
        destruct (est_f (e0 - a3) ltac:(lia)) as (w & FW & EW). rewrite minus_IZR in EW. rewrite (diff_near ms (est_of (e0 - a3)) v w FM FW); [reflexivity|unfold top, eps in *; rabs; lra..].
      + split; [lia|]. split; [lia|]. rewrite !minus_IZR. repeat split; lra. }
  clear - KEY FM VB HV R1 X1 R0 MB SIZE HX. destruct KEY as (k & l & R & KB & LB & LR & KR & KP).
  assert (KI : 0 <= IZR k <= 67108864) by (split; apply IZR_le; lia).
  assert (XI : 0 <= IZR X <= 67108864) by (split; apply IZR_le; lia).
  destruct (est_f l ltac:(lia)) as (w & FW & EW). unfold eps in EW.
  destruct (avg_f ms (est_of l) v w FM FW) as (v' & FV & EV); [unfold top; rabs; lra|unfold top; rabs; lra|]. unfold eps in EV.
  destruct (mul_f (lit 7 2) (est_of l) (7 / 2) w fin_7_2 FW) as (half & FH & EH); [unfold top; rabs; lra|]. unfold eps in EH.
  assert (HB : 0 <= half <= 4294967296) by (rabs; lra).
  destruct (sub_f (of_Z k) _ (IZR k) half (fin_of_Z k ltac:(lia)) (fin_1_mul _ _ FH HB)) as (r & FR & ER); [unfold top; rabs; lra|unfold top; rabs; lra|]. unfold eps in ER.
  eexists. exists (IZR X), r, v'. split; [exact R|]. cbn [adjust fst snd px py fp_location fp_module_size fp_last].
  split; [apply (fin_0_sub X _ half); [exact FH|unfold u32_max; lia]|]. split; [exact FR|]. split; [exact FV|]. split; [exact XI|].
  assert (HH : Rabs (half - IZR l / 2) <= / 10000) by (clear - EH EW; rabs; lra).
  split; [clear - ER HH KR KP KI LR SIZE; rabs; lra|]. split; [exact R1|]. split; [clear - ER HH KR; rabs; lra|].
  clear - EV EW LR VB. rabs; lra.
Qed.

(** the row, from near the middle *)
Lemma row_next p x y ms v : fin (px p) x -> fin (py p) y -> 0 <= x <= 67108864 -> 0 <= y <= 67108864 -> - 0.51 <= x - ax <= 1.51 -> - 1.66 <= y - ay <= 1 + / 1000 ->
  fin ms v -> Rabs (v - m) <= 0.24 -> m <= 10000000 ->
  exists f x' y' v', refine_horizontal g p ms = Ok (Some f) /\ let q := fst (adjust f (of_Z 1) (of_Z 0)) in let ms' := snd (adjust f (of_Z 1) (of_Z 0)) in
    fin (px q) x' /\ fin (py q) y' /\ fin ms' v' /\ 0 <= x' <= 67108864 /\ 0 <= y' <= 67108864 /\ Rabs (y' - y) <= / 2 /\
    - / 1000 <= x' - ax <= 1 + / 1000 /\ Rabs (v' - m) <= / 5.
Proof.
  intros FX FY BX BY HX HY FM HV MB.
  assert (VB : m - 0.24 <= v <= m + 0.24) by (clear - HV; rabs; lra).
  destruct (round_f _ _ FY ltac:(unfold top; lra)) as [R0 R1]. unfold refine_horizontal. set (Y := round_u32 (py p)) in *.
  assert (YA : - 2.17 <= IZR Y - ay <= 1.51) by (clear - R1 HY; rabs; lra).
  destruct (row_pierced Y ltac:(lra)) as (a4 & a3 & a2 & a1 & b1 & b2 & b3 & CR).
  pose proof CR as [A4 A3 A2 A1 B1 B2 B3 S4 S3 S2 S1 T1 T2 T3 IN]. cbn [fst snd] in IN.
  pose proof (IN (a3 - 1)%Z ltac:(split; to_R; lra)) as I1. pose proof (IN b3 ltac:(split; to_R; lra)) as I2.
  assert (L : (a3 < b3)%Z) by (apply lt_IZR; lra).
  destruct (path_start (px p) x ms v FX FM) as [P0 P1]; [unfold top; lra|unfold top; lra|]. set (t0 := round_u32 (fmax0 _)) in *.
  pose proof (path_end (px p) x ms v FX FM ltac:(unfold top; lra) ltac:(unfold top; lra)) as P2. set (e0 := round_u32 (fadd _ _)) in *.
  assert (E0 : x + 5 * v - 17 / 32 <= IZR e0 <= x + 5 * v + 17 / 32) by (clear - P2; rabs; lra).
  set (e := Z.min e0 (gw g)).
  assert (S0 : (t0 < a3)%Z).
  { destruct (Rle_dec (x - 5 * v) 0) as [N|N].
    - rewrite Rmax_left in P1 by lra. assert (t0 < 1)%Z by (apply lt_IZR; lra). lia.
    - rewrite Rmax_right in P1 by lra. apply lt_IZR. lra. }
  assert (T0 : x - 5 * v - 17 / 32 <= IZR t0) by (pose proof (Rmax_r 0 (x - 5 * v)); lra).
  assert (BE : (b3 < e)%Z) by (assert (b3 < e0)%Z by (apply lt_IZR; lra); unfold e; lia).
  assert (RD : forall t, (t0 <= t < e)%Z -> exists w, get_pixel g t Y = Ok w).
  { intros t Ht. eexists. apply get_pixel_pix; [exact WF|unfold e in Ht; lia|lia]. }
  assert (SM : (e - t0 <= 2 ^ 27)%Z) by (unfold e; lia).
  assert (UN : unconfirmed ms false (a1 - t0)).
  { apply too_small with v; [exact FM|unfold top; lra| |rewrite minus_IZR; lra]. assert (a1 < b3)%Z by (to_R; lra). lia. }
  destruct (pierced_right _ _ 0 _ _ _ _ _ _ _ t0 e CR ltac:(lra) S0 BE ltac:(lra)) as [BO AR].
  destruct (crossing g ms false (fun x => (x, Y)) t0 e ltac:(lia) SM RD a4 a3 a2 a1 b1 b2 b3 BO AR) as [[N _]|R]; [now right| |discriminate|].
  { destruct (est_f (b3 - a3) ltac:(lia)) as (w & FW & EW). rewrite minus_IZR in EW. rewrite (diff_near ms (est_of (b3 - a3)) v w FM FW); [reflexivity|unfold top, eps in *; rabs; lra..]. }
  assert (LR : 1 <= IZR a3 /\ IZR a3 + 1 <= IZR b3 /\ IZR b3 <= 67108864) by (rewrite <- plus_IZR; repeat split; apply IZR_le; lia).
  assert (K1 : (0 <= b3 <= 67108864 /\ 0 <= b3 - a3 <= 2 ^ 26 /\ 0 <= Y <= 67108864)%Z) by lia.
  change ((exists f x' y' v', refine g ms (map (fun x => (x, Y)) (zrange t0 e)) false = Ok (Some f) /\ let q := fst (adjust f (of_Z 1) (of_Z 0)) in let ms' := snd (adjust f (of_Z 1) (of_Z 0)) in
    fin (px q) x' /\ fin (py q) y' /\ fin ms' v' /\ 0 <= x' <= 67108864 /\ 0 <= y' <= 67108864 /\ Rabs (y' - y) <= / 2 /\
    - / 1000 <= x' - ax <= 1 + / 1000 /\ Rabs (v' - m) <= / 5)).
  clear - R K1 LR A3 B3 FM VB MB SIZE R1 R0. destruct K1 as (K1 & K2 & K3).
  destruct (est_f (b3 - a3) ltac:(lia)) as (w & FW & EW). rewrite minus_IZR in EW. unfold eps in EW.
  destruct (avg_f ms (est_of (b3 - a3)) v w FM FW) as (v' & FV & EV); [unfold top; rabs; lra|unfold top; rabs; lra|]. unfold eps in EV.
  destruct (mul_f (lit 7 2) (est_of (b3 - a3)) (7 / 2) w fin_7_2 FW) as (half & FH & EH); [unfold top; rabs; lra|]. unfold eps in EH.
  assert (HB : 0 <= half <= 4294967296) by (rabs; lra).
  destruct (sub_f (of_Z b3) _ (IZR b3) half (fin_of_Z b3 ltac:(lia)) (fin_1_mul _ _ FH HB)) as (r & FR & ER); [unfold top; rabs; lra|unfold top; rabs; lra|]. unfold eps in ER.
  eexists. exists r, (IZR Y), v'. split; [exact R|]. cbn [adjust fst snd px py fp_location fp_module_size fp_last].
  split; [exact FR|]. split; [apply (fin_0_sub Y _ half); [exact FH|unfold u32_max; lia]|]. split; [exact FV|].
  assert (HH : Rabs (half - (IZR b3 - IZR a3) / 2) <= / 10000) by (clear - EH EW; rabs; lra).
  split; [clear - ER HH LR; rabs; lra|]. split; [split; apply IZR_le; lia|]. split; [exact R1|]. split; [clear - ER HH A3 B3; rabs; lra|].
  clear - EV EW A3 B3 VB. rabs; lra.
Qed.

(** the diagonal *)
Lemma diagonal_next p X Y ms v : fin (px p) X -> fin (py p) Y -> 0 <= X <= 67108864 -> 0 <= Y <= 67108864 -> - / 1000 <= X - ax <= 1 + / 1000 -> - 2.17 <= Y - ay <= 1.51 ->
  fin ms v -> Rabs (v - m) <= / 5 -> m <= 10000000 -> exists f, refine_diagonal g p ms = Ok (Some f).
Proof.
  intros FX FY BX BY HX HY FM HV MB.
  assert (VB : m - / 5 <= v <= m + / 5) by (clear - HV; rabs; lra).
  destruct (diag_start p X Y ms v FX FY ltac:(unfold top; lra) ltac:(unfold top; lra) FM ltac:(unfold top; lra)) as (q & QB & RX & RY & EX & EY & QE).
  unfold refine_diagonal. destruct (diagonal_start p (fmul (of_Z 5) ms)) as [sx sy]. cbn [fst snd] in *.
  set (rx := round_u32 sx) in *. set (ry := round_u32 sy) in *.
  pose proof (path_end (px p) X ms v FX FM ltac:(unfold top; lra) ltac:(unfold top; lra)) as TX.
  pose proof (path_end (py p) Y ms v FY FM ltac:(unfold top; lra) ltac:(unfold top; lra)) as TY.
  set (ex := round_u32 (fadd (px p) _)) in *. set (ey := round_u32 (fadd (py p) _)) in *.
  assert (EX' : X - q - 17 / 32 <= IZR rx <= X - q + 17 / 32) by (clear - EX; rabs; lra). assert (EY' : Y - q - 17 / 32 <= IZR ry <= Y - q + 17 / 32) by (clear - EY; rabs; lra).
  assert (TX' : X + 5 * v - 17 / 32 <= IZR ex) by (clear - TX; rabs; lra). assert (TY' : Y + 5 * v - 17 / 32 <= IZR ey) by (clear - TY; rabs; lra). clear EX EY TX TY.
  assert (UW : Rabs ((ax - IZR rx) - (ay - IZR ry)) <= 22 / 5) by (apply Rabs_le; lra).
  destruct (diagonal_pierced rx ry ltac:(lra)) as (a4 & a3 & a2 & a1 & b1 & b2 & b3 & CR).
  set (z := Rabs ((ax - IZR rx) - (ay - IZR ry)) / 2) in *. set (tau := ((ax - IZR rx) + (ay - IZR ry)) / 2) in *.
  assert (Z0 : 0 <= z <= 11 / 5) by (unfold z; pose proof (Rabs_pos ((ax - IZR rx) - (ay - IZR ry))); lra).
  assert (ZX : IZR rx + tau - z <= ax) by (unfold tau, z; clear; rabs; lra). assert (ZY : IZR ry + tau - z <= ay) by (unfold tau, z; clear; rabs; lra).
  assert (TL : tau <= q + 2.2) by (unfold tau; lra).
  assert (TG : q - 17 / 32 - 1.3 <= tau) by (unfold tau; lra). clearbody z tau.
  pose proof CR as [A4 A3 A2 A1 B1 B2 B3 _ _ _ _ _ _ _ IN]. cbn [fst snd] in IN.
  assert (L : (a3 < b3)%Z) by (apply lt_IZR; lra).
  pose proof (IN (a3 - 1)%Z ltac:(lia)) as I1. pose proof (IN b3 ltac:(lia)) as I2.
  assert (S1 : (0 < a3)%Z).
  { destruct QE as [QE|[E|E]]; [|rewrite E in I1; lia|rewrite E in I1; lia]. apply lt_IZR. lra. }
  rewrite (combine_zrange _ _ _ _ 0).
  assert (HE : forall t, (rx - 0 + t, ry - 0 + t)%Z = (rx + t, ry + t)%Z) by (intros t; f_equal; lia).
  rewrite (map_ext _ _ HE). set (e := (0 + Z.min (Z.min ex (gw g) - rx) (Z.min ey (gh g) - ry))%Z).
  assert (E1 : (b3 < e)%Z).
  { assert (G1 : (rx + b3 < ex)%Z) by (apply lt_IZR; rewrite plus_IZR; lra). assert (G2 : (ry + b3 < ey)%Z) by (apply lt_IZR; rewrite plus_IZR; lra). unfold e. lia. }
  destruct (pierced_right _ tau z _ _ _ _ _ _ _ 0%Z e CR Z0 S1 E1) as [BO AR].
  { change (IZR 0) with 0. lra. }
  assert (RD : forall t, (0 <= t < e)%Z -> exists v, get_pixel g (rx + t) (ry + t) = Ok v).
  { intros t Ht. eexists. apply get_pixel_pix; [exact WF|unfold e in Ht; lia|unfold e in Ht; lia]. }
  destruct (crossing g ms true (fun t => (rx + t, ry + t)%Z) 0 e ltac:(lia) ltac:(unfold e; lia) RD a4 a3 a2 a1 b1 b2 b3 BO AR) as [[_ R]|R].
  - now left.
  - apply orb_true_r.
  - exact R.
  - eexists. exact R.
Qed.

(** all three *)
Lemma straight_refined p x y0 ms v : fin (px p) x -> py p = of_Z y0 -> - / 1000 <= x - ax <= 1 + / 1000 -> fin ms v -> Rabs (v - m) <= / 7 + / 1000 ->
  ay - 3 / 2 * m <= IZR y0 <= ay - 3 / 2 * m + 1 -> m <= 10000000 -> 0 <= x ->
  exists q ms' x' y' v', refine_all g p ms = Ok (Some (q, ms')) /\ fin (px q) x' /\ fin (py q) y' /\ fin ms' v' /\
    - / 1000 <= x' - ax <= 1 + / 1000 /\ - 2.17 <= y' - ay <= 1.51 /\ Rabs (v' - m) <= / 5.
Proof.
  intros FX EY HX FM HV HY MB X0. unfold refine_all.
  destruct (column_first p x y0 ms v FX EY HX FM HV HY MB X0) as (f1 & x1 & y1 & v1 & R1 & Q1).
  rewrite R1. cbn [bind]. destruct (adjust f1 (of_Z 0) (of_Z 1)) as [p1 ms1]. cbn [fst snd] in Q1. destruct Q1 as (FX1 & FY1 & FM1 & BX1 & BY1 & PX1 & PY1 & PV1).
  assert (X1 : - 0.51 <= x1 - ax <= 1.51) by (clear - PX1 HX; rabs; lra).
  destruct (row_next p1 x1 y1 ms1 v1 FX1 FY1 BX1 BY1 X1 PY1 FM1 PV1 MB) as (f2 & x2 & y2 & v2 & R2 & Q2).
  rewrite R2. cbn [bind]. destruct (adjust f2 (of_Z 1) (of_Z 0)) as [p2 ms2]. cbn [fst snd] in Q2. destruct Q2 as (FX2 & FY2 & FM2 & BX2 & BY2 & PY2 & PX2 & PV2).
  assert (Y2 : - 2.17 <= y2 - ay <= 1.51) by (clear - PY2 PY1; rabs; lra).
  destruct (diagonal_next p2 x2 y2 ms2 v2 FX2 FY2 BX2 BY2 PX2 Y2 FM2 PV2 MB) as (f3 & R3).
  rewrite R3. cbn [bind]. exists p2, ms2, x2, y2, v2. auto 10.
Qed.
End Upright.
