(** Refinement finds the centre of a finder pattern at any angle. *)
From Coq Require Import NArith ZArith Reals List Lia Lra Bool Arith Psatz.
From Verif.Model Require Import Prepare Detect.
From Flocq Require Import Core.
From Verif.Spec Require Import Window Finder Drawing Angle Slant.
From Verif.Proofs Require Import BaseP PrepareP FloatP ApproxP DetectP ExtractP AlignP RefineP RefineF CrossP SlantP.
Import ListNotations.
Local Open Scope R_scope.

(** *** single operations, with an error of at most 2^-20 *)
Definition top : R := 268435456.
Definition eps : R := / 1048576.

Lemma add_f x y a b : fin x a -> fin y b -> Rabs a <= top -> Rabs b <= top -> exists v, fin (fadd x y) v /\ Rabs (v - (a + b)) <= eps.
Proof.
  unfold top, eps. intros X Y A B. destruct (apx_fadd 30 _ _ _ _ _ _ ltac:(lia) (fin_apx _ _ X) (fin_apx _ _ Y)) as (v & F & E); [pows; rabs; lra|].
  exists v. split; [exact F|]. pows. lra.
Qed.
Lemma sub_f x y a b : fin x a -> fin y b -> Rabs a <= top -> Rabs b <= top -> exists v, fin (fsub x y) v /\ Rabs (v - (a - b)) <= eps.
Proof.
  unfold top, eps. intros X Y A B. destruct (apx_fsub 30 _ _ _ _ _ _ ltac:(lia) (fin_apx _ _ X) (fin_apx _ _ Y)) as (v & F & E); [pows; rabs; lra|].
  exists v. split; [exact F|]. pows. lra.
Qed.
Lemma mul_f x y a b : fin x a -> fin y b -> Rabs (a * b) <= 2 * top -> exists v, fin (fmul x y) v /\ Rabs (v - a * b) <= eps.
Proof.
  unfold top, eps. intros X Y A. destruct (apx_fmul 30 _ _ _ _ _ _ ltac:(lia) (fin_apx _ _ X) (fin_apx _ _ Y)) as (v & F & E); [pows; lra|].
  exists v. split; [exact F|]. pows. lra.
Qed.
Lemma div_f x y a b : fin x a -> fin y b -> b <> 0 -> Rabs (a / b) <= 2 * top -> exists v, fin (fdiv x y) v /\ Rabs (v - a / b) <= eps.
Proof.
  unfold top, eps. intros X Y B A. destruct (apx_fdiv 30 _ _ _ _ _ ltac:(lia) (fin_apx _ _ X) Y B) as (v & F & E); [pows; unfold Rdiv at 2; lra|].
  exists v. split; [exact F|]. pows. unfold Rdiv at 2 in E. lra.
Qed.
Lemma lit_2_10 : exists v, fin (lit 2 10) v /\ Rabs (v - 2 / 10) <= eps.
Proof. apply (div_f (of_Z 2) (of_Z 10) 2 10); try (apply fin_of_Z; lia); [lra|]. unfold top. rewrite Rabs_pos_eq; lra. Qed.
Lemma est_f T : (0 <= T <= 2 ^ 27)%Z -> exists v, fin (est_of T) v /\ Rabs (v - IZR T / 7) <= eps.
Proof.
  intros H. assert (R : 0 <= IZR T <= 134217728) by (split; apply IZR_le; lia).
  apply (div_f (of_Z T) (of_Z 7) (IZR T) 7); try (apply fin_of_Z; lia); [lra|]. unfold top. rewrite Rabs_pos_eq; lra.
Qed.
Lemma avg_f x y a b : fin x a -> fin y b -> Rabs a <= top -> Rabs b <= top -> exists v, fin (fdiv (fadd x y) (of_Z 2)) v /\ Rabs (v - (a + b) / 2) <= 2 * eps.
Proof.
  intros X Y A B. destruct (add_f x y a b X Y A B) as (u & F & E). unfold top, eps in *.
  destruct (div_f (fadd x y) (of_Z 2) u 2 F) as (v & G & K); [apply fin_of_Z; lia|lra|unfold top; rabs; lra|]. exists v. split; [exact G|]. unfold eps in K. rabs; lra.
Qed.

(** sizes that differ a lot, and sizes that hardly differ *)
Lemma quot_le a b q : 0 < b -> a <= q * b -> a / b <= q.
Proof. intros B H. apply Rmult_le_reg_r with b; [exact B|]. unfold Rdiv. rewrite Rmult_assoc, Rinv_l by lra. lra. Qed.
Lemma quot_ge a b q : 0 < b -> q * b <= a -> q <= a / b.
Proof. intros B H. apply Rmult_le_reg_r with b; [exact B|]. unfold Rdiv. rewrite Rmult_assoc, Rinv_l by lra. lra. Qed.

Lemma diff_far x y a b : fin x a -> fin y b -> 1 <= a <= top -> 0 <= b <= 31 / 40 * a -> flt (diff x y) (lit 2 10) = false.
Proof.
  intros X Y A B. unfold diff. rewrite (fgt_R _ _ _ _ X Y), Rlt_bool_true by lra.
  destruct lit_2_10 as (l & FL & EL). unfold top in *.
  destruct (sub_f x y a b X Y) as (u & FU & EU); [unfold top; rabs; lra|unfold top; rabs; lra|].
  assert (Q1 : 22 / 100 <= u / a) by (apply quot_ge; unfold eps in *; rabs; lra). assert (Q2 : u / a <= 2) by (apply quot_le; unfold eps in *; rabs; lra).
  destruct (div_f (fsub x y) x u a FU X) as (v & FV & EV); [lra|unfold top; rabs; lra|].
  rewrite (flt_R _ _ _ _ FV FL). apply Rlt_bool_false. unfold eps in *. rabs; lra.
Qed.
Lemma diff_near x y a b : fin x a -> fin y b -> 1 <= a <= top -> 1 <= b <= top -> Rabs (a - b) <= 3 / 16 * a -> Rabs (a - b) <= 3 / 16 * b -> flt (diff x y) (lit 2 10) = true.
Proof.
  intros X Y A B D1 D2. unfold diff. rewrite (fgt_R _ _ _ _ X Y). destruct lit_2_10 as (l & FL & EL). unfold top in *.
  case Rlt_bool_spec; intros L.
  - destruct (sub_f x y a b X Y) as (u & FU & EU); [unfold top; rabs; lra|unfold top; rabs; lra|].
    assert (Q1 : - (19 / 100) <= u / a) by (apply quot_ge; unfold eps in *; rabs; lra). assert (Q2 : u / a <= 19 / 100) by (apply quot_le; unfold eps in *; rabs; lra).
    destruct (div_f (fsub x y) x u a FU X) as (v & FV & EV); [lra|unfold top; rabs; lra|].
    rewrite (flt_R _ _ _ _ FV FL). apply Rlt_bool_true. unfold eps in *. rabs; lra.
  - destruct (sub_f y x b a Y X) as (u & FU & EU); [unfold top; rabs; lra|unfold top; rabs; lra|].
    assert (Q1 : - (19 / 100) <= u / b) by (apply quot_ge; unfold eps in *; rabs; lra). assert (Q2 : u / b <= 19 / 100) by (apply quot_le; unfold eps in *; rabs; lra).
    destruct (div_f (fsub y x) y u b FU Y) as (v & FV & EV); [lra|unfold top; rabs; lra|].
    rewrite (flt_R _ _ _ _ FV FL). apply Rlt_bool_true. unfold eps in *. rabs; lra.
Qed.

(** *** where a path starts and ends *)
Lemma round_f x r : fin x r -> - / 4 <= r <= 4 * top -> (0 <= round_u32 x)%Z /\ Rabs (IZR (round_u32 x) - r) <= / 2.
Proof.
  intros F B. unfold top in B. rewrite (round_u32_R x r F). pose proof (away_bounds r) as [A1 A2]. assert (U : u32_max = 4294967295%Z) by reflexivity.
  assert (L1 : (-1 < away r)%Z) by (apply lt_IZR; lra). assert (L2 : (away r < 2147483648)%Z) by (apply lt_IZR; lra).
  rewrite Z.max_r, Z.min_r by lia. split; [lia|]. rabs; lra.
Qed.
Lemma path_start x a ms v : fin x a -> fin ms v -> 0 <= a <= top / 2 -> 0 <= v <= top / 16 ->
  let t := round_u32 (fmax0 (fsub x (fmul (of_Z 5) ms))) in (0 <= t)%Z /\ Rmax 0 (a - 5 * v) - 17 / 32 <= IZR t <= Rmax 0 (a - 5 * v) + 17 / 32.
Proof.
  intros X M A V t. unfold top in *. destruct (mul_f (of_Z 5) ms 5 v (fin_of_Z 5 ltac:(lia)) M) as (u & FU & EU); [unfold top; rabs; lra|].
  destruct (sub_f x _ a u X FU) as (w & FW & EW); [unfold top; rabs; lra|unfold top, eps in *; rabs; lra|]. unfold eps in *.
  pose proof (fin_fmax0 _ _ FW) as G. assert (W : Rmax w 0 <= Rmax 0 (a - 5 * v) + / 64 /\ Rmax 0 (a - 5 * v) <= Rmax w 0 + / 64 /\ 0 <= Rmax w 0 /\ Rmax w 0 <= 536870912).
  { unfold Rmax. destruct (Rle_dec w 0), (Rle_dec 0 (a - 5 * v)); rabs; lra. }
  destruct (round_f _ _ G) as [R1 R2]; [unfold top; lra|]. fold t in R1, R2. split; [exact R1|]. rabs; lra.
Qed.
Lemma path_end x a ms v : fin x a -> fin ms v -> 0 <= a <= top / 2 -> 0 <= v <= top / 16 ->
  Rabs (IZR (round_u32 (fadd x (fmul (of_Z 5) ms))) - (a + 5 * v)) <= 17 / 32.
Proof.
  intros X M A V. unfold top in *. destruct (mul_f (of_Z 5) ms 5 v (fin_of_Z 5 ltac:(lia)) M) as (u & FU & EU); [unfold top; rabs; lra|].
  destruct (add_f x _ a u X FU) as (w & FW & EW); [unfold top; rabs; lra|unfold top, eps in *; rabs; lra|]. unfold eps in *.
  destruct (round_f _ _ FW) as [R1 R2]; [unfold top; rabs; lra|]. rabs; lra.
Qed.

Lemma diag_start p X Y ms v : fin (px p) X -> fin (py p) Y -> 0 <= X <= top / 2 -> 0 <= Y <= top / 2 -> fin ms v -> 1 <= v <= top / 16 ->
  let st := diagonal_start p (fmul (of_Z 5) ms) in let rx := round_u32 (fst st) in let ry := round_u32 (snd st) in
  exists q, 0 <= q <= 5 * v + / 64 /\ (0 <= rx)%Z /\ (0 <= ry)%Z /\ Rabs (IZR rx - (X - q)) <= 17 / 32 /\ Rabs (IZR ry - (Y - q)) <= 17 / 32 /\
    (5 * v - / 64 <= q \/ rx = 0%Z \/ ry = 0%Z).
Proof.
  intros FX FY BX BY FM BV st rx ry. unfold top in *.
  destruct (mul_f (of_Z 5) ms 5 v (fin_of_Z 5 ltac:(lia)) FM) as (u & FU & EU); [unfold top; rabs; lra|].
  assert (Z0 : round_u32 (of_Z 0) = 0%Z) by (apply round_u32_of_Z; unfold u32_max; lia).
  assert (UB : 0 <= u <= 5 * v + / 128 /\ 5 * v - / 128 <= u) by (unfold eps in *; rabs; lra).
  assert (SUB : forall x y a b, fin x a -> fin y b -> 0 <= a <= 134217728 -> 0 <= b <= 268435456 -> b <= a -> (0 <= round_u32 (fsub x y))%Z /\ Rabs (IZR (round_u32 (fsub x y)) - (a - b)) <= 33 / 64).
  { intros x y a b F G A B L. destruct (sub_f x y a b F G) as (w & FW & EW); [unfold top; rabs; lra|unfold top; rabs; lra|]. unfold eps in EW.
    destruct (round_f _ _ FW) as [R1 R2]; [unfold top; rabs; lra|]. split; [exact R1|]. rabs; lra. }
  subst rx ry st. unfold diagonal_start. rewrite (flt_R _ _ _ _ FX FU), (flt_R _ _ _ _ FY FU), (flt_R _ _ _ _ FX FY).
  assert (QX : X < u -> X <= Y -> exists q, 0 <= q <= 5 * v + / 64 /\ (0 <= 0)%Z /\ (0 <= round_u32 (fsub (py p) (px p)))%Z /\ Rabs (0 - (X - q)) <= 17 / 32 /\
    Rabs (IZR (round_u32 (fsub (py p) (px p))) - (Y - q)) <= 17 / 32).
  { intros L1 L2. exists X. destruct (SUB _ _ _ _ FY FX) as [S1 S2]; [lra..|]. split; [lra|]. split; [lia|]. split; [exact S1|]. split; rabs; lra. }
  assert (QY : Y < u -> Y <= X -> exists q, 0 <= q <= 5 * v + / 64 /\ (0 <= 0)%Z /\ (0 <= round_u32 (fsub (px p) (py p)))%Z /\ Rabs (0 - (Y - q)) <= 17 / 32 /\
    Rabs (IZR (round_u32 (fsub (px p) (py p))) - (X - q)) <= 17 / 32).
  { intros L1 L2. exists Y. destruct (SUB _ _ _ _ FX FY) as [S1 S2]; [lra..|]. split; [lra|]. split; [lia|]. split; [exact S1|]. split; rabs; lra. }
  case (Rlt_bool_spec X u); intros LX; case (Rlt_bool_spec Y u); intros LY; cbn [andb].
  - case (Rlt_bool_spec X Y); intros LXY; cbn [fst snd]; rewrite Z0.
    + destruct (QX LX ltac:(lra)) as (q & K1 & K2 & K3 & K4 & K5). exists q. tauto.
    + destruct (QY LY ltac:(lra)) as (q & K1 & K2 & K3 & K4 & K5). exists q. tauto.
  - cbn [fst snd]. rewrite Z0. destruct (QX LX ltac:(lra)) as (q & K1 & K2 & K3 & K4 & K5). exists q. tauto.
  - cbn [fst snd]. rewrite Z0. destruct (QY LY ltac:(lra)) as (q & K1 & K2 & K3 & K4 & K5). exists q. tauto.
  - cbn [fst snd]. destruct (SUB _ _ _ _ FX FU) as [S1 S2]; [lra..|]. destruct (SUB _ _ _ _ FY FU) as [S3 S4]; [lra..|].
    exists u. split; [lra|]. split; [exact S1|]. split; [exact S3|]. split; [rabs; lra|]. split; [rabs; lra|]. left. lra.
Qed.

Section Slant.
Context (g : gray) (m c s ax ay : R).
Context (WF : wf_gray g) (HD : finder_at_angle (pixel g) m c s ax ay) (WX : (gw g <= 2 ^ 26)%Z) (WY : (gh g <= 2 ^ 26)%Z).

(** *** a line along the rows or columns *)
Lemma line_refined h al tau d M x a ms v gmax : meets m c s ax ay h al tau d -> al * M = m -> 16 * (2 * d + 1) <= 7 * M ->
  fin x a -> 0 <= a <= 67108864 -> fin ms v -> (gmax <= 2 ^ 26)%Z ->
  (forall t, (0 <= t < gmax)%Z <-> (0 <= fst (h t) < gw g)%Z /\ (0 <= snd (h t) < gh g)%Z) ->
  Rabs (a - tau) + 5 * Rabs (v - M) + d + 2 <= 3 / 2 * M -> Rabs (a - tau) + 11 * Rabs (v - M) + d + 2 <= 7 / 4 * M ->
  7 * (Rabs (v - M) + (2 * d + 1) / 7 + eps) <= M ->
  exists a3 b3, tau - 7 / 2 * M - d <= IZR a3 <= tau - 7 / 2 * M + d + 1 /\ tau + 7 / 2 * M - d <= IZR b3 <= tau + 7 / 2 * M + d + 1 /\
    (0 < a3 < b3)%Z /\ (b3 < gmax)%Z /\
    refine g ms (map h (zrange (round_u32 (fmax0 (fsub x (fmul (of_Z 5) ms)))) (Z.min (round_u32 (fadd x (fmul (of_Z 5) ms))) gmax))) false =
    Ok (Some (FP (Pt (of_Z (fst (h b3))) (of_Z (snd (h b3)))) (fdiv (fadd ms (est_of (b3 - a3))) (of_Z 2)) (est_of (b3 - a3)))).
Proof.
  intros HM EM HK X A V GM IM H1 H2 H3. assert (D0 : 0 <= d) by apply HM.
  destruct (crosses_pattern g m c s ax ay WF HD h al tau d M HM EM HK) as (a4 & a3 & a2 & a1 & b1 & b2 & b3 & CR).
  exists a3, b3. pose proof CR as [A4 A3 A2 A1 B1 B2 B3 _ _ _ _ _ _ _ IN].
  assert (L : (a3 < b3)%Z) by (apply lt_IZR; lra).
  assert (P1 : (0 <= a3 - 1 < gmax)%Z) by (apply IM, IN; lia). assert (P2 : (0 <= b3 < gmax)%Z) by (apply IM, IN; lia).
  assert (GR : IZR gmax <= 67108864) by (apply IZR_le; lia).
  assert (MB : M <= 11000000).
  { assert (IZR b3 - IZR a3 <= 67108864); [|lra]. rewrite <- minus_IZR. apply IZR_le. lia. }
  split; [exact A3|]. split; [exact B3|]. split; [lia|]. split; [lia|].
  assert (VB : 1 <= v <= 13000000) by (unfold eps in *; rabs; lra).
  destruct (path_start x a ms v X V) as [T0 T1]; [unfold top; lra|unfold top; lra|]. set (t0 := round_u32 (fmax0 _)) in *.
  pose proof (path_end x a ms v X V ltac:(unfold top; lra) ltac:(unfold top; lra)) as T2. set (e0 := round_u32 (fadd _ _)) in *.
  set (e := Z.min e0 gmax).
  assert (E1 : (b3 < e)%Z).
  { unfold e. apply Z.min_glb_lt; [|lia]. apply lt_IZR. rabs; lra. }
  assert (S1 : (t0 < a3)%Z).
  { destruct (Rle_dec (a - 5 * v) 0) as [N|N].
    - rewrite Rmax_left in T1 by lra. assert (t0 < 1)%Z by (apply lt_IZR; lra). lia.
    - rewrite Rmax_right in T1 by lra. apply lt_IZR. rabs; lra. }
  assert (T3 : a - 5 * v - 17 / 32 <= IZR t0) by (pose proof (Rmax_r 0 (a - 5 * v)); lra).
  destruct (crossed_right g h tau M d a4 a3 a2 a1 b1 b2 b3 t0 e CR D0 HK S1 E1) as [BO AR]; [rabs; lra|].
  assert (RD : forall t, (t0 <= t < e)%Z -> exists v, get_pixel g (fst (h t)) (snd (h t)) = Ok v).
  { intros t Ht. destruct (proj1 (IM t) ltac:(unfold e in *; lia)) as [I1 I2]. eexists. now apply get_pixel_pix. }
  assert (EST : forall T : Z, (0 <= T <= 2 ^ 27)%Z -> exists w, fin (est_of T) w /\ Rabs (w - IZR T / 7) <= eps) by (intros T HT; now apply est_f).
  destruct (crossing g ms false h t0 e ltac:(lia) ltac:(unfold e in *; lia) RD a4 a3 a2 a1 b1 b2 b3 BO AR) as [[X1 _]|R].
  - right. intros q xx yy HQ. left. unfold confirm.
    assert (L13 : (a1 <= b3)%Z) by (apply le_IZR; lra).
    destruct (looks_like_finder_exact (a1 - t0) q HQ ltac:(unfold u32_max; lia)) as (b & -> & _ & _). cbn [bind]. destruct b; [|reflexivity].
    rewrite (est_ok (a1 - t0) q HQ) by (unfold u32_max; lia). cbn [bind]. destruct (total_size_ok (a1 - t0) q HQ ltac:(unfold u32_max; lia)) as [_ TB].
    destruct (EST (pat_total q) ltac:(lia)) as (w & FW & EW). pose proof (est_fin (pat_total q) ltac:(unfold u32_max; lia)) as FW'. pose proof (fin_inj _ _ _ FW FW') as WE.
    assert (W0 : 0 <= w).
    { rewrite WE. apply rnd_between with (a := 0%Z) (b := 134217728%Z); [lia|lia|]. destruct TB as [TB1 TB2]. assert (TB3 : (pat_total q <= 134217728)%Z) by lia. apply IZR_le in TB1, TB3. lra. }
    rewrite (diff_far ms (est_of (pat_total q)) v w V FW); [reflexivity|unfold top; lra|].
    split; [exact W0|]. destruct TB as [_ TB]. apply IZR_le in TB. rewrite minus_IZR in TB. unfold eps in *. rabs; lra.
  - destruct (EST (b3 - a3)%Z ltac:(lia)) as (w & FW & EW). rewrite minus_IZR in EW. rewrite (diff_near ms (est_of (b3 - a3)) v w V FW); [reflexivity|unfold top, eps in *; rabs; lra..].
  - discriminate.
  - exact R.
Qed.

Lemma line_adjusted h al tau d M x a ms v gmax : meets m c s ax ay h al tau d -> al * M = m -> 16 * (2 * d + 1) <= 7 * M ->
  fin x a -> 0 <= a <= 67108864 -> fin ms v -> (gmax <= 2 ^ 26)%Z ->
  (forall t, (0 <= t < gmax)%Z <-> (0 <= fst (h t) < gw g)%Z /\ (0 <= snd (h t) < gh g)%Z) ->
  Rabs (a - tau) + 5 * Rabs (v - M) + d + 2 <= 3 / 2 * M -> Rabs (a - tau) + 11 * Rabs (v - M) + d + 2 <= 7 / 4 * M ->
  7 * (Rabs (v - M) + (2 * d + 1) / 7 + eps) <= M ->
  exists b e ms' v' half r, (0 <= b < gmax)%Z /\
    refine g ms (map h (zrange (round_u32 (fmax0 (fsub x (fmul (of_Z 5) ms)))) (Z.min (round_u32 (fadd x (fmul (of_Z 5) ms))) gmax))) false =
      Ok (Some (FP (Pt (of_Z (fst (h b))) (of_Z (snd (h b)))) ms' e)) /\
    fin ms' v' /\ Rabs (v' - M) <= (Rabs (v - M) + (2 * d + 1) / 7) / 2 + / 1000 /\
    fin (fmul (lit 7 2) e) half /\ fin (fsub (of_Z b) (fmul (of_Z 1) (fmul (lit 7 2) e))) r /\
    tau - d - / 1000 <= r <= tau + d + 1 + / 1000 /\ 0 <= r <= 67108864.
Proof.
  intros HM EM HK X A V GM IM H1 H2 H3.
  destruct (line_refined h al tau d M x a ms v gmax HM EM HK X A V GM IM H1 H2 H3) as (a3 & b3 & A3 & B3 & L & LG & R).
  assert (D0 : 0 <= d) by apply HM.
  assert (LR : 1 <= IZR a3 /\ IZR a3 + 1 <= IZR b3 /\ IZR b3 <= 67108864) by (rewrite <- plus_IZR; repeat split; apply IZR_le; lia).
  assert (DT : IZR (b3 - a3) = IZR b3 - IZR a3) by apply minus_IZR.
  destruct (est_f (b3 - a3) ltac:(lia)) as (w & FW & EW). rewrite DT in EW. unfold eps in *.
  assert (VB : 0 <= v <= 13000000) by (rabs; lra).
  destruct (avg_f ms (est_of (b3 - a3)) v w V FW) as (v' & FV & EV); [unfold top; rabs; lra|unfold top; rabs; lra|].
  destruct (mul_f (lit 7 2) (est_of (b3 - a3)) (7 / 2) w fin_7_2 FW) as (half & FH & EH); [unfold top; rabs; lra|].
  assert (HB : 0 <= half <= 4294967296) by (unfold eps in *; rabs; lra).
  destruct (sub_f (of_Z b3) _ (IZR b3) half (fin_of_Z b3 ltac:(lia)) (fin_1_mul _ _ FH HB)) as (r & FR & ER); [unfold top; rabs; lra|unfold top, eps in *; rabs; lra|].
  exists b3, (est_of (b3 - a3)), (fdiv (fadd ms (est_of (b3 - a3))) (of_Z 2)), v', half, r. unfold eps in *.
  split; [lia|]. split; [exact R|]. split; [exact FV|].
  split.
  { assert (W : Rabs (w - M) <= (2 * d + 1) / 7 + / 1048576) by (clear - EW A3 B3; rabs; lra). clear - EV W. rabs; lra. }
  split; [exact FH|]. split; [exact FR|]. clear - EW EH ER A3 B3 LR. repeat split; rabs; lra.
Qed.

Notation big := (big_cs c s). Notation small := (small_cs c s).
Lemma column_refined p x y ms v M ka la : fin (px p) x -> fin (py p) y -> 0 <= x <= 67108864 -> 0 <= y <= 67108864 -> fin ms v ->
  big * M = m -> mode ka la -> (la = 0 -> small <= big / 2) ->
  let z := Rabs (x - ax) + / 2 in let d := la * z in let o := Rabs (y - ay) + ka * z in
  5 / 2 * z <= 7 / 5 * M -> 16 * (2 * d + 1) <= 7 * M -> o + 5 * Rabs (v - M) + d + 2 <= 3 / 2 * M -> o + 11 * Rabs (v - M) + d + 2 <= 7 / 4 * M ->
  7 * (Rabs (v - M) + (2 * d + 1) / 7 + eps) <= M ->
  exists f x' y' v', refine_vertical g p ms = Ok (Some f) /\ let q := fst (adjust f (of_Z 0) (of_Z 1)) in let ms' := snd (adjust f (of_Z 0) (of_Z 1)) in
    fin (px q) x' /\ fin (py q) y' /\ fin ms' v' /\ 0 <= x' <= 67108864 /\ 0 <= y' <= 67108864 /\ Rabs (x' - x) <= / 2 /\
    ay - ka * z - d - / 1000 <= y' <= ay + ka * z + d + 1 + / 1000 /\ Rabs (v' - M) <= (Rabs (v - M) + (2 * d + 1) / 7) / 2 + / 1000.
Proof.
  intros FX FY BX BY FM EM MO GD z d o H0 H1 H2 H3 H4.
  pose proof (big_small g m c s ax ay HD) as (B0 & B1 & _).
  destruct (round_f _ _ FX ltac:(unfold top; lra)) as [R0 R1]. unfold refine_vertical. set (X := round_u32 (px p)) in *.
  assert (ZZ : Rabs (IZR X - ax) <= z) by (unfold z; clear - R1; rabs; lra).
  assert (LA : 0 <= la <= 1 /\ 0 <= ka <= / 2) by (destruct MO as [[-> ->]|[-> ->]]; lra).
  destruct (meets_column g m c s ax ay HD X ka la MO) as (tau & HM & HT).
  { intros L. split; [now apply GD|]. rewrite <- EM. apply Rle_trans with (big * (5 / 2 * z)).
    - apply Rle_trans with (big * (5 / 2 * Rabs (IZR X - ax))); [right; ring|]. apply Rmult_le_compat_l; lra.
    - replace (7 / 5 * (big * M)) with (big * (7 / 5 * M)) by ring. apply Rmult_le_compat_l; lra. }
  assert (KZ : ka * Rabs (IZR X - ax) <= ka * z) by (apply Rmult_le_compat_l; lra).
  set (d1 := la * Rabs (IZR X - ax)) in *. assert (DD : 0 <= d1 <= d) by (unfold d1, d; split; [apply Rmult_le_pos; [lra|apply Rabs_pos]|apply Rmult_le_compat_l; lra]).
  assert (OO : Rabs (y - tau) <= o) by (unfold o; clear - HT KZ; rabs; lra).
  destruct (line_adjusted (fun y => (X, y)) big tau d1 M (py p) y ms v (gh g) HM EM ltac:(lra) FY BY FM WY) as (b & e & ms' & v' & half & r & LB & R & F1 & E1 & F2 & F3 & E2 & E3).
  - intros t. cbn [fst snd]. assert (0 <= X < gw g)%Z; [|tauto]. split; [exact R0|].
    destruct (crosses_pattern g m c s ax ay WF HD _ _ tau d1 M HM EM ltac:(lra)) as (a4 & a3 & a2 & a1 & b1 & b2 & b3 & CR).
    destruct CR as [A4 A3 A2 A1 B1' B2 B3 _ _ _ _ _ _ _ IN]. cbn [fst snd] in IN. apply (IN a3). split; [lia|]. enough (a3 <= b3)%Z by lia. apply le_IZR. lra.
  - lra.
  - lra.
  - lra.
  - cbn [fst snd] in *. eexists. exists (IZR X), r, v'. split; [exact R|]. cbn [adjust fst snd px py fp_location fp_module_size fp_last].
    assert (X1 : (X <= 67108864)%Z) by (apply Z.lt_succ_r, lt_IZR; unfold Z.succ; rewrite plus_IZR; clear - R1 BX; rabs; lra).
    split; [apply (fin_0_sub X _ half); [exact F2|unfold u32_max; lia]|]. split; [exact F3|]. split; [exact F1|].
    split; [split; apply IZR_le; lia|]. split; [exact E3|]. split; [exact R1|].
    split; [|lra]. assert (- (ka * z) <= tau - ay <= ka * z) by (clear - HT KZ; rabs; lra). lra.
Qed.

Lemma row_refined p x y ms v M ka la : fin (py p) y -> fin (px p) x -> 0 <= y <= 67108864 -> 0 <= x <= 67108864 -> fin ms v ->
  big * M = m -> mode ka la -> (la = 0 -> small <= big / 2) ->
  let z := Rabs (y - ay) + / 2 in let d := la * z in let o := Rabs (x - ax) + ka * z in
  5 / 2 * z <= 7 / 5 * M -> 16 * (2 * d + 1) <= 7 * M -> o + 5 * Rabs (v - M) + d + 2 <= 3 / 2 * M -> o + 11 * Rabs (v - M) + d + 2 <= 7 / 4 * M ->
  7 * (Rabs (v - M) + (2 * d + 1) / 7 + eps) <= M ->
  exists f y' x' v', refine_horizontal g p ms = Ok (Some f) /\ let q := fst (adjust f (of_Z 1) (of_Z 0)) in let ms' := snd (adjust f (of_Z 1) (of_Z 0)) in
    fin (py q) y' /\ fin (px q) x' /\ fin ms' v' /\ 0 <= y' <= 67108864 /\ 0 <= x' <= 67108864 /\ Rabs (y' - y) <= / 2 /\
    ax - ka * z - d - / 1000 <= x' <= ax + ka * z + d + 1 + / 1000 /\ Rabs (v' - M) <= (Rabs (v - M) + (2 * d + 1) / 7) / 2 + / 1000.
Proof.
  intros FY FX BY BX FM EM MO GD z d o H0 H1 H2 H3 H4.
  pose proof (big_small g m c s ax ay HD) as (B0 & B1 & _).
  destruct (round_f _ _ FY ltac:(unfold top; lra)) as [R0 R1]. unfold refine_horizontal. set (X := round_u32 (py p)) in *.
  assert (ZZ : Rabs (IZR X - ay) <= z) by (unfold z; clear - R1; rabs; lra).
  assert (LA : 0 <= la <= 1 /\ 0 <= ka <= / 2) by (destruct MO as [[-> ->]|[-> ->]]; lra).
  destruct (meets_row g m c s ax ay HD X ka la MO) as (tau & HM & HT).
  { intros L. split; [now apply GD|]. rewrite <- EM. apply Rle_trans with (big * (5 / 2 * z)).
    - apply Rle_trans with (big * (5 / 2 * Rabs (IZR X - ay))); [right; ring|]. apply Rmult_le_compat_l; lra.
    - replace (7 / 5 * (big * M)) with (big * (7 / 5 * M)) by ring. apply Rmult_le_compat_l; lra. }
  assert (KZ : ka * Rabs (IZR X - ay) <= ka * z) by (apply Rmult_le_compat_l; lra).
  set (d1 := la * Rabs (IZR X - ay)) in *. assert (DD : 0 <= d1 <= d) by (unfold d1, d; split; [apply Rmult_le_pos; [lra|apply Rabs_pos]|apply Rmult_le_compat_l; lra]).
  assert (OO : Rabs (x - tau) <= o) by (unfold o; clear - HT KZ; rabs; lra).
  destruct (line_adjusted (fun x => (x, X)) big tau d1 M (px p) x ms v (gw g) HM EM ltac:(lra) FX BX FM WX) as (b & e & ms' & v' & half & r & LB & R & F1 & E1 & F2 & F3 & E2 & E3).
  - intros t. cbn [fst snd]. assert (0 <= X < gh g)%Z; [|tauto]. split; [exact R0|].
    destruct (crosses_pattern g m c s ax ay WF HD _ _ tau d1 M HM EM ltac:(lra)) as (a4 & a3 & a2 & a1 & b1 & b2 & b3 & CR).
    destruct CR as [A4 A3 A2 A1 B1' B2 B3 _ _ _ _ _ _ _ IN]. cbn [fst snd] in IN. apply (IN a3). split; [lia|]. enough (a3 <= b3)%Z by lia. apply le_IZR. lra.
  - lra.
  - lra.
  - lra.
  - cbn [fst snd] in *. eexists. exists (IZR X), r, v'. split; [exact R|]. cbn [adjust fst snd py px fp_location fp_module_size fp_last].
    assert (X1 : (X <= 67108864)%Z) by (apply Z.lt_succ_r, lt_IZR; unfold Z.succ; rewrite plus_IZR; clear - R1 BY; rabs; lra).
    split; [apply (fin_0_sub X _ half); [exact F2|unfold u32_max; lia]|]. split; [exact F3|]. split; [exact F1|].
    split; [split; apply IZR_le; lia|]. split; [exact E3|]. split; [exact R1|].
    split; [|lra]. assert (- (ka * z) <= tau - ax <= ka * z) by (clear - HT KZ; rabs; lra). lra.
Qed.

(** *** the diagonal *)
Lemma diagonal_refined p X Y ms v M Md ka la : fin (px p) X -> fin (py p) Y -> 0 <= X <= 67108864 -> 0 <= Y <= 67108864 -> fin ms v ->
  big * M = m -> (big + small) * Md = m -> mode ka la -> (la = 0 -> big <= 2 * small) ->
  let z := (Rabs ((X - ax) - (Y - ay)) + 17 / 16) / 2 in let d := la * z in let o := Rabs (X - ax) + Rabs (Y - ay) in
  16 * (2 * d + 1) <= 7 * Md -> 5 / 2 * z <= 7 / 5 * Md -> 5 * v + o + z + 3 + 11 * (2 * d + 1) <= 27 / 2 * Md ->
  7 / 2 * Md + o + d + 2 * z + 3 <= 5 * v -> v <= 12000000 ->
  exists f, refine_diagonal g p ms = Ok (Some f).
Proof.
  intros FX FY BX BY FM EM EMd MO GD z d o H1 H2 H3 H4 VB.
  pose proof (big_small g m c s ax ay HD) as (B0 & B1 & _). pose proof (m_pos g m c s ax ay HD) as MP.
  assert (Z0 : 17 / 32 <= z) by (unfold z; pose proof (Rabs_pos ((X - ax) - (Y - ay))); lra).
  assert (LA : 0 <= la <= 1 /\ 0 <= ka <= / 2) by (destruct MO as [[-> ->]|[-> ->]]; lra).
  assert (D0 : 0 <= d) by (unfold d; apply Rmult_le_pos; lra).
  assert (O0 : 0 <= o) by (unfold o; pose proof (Rabs_pos (X - ax)); pose proof (Rabs_pos (Y - ay)); lra).
  assert (V1 : 1 <= v) by lra.
  destruct (diag_start p X Y ms v FX FY ltac:(unfold top; lra) ltac:(unfold top; lra) FM ltac:(unfold top; lra)) as (q & QB & RX & RY & EX & EY & QE).
  unfold refine_diagonal. destruct (diagonal_start p (fmul (of_Z 5) ms)) as [sx sy]. cbn [fst snd] in *.
  set (rx := round_u32 sx) in *. set (ry := round_u32 sy) in *.
  pose proof (path_end (px p) X ms v FX FM ltac:(unfold top; lra) ltac:(unfold top; lra)) as TX.
  pose proof (path_end (py p) Y ms v FY FM ltac:(unfold top; lra) ltac:(unfold top; lra)) as TY.
  set (ex := round_u32 (fadd (px p) _)) in *. set (ey := round_u32 (fadd (py p) _)) in *.
  set (z1 := ((IZR rx - ax) - (IZR ry - ay)) / 2).
  assert (ZZ : Rabs z1 <= z) by (unfold z1, z; clear - EX EY; rabs; lra).
  destruct (meets_diagonal g m c s ax ay HD rx ry ka la MO) as (tau & HM & HT).
  { intros L. split; [now apply GD|]. fold z1. rewrite <- EMd. apply Rle_trans with ((big + small) * (5 / 2 * z)).
    - apply Rle_trans with ((big + small) * (5 / 2 * Rabs z1)); [right; ring|]. apply Rmult_le_compat_l; lra.
    - replace (7 / 5 * ((big + small) * Md)) with ((big + small) * (7 / 5 * Md)) by ring. apply Rmult_le_compat_l; lra. }
  fold z1 in HM, HT.
  set (d1 := la * Rabs z1) in *. assert (DD : 0 <= d1 <= d) by (unfold d1, d; split; [apply Rmult_le_pos; [lra|apply Rabs_pos]|apply Rmult_le_compat_l; lra]).
  assert (HT' : Rabs (tau - ((ax - IZR rx) + (ay - IZR ry)) / 2) <= z).
  { apply Rle_trans with (1 := HT). apply Rle_trans with (1 * Rabs z1); [apply Rmult_le_compat_r; [apply Rabs_pos|lra]|lra]. }
  destruct (crosses_pattern g m c s ax ay WF HD _ _ tau d1 Md HM EMd ltac:(lra)) as (a4 & a3 & a2 & a1 & b1 & b2 & b3 & CR).
  pose proof CR as [A4 A3 A2 A1 B1' B2 B3 _ _ _ _ _ _ _ IN]. cbn [fst snd] in IN.
  assert (L : (a3 < b3)%Z) by (apply lt_IZR; lra).
  pose proof (IN (a3 - 1)%Z ltac:(lia)) as I1. pose proof (IN b3 ltac:(lia)) as I2.
  assert (OX : Rabs (X - ax) <= o /\ Rabs (Y - ay) <= o) by (unfold o; pose proof (Rabs_pos (X - ax)); pose proof (Rabs_pos (Y - ay)); lra).
  assert (OO : - o <= (X - ax) + (Y - ay) <= o) by (unfold o; clear; rabs; lra).
  assert (S1 : (0 < a3)%Z).
  { destruct QE as [QE|[E|E]]; [|rewrite E in I1; lia|rewrite E in I1; lia]. apply lt_IZR.
    assert (- z <= tau - ((ax - IZR rx) + (ay - IZR ry)) / 2) by (clear - HT'; rabs; lra).
    assert (IZR rx <= X - q + 17 / 32 /\ IZR ry <= Y - q + 17 / 32) by (clear - EX EY; rabs; lra). lra. }
  rewrite (combine_zrange _ _ _ _ 0). 
  assert (HE : forall t, (rx - 0 + t, ry - 0 + t)%Z = (rx + t, ry + t)%Z) by (intros t; f_equal; lia).
  rewrite (map_ext _ _ HE). set (e := (0 + Z.min (Z.min ex (gw g) - rx) (Z.min ey (gh g) - ry))%Z).
  assert (E1 : (b3 < e)%Z).
  { assert (z1x : IZR rx + ((ax - IZR rx) + (ay - IZR ry)) / 2 = ax + z1) by (unfold z1; field). assert (z1y : IZR ry + ((ax - IZR rx) + (ay - IZR ry)) / 2 = ay - z1) by (unfold z1; field).
    assert (- z <= z1 <= z) by (clear - ZZ; rabs; lra). assert (tau - ((ax - IZR rx) + (ay - IZR ry)) / 2 <= z) by (clear - HT'; rabs; lra).
    assert (XA : ax - o <= X /\ ay - o <= Y) by (clear - OX; rabs; lra).
    assert (G1 : (rx + b3 < ex)%Z) by (apply lt_IZR; rewrite plus_IZR; assert (X + 5 * v - 17 / 32 <= IZR ex) by (clear - TX; rabs; lra); lra).
    assert (G2 : (ry + b3 < ey)%Z) by (apply lt_IZR; rewrite plus_IZR; assert (Y + 5 * v - 17 / 32 <= IZR ey) by (clear - TY; rabs; lra); lra).
    unfold e. lia. }
  destruct (crossed_right g _ tau Md d1 a4 a3 a2 a1 b1 b2 b3 0 e CR) as [BO AR]; [lra|lra|lia|exact E1| |].
  { assert (tau - ((ax - IZR rx) + (ay - IZR ry)) / 2 <= z) by (clear - HT'; rabs; lra).
    assert (X - q - 17 / 32 <= IZR rx /\ Y - q - 17 / 32 <= IZR ry) by (clear - EX EY; rabs; lra). change (IZR 0) with 0. lra. }
  assert (RD : forall t, (0 <= t < e)%Z -> exists v, get_pixel g (rx + t) (ry + t) = Ok v).
  { intros t Ht. eexists. apply get_pixel_pix; [exact WF|unfold e in Ht; lia|unfold e in Ht; lia]. }
  destruct (crossing g ms true (fun t => (rx + t, ry + t)%Z) 0 e ltac:(lia) ltac:(unfold e; lia) RD a4 a3 a2 a1 b1 b2 b3 BO AR) as [[_ R]|R].
  - now left.
  - apply orb_true_r.
  - exact R.
  - eexists. exact R.
Qed.
End Slant.
