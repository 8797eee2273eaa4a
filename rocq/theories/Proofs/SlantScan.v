(** The scan and the refinement find a finder pattern at any angle. *)
From Coq Require Import NArith ZArith Reals List Lia Lra Bool Arith Psatz.
From Verif.Model Require Import Prepare Detect.
From Flocq Require Import Core.
From Verif.Spec Require Import Window Finder Drawing Angle Slant.
From Verif.Proofs Require Import BaseP PrepareP FloatP ApproxP DetectP ExtractP AlignP RefineP RefineF ScanP CrossP CrossScan SlantP SlantF.
Import ListNotations.
Local Open Scope R_scope.

Section Slant.
Context (g : gray) (m c s ax ay : R) (WF : wf_gray g) (HD : finder_at_angle (pixel g) m c s ax ay) (SIZE : 18 <= m).
Context (WX : (gw g <= 2 ^ 26)%Z) (WY : (gh g <= 2 ^ 26)%Z).
Notation big := (big_cs c s). Notation small := (small_cs c s).
Notation M := (m / big). Notation Md := (m / (big + small)).

Lemma sizes : big * M = m /\ (big + small) * Md = m /\ 0 < big.
Proof. destruct (big_small g m c s ax ay HD) as (B0 & B1 & _). split; [field; lra|]. split; [field; lra|exact B0]. Qed.

(** nearly upright *)
Lemma upright : small <= big / 2 -> 18 <= M /\ 40 / 3 <= Md <= M /\ M <= 3 / 2 * Md.
Proof.
  intros H. destruct sizes as (E1 & E2 & B0). destruct (big_small g m c s ax ay HD) as (_ & B1 & U).
  assert (L1 : big <= 1) by nra. assert (L2 : big + small <= 27 / 20) by nra.
  assert (MP : 0 < M) by (apply Rdiv_lt_0_compat; lra). assert (MD : 0 < Md) by (apply Rdiv_lt_0_compat; lra).
  repeat split; nra.
Qed.
(** nearer to the diagonal *)
Lemma aslant : big / 2 < small -> 20 <= M /\ 126 / 10 <= Md /\ 3 / 2 * Md <= M <= 2 * Md.
Proof.
  intros H. destruct sizes as (E1 & E2 & B0). destruct (big_small g m c s ax ay HD) as (_ & B1 & U).
  assert (L1 : big <= 9 / 10) by nra. assert (L2 : big + small <= 71 / 50) by nra.
  assert (MP : 0 < M) by (apply Rdiv_lt_0_compat; lra). assert (MD : 0 < Md) by (apply Rdiv_lt_0_compat; lra).
  repeat split; nra.
Qed.

(** all three refinements succeed *)
Lemma slant_refined p x y ms v : fin (px p) x -> fin (py p) y -> 0 <= x <= 67108864 -> 0 <= y <= 67108864 -> fin ms v -> M <= 11000000 ->
  Rabs (y - ay) <= / 2 ->
  (small <= big / 2 -> - (/ 4 + / 1000) <= x - ax <= 5 / 4 + / 1000 /\ Rabs (v - M) <= / 7 + / 1000) ->
  (big / 2 < small -> - (/ 2 + / 1000) <= x - ax <= 3 / 2 + / 1000 /\ Rabs (v - M) <= 2 / 7 + / 1000) ->
  exists q ms' x' y' v', refine_all g p ms = Ok (Some (q, ms')) /\ fin (px q) x' /\ fin (py q) y' /\ fin ms' v' /\
    Rabs (x' - ax) <= 23 / 5 /\ Rabs (y' - ay) <= 18 / 5 /\ Rabs (v' - M) <= 5 / 6.
Proof.
  intros FX FY BX BY FM MB HY H1 H2. destruct sizes as (E1 & E2 & _). unfold refine_all.
  destruct (Rle_lt_dec small (big / 2)) as [L|L].
  - destruct (upright L) as (M1 & M2 & M3). destruct (H1 L) as [X1 V1]. clear H1 H2. unfold eps in *.
    assert (MO : mode (/ 2) 0) by (left; auto). assert (MD : mode 0 1) by (right; auto).
    assert (X2 : Rabs (x - ax) <= 5 / 4 + / 1000) by (apply Rabs_le; lra).
    destruct (column_refined g m c s ax ay WF HD WY p x y ms v M (/ 2) 0 FX FY BX BY FM E1 MO (fun _ => L)) as (f1 & x1 & y1 & v1 & R1 & Q1); [unfold eps; lra..|].
    rewrite R1. cbn [bind]. destruct (adjust f1 (of_Z 0) (of_Z 1)) as [p1 ms1]. cbn [fst snd] in Q1. destruct Q1 as (FX1 & FY1 & FM1 & BX1 & BY1 & PX1 & PY1 & PV1).
    assert (Y2 : Rabs (y1 - ay) <= 15 / 8 + / 300) by (apply Rabs_le; lra).
    assert (X3 : - (3 / 4 + / 1000) <= x1 - ax <= 7 / 4 + / 1000) by (clear - PX1 X1; rabs; lra).
    assert (X4 : Rabs (x1 - ax) <= 7 / 4 + / 1000) by (apply Rabs_le; lra).
    destruct (row_refined g m c s ax ay WF HD WX p1 x1 y1 ms1 v1 M (/ 2) 0 FY1 FX1 BY1 BX1 FM1 E1 MO (fun _ => L)) as (f2 & y2 & x2 & v2 & R2 & Q2); [unfold eps; lra..|].
    rewrite R2. cbn [bind]. destruct (adjust f2 (of_Z 1) (of_Z 0)) as [p2 ms2]. cbn [fst snd] in Q2. destruct Q2 as (FY2 & FX2 & FM2 & BY2 & BX2 & PY2 & PX2 & PV2).
    assert (Y3 : - (11 / 8 + / 100) <= y2 - ay <= 19 / 8 + / 100) by (assert (- (7 / 8 + / 200) <= y1 - ay <= 15 / 8 + / 200) by lra; clear - PY2 H; rabs; lra).
    assert (X5 : - (19 / 16 + / 100) <= x2 - ax <= 35 / 16 + / 100) by lra.
    assert (V2 : Rabs (v2 - M) <= 3 / 20) by lra.
    assert (V3 : M - 3 / 20 <= v2 <= M + 3 / 20) by (clear - V2; rabs; lra).
    assert (D1 : Rabs ((x2 - ax) - (y2 - ay)) <= 57 / 16 + / 50) by (apply Rabs_le; lra).
    assert (O1 : Rabs (x2 - ax) <= 35 / 16 + / 100) by (apply Rabs_le; lra). assert (O2 : Rabs (y2 - ay) <= 19 / 8 + / 100) by (apply Rabs_le; lra).
    destruct (diagonal_refined g m c s ax ay WF HD WX WY p2 x2 y2 ms2 v2 M Md 0 1 FX2 FY2 BX2 BY2 FM2 E1 E2 MD) as (f3 & R3); [lra..|].
    rewrite R3. cbn [bind]. exists p2, ms2, x2, y2, v2. repeat split; try assumption; lra.
  - destruct (aslant L) as (M1 & M2 & M3). destruct (H2 L) as [X1 V1]. clear H1 H2.
    assert (MO : mode 0 1) by (right; auto). assert (MD : mode (/ 2) 0) by (left; auto).
    assert (X2 : Rabs (x - ax) <= 3 / 2 + / 1000) by (apply Rabs_le; lra).
    destruct (column_refined g m c s ax ay WF HD WY p x y ms v M 0 1 FX FY BX BY FM E1 MO ltac:(lra)) as (f1 & x1 & y1 & v1 & R1 & Q1); [unfold eps; lra..|].
    rewrite R1. cbn [bind]. destruct (adjust f1 (of_Z 0) (of_Z 1)) as [p1 ms1]. cbn [fst snd] in Q1. destruct Q1 as (FX1 & FY1 & FM1 & BX1 & BY1 & PX1 & PY1 & PV1).
    assert (Y2 : Rabs (y1 - ay) <= 3 + / 300) by (apply Rabs_le; lra).
    assert (X3 : - (1 + / 1000) <= x1 - ax <= 2 + / 1000) by (clear - PX1 X1; rabs; lra).
    assert (X4 : Rabs (x1 - ax) <= 2 + / 1000) by (apply Rabs_le; lra).
    destruct (row_refined g m c s ax ay WF HD WX p1 x1 y1 ms1 v1 M 0 1 FY1 FX1 BY1 BX1 FM1 E1 MO ltac:(lra)) as (f2 & y2 & x2 & v2 & R2 & Q2); [unfold eps; lra..|].
    rewrite R2. cbn [bind]. destruct (adjust f2 (of_Z 1) (of_Z 0)) as [p2 ms2]. cbn [fst snd] in Q2. destruct Q2 as (FY2 & FX2 & FM2 & BY2 & BX2 & PY2 & PX2 & PV2).
    assert (Y3 : - (5 / 2 + / 100) <= y2 - ay <= 7 / 2 + / 100) by (assert (- (2 + / 200) <= y1 - ay <= 3 + / 200) by lra; clear - PY2 H; rabs; lra).
    assert (X5 : - (7 / 2 + / 100) <= x2 - ax <= 9 / 2 + / 100) by lra.
    assert (V2 : Rabs (v2 - M) <= 5 / 6) by lra.
    assert (V3 : M - 5 / 6 <= v2 <= M + 5 / 6) by (clear - V2; rabs; lra).
    assert (D1 : Rabs ((x2 - ax) - (y2 - ay)) <= 7 + / 50) by (apply Rabs_le; lra).
    assert (O1 : Rabs (x2 - ax) <= 9 / 2 + / 100) by (apply Rabs_le; lra). assert (O2 : Rabs (y2 - ay) <= 7 / 2 + / 100) by (apply Rabs_le; lra).
    destruct (diagonal_refined g m c s ax ay WF HD WX WY p2 x2 y2 ms2 v2 M Md (/ 2) 0 FX2 FY2 BX2 BY2 FM2 E1 E2 MD) as (f3 & R3); [lra..|].
    rewrite R3. cbn [bind]. exists p2, ms2, x2, y2, v2. repeat split; try assumption; lra.
Qed.

(** the row through the middle *)
Lemma row_crossed y : Rabs (IZR y - ay) <= / 2 ->
  exists tau d a4 a3 a2 a1 b1 b2 b3, crossed g (fun x => (x, y)) tau M d a4 a3 a2 a1 b1 b2 b3 /\ 0 <= d /\ 16 * (2 * d + 1) <= 7 * M /\ 18 <= M /\
    Rabs (tau - ax) + d <= / 2 /\ (small <= big / 2 -> Rabs (tau - ax) <= / 4 /\ d = 0) /\ (big / 2 < small -> tau = ax).
Proof.
  intros HY. destruct sizes as (E1 & E2 & B0). pose proof (Rabs_pos (IZR y - ay)) as P.
  assert (KEY : exists tau d, meets m c s ax ay (fun x => (x, y)) big tau d /\ 0 <= d /\ 16 * (2 * d + 1) <= 7 * M /\ 18 <= M /\
    Rabs (tau - ax) + d <= / 2 /\ (small <= big / 2 -> Rabs (tau - ax) <= / 4 /\ d = 0) /\ (big / 2 < small -> tau = ax)).
  { destruct (Rle_lt_dec small (big / 2)) as [L|L].
    - destruct (upright L) as (M1 & M2 & M3). destruct (meets_row g m c s ax ay HD y (/ 2) 0 (or_introl (conj eq_refl eq_refl))) as (tau & HM & HT).
      { intros _. split; [exact L|]. rewrite <- E1 at 1. replace (7 / 5 * (big * M)) with (big * (7 / 5 * M)) by ring. replace (5 / 2 * (big * Rabs (IZR y - ay))) with (big * (5 / 2 * Rabs (IZR y - ay))) by ring.
        apply Rmult_le_compat_l; lra. }
      exists tau, 0. rewrite Rmult_0_l in HM. split; [exact HM|]. split; [lra|]. split; [lra|]. split; [lra|]. split; [lra|]. split; [intros _; split; lra|lra].
    - destruct (aslant L) as (M1 & M2 & M3). destruct (meets_row g m c s ax ay HD y 0 1 (or_intror (conj eq_refl eq_refl)) ltac:(lra)) as (tau & HM & HT).
      exists tau, (Rabs (IZR y - ay)). rewrite Rmult_1_l in HM. assert (T : tau = ax) by (clear - HT P; rabs; lra). rewrite T in *. rewrite (Rminus_diag_eq ax ax eq_refl), Rabs_R0.
      split; [exact HM|]. split; [lra|]. split; [lra|]. split; [lra|]. split; [lra|]. split; lra. }
  destruct KEY as (tau & d & HM & D0 & HK & HM18 & H1 & H2 & H3).
  destruct (crosses_pattern g m c s ax ay WF HD _ _ tau d M HM E1 HK) as (a4 & a3 & a2 & a1 & b1 & b2 & b3 & CR).
  exists tau, d, a4, a3, a2, a1, b1, b2, b3. auto 10.
Qed.

Local Open Scope Z_scope.
Theorem slant_scanned y e cs : (Rabs (IZR y - ay) <= / 2)%R -> (ax - 2 * M <= IZR e)%R -> steady (fun x => pix g x y) e -> find_candidates g = Ok cs ->
  exists c, In c cs /\ exists x' y', fin (px (fp_location c)) x' /\ fin (py (fp_location c)) y' /\
    ((Rabs (x' - ax) <= 23 / 5 /\ Rabs (y' - ay) <= 18 / 5 /\ exists v', fin (fp_module_size c) v' /\ Rabs (v' - M) <= 5 / 6)%R \/
     exists p x0 y0 ms v, fin (px p) x0 /\ fin (py p) y0 /\ fin ms v /\ (Rabs (x0 - ax) <= 8 / 5 /\ Rabs (y0 - ay) <= / 2 /\ Rabs (v - M) <= 1 / 3 /\ 0 <= x0 <= 67108864 /\ 0 <= y0 <= 67108864 /\ 0 <= v <= 11000001)%R /\
       flt (dist p (fp_location c)) (fmul (of_Z 7) ms) = true).
Proof.
  intros HY HE ST. destruct (row_crossed y HY) as (tau & d & a4 & a3 & a2 & a1 & b1 & b2 & b3 & CR & D0 & HK & HM & K1 & K2 & K3).
  destruct (crossed_right g _ tau M d a4 a3 a2 a1 b1 b2 b3 (a3 - 1) (b3 + 1) CR D0 HK ltac:(lia) ltac:(lia)) as [BO AR].
  { destruct CR as [A4 A3 A2 A1 B1 B2 B3 _ _ _ _ _ _ _ _]. rewrite minus_IZR. lra. }
  destruct CR as [A4 A3 A2 A1 B1 B2 B3 S4 S3 S2 S1 T1 T2 T3 IN]. cbn [fst snd] in IN.
  destruct AR as (_ & L1 & L2 & L3 & _ & _ & _ & R1 & R2 & R3 & R4 & _ & _ & FR & F3).
  pose proof (IN (a3 - 1) ltac:(lia)) as I1. pose proof (IN b3 ltac:(lia)) as I2.
  assert (MB : (M <= 11000000)%R).
  { assert (IZR b3 - IZR a3 <= 67108864)%R; [|lra]. rewrite <- minus_IZR. apply IZR_le. lia. }
  intros HALL. pose proof HALL as H. unfold find_candidates in H. rewrite enumerate_pix, foldM_map in H by exact WF. unfold coords in H. rewrite <- foldM_flat_map in H.
  rewrite (zrange_app 0 y (gh g)) in H by lia. rewrite (zrange_cons y (gh g)) in H by lia. rewrite foldM_app in H.
  apply bind_ok in H as (sf & H & HC). injection HC as <-. apply bind_ok in H as (s0 & _ & H). cbn [foldM] in H.
  apply bind_ok in H as (s3 & H & HREST). rewrite foldM_map in H.
  assert (INC : incl (sc_candidates s3) (sc_candidates sf)).
  { revert HREST. apply foldM_incl. intros s' x s''. apply foldM_incl. intros ? ? ? E. eapply scan_pixel_incl, E. }
  clear HREST.
  apply (row_split g y 0 b3) in H as (s1 & E1 & H); [|lia].
  apply (row_split g y _ (b3 + 1)) in H as (s2 & E2 & H); [|lia]. apply row_incl in H. apply row_one in E2.
  assert (PX : forall x v, a3 - 1 <= x <= b3 -> get_pixel g x y = Ok v -> pix g x y = v).
  { intros u v Hu E. rewrite get_pixel_pix in E by (try exact WF; pose proof (IN u Hu); lia). now injection E. }
  assert (EA : a2 <= e) by (apply le_IZR; assert (tau - ax <= / 2)%R by (clear - K1 D0; rabs; lra); lra).
  assert (ST2 : steady (fun x => pix g x y) a2) by (intros a b d' HA HB; apply ST; lia).
  apply (scan_cross g y a3 a2 a1 b1 b2 b3) in E1 as (cs1 & q0 & q1 & -> & Q0 & Q1); try lia; try exact ST2.
  2:{ apply PX; [lia|]. apply (S4 (a3 - 1)). lia. } 2:{ intros t Ht. apply PX; [lia|]. now apply (S3 t). } 2:{ intros t Ht. apply PX; [lia|]. now apply (S2 t). }
  2:{ intros t Ht. apply PX; [lia|]. now apply (S1 t). } 2:{ intros t Ht. apply PX; [lia|]. now apply (T1 t). } 2:{ intros t Ht. apply PX; [lia|]. now apply (T2 t). }
  assert (W : pix g b3 y = 255%N) by (apply PX; [lia|]; apply (T3 b3); lia).
  rewrite W in E2. unfold scan_pixel in E2. destruct (Z.eqb_spec b3 0); [lia|]. cbn [sc_last sc_pattern] in E2. change (255 =? 0)%N with false in E2. cbn [bind andb sc_candidates] in E2.
  set (pat := Pat q0 q1 _ _ _ _ _) in *.
  assert (PO : pat_ok 300000000 pat).
  { apply pat_small; unfold pat; cbn [p0 p1 p2 p3 p4 p5 p6]; try lia. unfold pat_sum. cbn [p0 p1 p2 p3 p4 p5 p6]. lia. }
  assert (U : 300000000 <= u32_max) by (unfold u32_max; lia).
  destruct (looks_like_finder_exact _ _ PO U) as (b & EB & _ & B1'). rewrite EB in E2. cbn [bind] in E2. rewrite B1' in E2.
  2:{ exact FR. }
  2:{ unfold pat_total, pat. cbn [p2 p3 p4 p5 p6]. lia. }
  apply bind_ok in E2 as (cs2 & E2 & ES). apply bind_ok in ES as (p' & _ & ES). injection ES as <-. cbn [sc_candidates] in H.
  assert (IN2 : forall c, In c cs2 -> In c (sc_candidates sf)) by (intros c' Hc; apply INC, H, Hc).
  unfold scan_found in E2. rewrite (est_ok _ _ PO U) in E2. cbn [bind] in E2. unfold pat_total, pat in E2. cbn [p2 p3 p4 p5 p6] in E2.
  replace (a2 - a3 + (a1 - a2) + (b1 - a1) + (b2 - b1) + (b3 - b2)) with (b3 - a3) in E2 by lia.
  destruct (est_f (b3 - a3) ltac:(lia)) as (v & FV & EV). rewrite minus_IZR in EV. unfold eps in EV.
  destruct (mul_f (est_of (b3 - a3)) (lit 7 2) v (7 / 2) FV fin_7_2) as (half & FH & EH).
  { unfold top. assert (IZR a3 <= IZR b3 <= 67108864)%R by (split; apply IZR_le; lia). assert (0 <= IZR a3)%R by (apply IZR_le; lia). rabs; lra. }
  assert (RG : (1 <= IZR a3 /\ IZR a3 + 1 <= IZR b3 /\ IZR b3 <= 67108864)%R) by (rewrite <- plus_IZR; repeat split; apply IZR_le; lia).
  unfold eps in EH. destruct (sub_f (of_Z b3) _ (IZR b3) half (fin_of_Z b3 ltac:(lia)) FH) as (x0 & FX & EX); [unfold top; rabs; lra..|]. unfold eps in EX.
  assert (X0 : (IZR a3 + IZR b3 - / 10000 <= 2 * x0 <= IZR a3 + IZR b3 + / 10000)%R) by (clear - EX EH EV; rabs; lra).
  assert (V0 : (Rabs (v - M) <= (2 * d + 1) / 7 + / 10000)%R) by (clear - EV A3 B3; rabs; lra).
  assert (FYY : fin (of_Z y) (IZR y)) by (apply fin_of_Z; lia).
  assert (RY : (0 <= IZR y <= 67108864)%R) by (split; apply IZR_le; lia).
  assert (D1 : (d <= / 2)%R) by (pose proof (Rabs_pos (tau - ax)); lra).
  set (p := Pt _ _) in E2.
  destruct (existsb _ cs1) eqn:EX1.
  - injection E2 as <-. apply existsb_exists in EX1 as (c' & Hc & N). exists c'. split; [now apply IN2|].
    destruct (find_candidates_ok g WF) as (cs' & E' & HC). rewrite HALL in E'. injection E' as <-.
    unfold cands_ok in HC. rewrite Forall_forall in HC. destruct (HC c' (IN2 _ Hc)) as (_ & x & y' & X & Y & BX & BY).
    exists x, y'. split; [exact X|]. split; [exact Y|]. right. exists p, x0, (IZR y), (est_of (b3 - a3)), v.
    split; [exact FX|]. split; [exact FYY|]. split; [exact FV|]. split; [|exact N].
    assert (Rabs (x0 - ax) <= 8 / 5)%R by (clear - X0 K1 A3 B3 D0; rabs; lra).
    split; [assumption|]. split; [exact HY|]. split; [lra|]. split; [lra|]. split; [exact RY|]. clear - V0 MB HM D1. rabs; lra.
  - destruct (slant_refined p x0 (IZR y) (est_of (b3 - a3)) v FX FYY ltac:(lra) RY FV MB HY) as (q & ms' & x' & y' & v' & R & F1 & F2 & F3' & G1 & G2 & G3).
    + intros L. destruct (K2 L) as [KT ->]. split; [clear - KT X0 A3 B3; rabs; lra|lra].
    + intros L. rewrite (K3 L) in *. split; [lra|lra].
    + rewrite R in E2. cbn [bind] in E2. injection E2 as <-. exists (FP q ms' (of_Z 0)). split; [apply IN2, in_or_app; right; now left|].
      exists x', y'. cbn [fp_location fp_module_size]. split; [exact F1|]. split; [exact F2|]. left. split; [exact G1|]. split; [exact G2|]. now exists v'.
Qed.
End Slant.
