(** The scan and the refinement find an upright finder pattern of any size. *)
From Coq Require Import NArith ZArith Reals List Lia Lra Bool Arith Psatz.
From Verif.Model Require Import Prepare Detect.
From Flocq Require Import Core.
From Verif.Spec Require Import Window Finder Drawing Angle Slant.
From Verif.Proofs Require Import BaseP PrepareP FloatP ApproxP DetectP ExtractP AlignP RefineP RefineF ScanP CrossP CrossScan SlantP SlantF StraightP.
Import ListNotations.
Local Open Scope R_scope.

Section Upright.
Context (g : gray) (m ax ay : R) (WF : wf_gray g) (HD : finder_at_angle (pixel g) m 1 0 ax ay).
Context (WX : (gw g <= 2 ^ 26)%Z) (WY : (gh g <= 2 ^ 26)%Z) (SIZE : 7 <= m).

Local Open Scope Z_scope.
(** [y] is the uppermost row of the inner square *)
Theorem straight_scanned y e cs : (ay - 3 / 2 * m <= IZR y <= ay - 3 / 2 * m + 1)%R -> (ax - 5 / 2 * m + 1 <= IZR e)%R -> steady (fun x => pix g x y) e -> find_candidates g = Ok cs ->
  exists c, In c cs /\ exists x' y', fin (px (fp_location c)) x' /\ fin (py (fp_location c)) y' /\
    ((- / 1000 <= x' - ax <= 1 + / 1000 /\ - 2.17 <= y' - ay <= 1.51 /\ exists v', fin (fp_module_size c) v' /\ Rabs (v' - m) <= / 5)%R \/
     exists p x0 ms v, fin (px p) x0 /\ fin (py p) (IZR y) /\ fin ms v /\ (- / 1000 <= x0 - ax <= 1 + / 1000 /\ Rabs (v - m) <= / 7 + / 1000 /\ 0 <= x0 <= 67108864 /\ 0 <= IZR y <= 67108864 /\ 0 <= v <= 10000001)%R /\
       flt (dist p (fp_location c)) (fmul (of_Z 7) ms) = true).
Proof.
  intros HY HE ST. destruct (row_pierced g m ax ay WF HD SIZE y ltac:(lra)) as (a4 & a3 & a2 & a1 & b1 & b2 & b3 & CR).
  destruct (pierced_right g m SIZE _ ax 0 a4 a3 a2 a1 b1 b2 b3 (a3 - 1) (b3 + 1) CR ltac:(lra) ltac:(lia) ltac:(lia)) as [BO AR].
  { destruct CR as [A4 A3 A2 A1 B1 B2 B3 _ _ _ _ _ _ _ _]. rewrite minus_IZR. lra. }
  destruct CR as [A4 A3 A2 A1 B1 B2 B3 S4 S3 S2 S1 T1 T2 T3 IN]. cbn [fst snd] in IN.
  destruct AR as (_ & L1 & L2 & L3 & _ & _ & _ & R1 & R2 & R3 & R4 & _ & _ & FR & F3).
  pose proof (IN (a3 - 1) ltac:(lia)) as I1. pose proof (IN b3 ltac:(lia)) as I2.
  assert (MB : (m <= 10000000)%R).
  { assert (IZR b3 - IZR a3 <= 67108864)%R; [|lra]. rewrite <- minus_IZR. apply IZR_le. lia. }
  intros HALL. pose proof HALL as H. unfold find_candidates in H. rewrite enumerate_pix, foldM_map in H by exact WF. unfold coords in H. rewrite <- foldM_flat_map in H.
  rewrite (zrange_app 0 y (gh g)) in H by lia. rewrite (zrange_cons y (gh g)) in H by lia. rewrite foldM_app in H.
  apply bind_ok in H as (sf & H & HC). injection HC as <-. apply bind_ok in H as (s0 & _ & H). cbn [foldM] in H.
  apply bind_ok in H as (s3 & H & HREST). rewrite foldM_map in H.
  assert (INC : incl (sc_candidates s3) (sc_candidates sf)).
  { revert HREST. apply foldM_incl. intros s' x s''. apply foldM_incl. intros ? ? ? E. eapply scan_pixel_incl, E. }
  clear HREST.
  apply (row_split g y 0 b3) in H as (s1 & E1 & H); [|lia].
  apply (row_split g y _ (b3 + 1)) in H as (s2 & E2 & H); [|lia]. apply row_incl in H. apply row_one in E2.
  assert (PX : forall x v, a3 - 1 <= x <= b3 -> get_pixel g x y = Ok v -> pix g x y = v).
  { intros u v Hu E. rewrite get_pixel_pix in E by (try exact WF; pose proof (IN u Hu); lia). now injection E. }
  assert (EA : a2 <= e) by (apply le_IZR; lra).
  assert (ST2 : steady (fun x => pix g x y) a2) by (intros a b d' HA HB; apply ST; lia).
  apply (scan_cross g y a3 a2 a1 b1 b2 b3) in E1 as (cs1 & q0 & q1 & -> & Q0 & Q1); try lia; try exact ST2.
  2:{ apply PX; [lia|]. apply (S4 (a3 - 1)). lia. } 2:{ intros t Ht. apply PX; [lia|]. now apply (S3 t). } 2:{ intros t Ht. apply PX; [lia|]. now apply (S2 t). }
  2:{ intros t Ht. apply PX; [lia|]. now apply (S1 t). } 2:{ intros t Ht. apply PX; [lia|]. now apply (T1 t). } 2:{ intros t Ht. apply PX; [lia|]. now apply (T2 t). }
  assert (W : pix g b3 y = 255%N) by (apply PX; [lia|]; apply (T3 b3); lia).
  rewrite W in E2. unfold scan_pixel in E2. destruct (Z.eqb_spec b3 0); [lia|]. cbn [sc_last sc_pattern] in E2. change (255 =? 0)%N with false in E2. cbn [bind andb sc_candidates] in E2.
  set (pat := Pat q0 q1 _ _ _ _ _) in *.
  assert (PO : pat_ok 300000000 pat).
  { apply pat_small; unfold pat; cbn [p0 p1 p2 p3 p4 p5 p6]; try lia. unfold pat_sum. cbn [p0 p1 p2 p3 p4 p5 p6]. lia. }
  assert (U : 300000000 <= u32_max) by (unfold u32_max; lia).
  destruct (looks_like_finder_exact _ _ PO U) as (b & EB & _ & B1'). rewrite EB in E2. cbn [bind] in E2. rewrite B1' in E2.
  2:{ exact FR. }
  2:{ unfold pat_total, pat. cbn [p2 p3 p4 p5 p6]. lia. }
  apply bind_ok in E2 as (cs2 & E2 & ES). apply bind_ok in ES as (p' & _ & ES). injection ES as <-. cbn [sc_candidates] in H.
  assert (IN2 : forall c, In c cs2 -> In c (sc_candidates sf)) by (intros c' Hc; apply INC, H, Hc).
  unfold scan_found in E2. rewrite (est_ok _ _ PO U) in E2. cbn [bind] in E2. unfold pat_total, pat in E2. cbn [p2 p3 p4 p5 p6] in E2.
  replace (a2 - a3 + (a1 - a2) + (b1 - a1) + (b2 - b1) + (b3 - b2)) with (b3 - a3) in E2 by lia.
  destruct (est_f (b3 - a3) ltac:(lia)) as (v & FV & EV). rewrite minus_IZR in EV. unfold eps in EV.
  destruct (mul_f (est_of (b3 - a3)) (lit 7 2) v (7 / 2) FV fin_7_2) as (half & FH & EH).
  { unfold top. assert (IZR a3 <= IZR b3 <= 67108864)%R by (split; apply IZR_le; lia). assert (0 <= IZR a3)%R by (apply IZR_le; lia). rabs; lra. }
  assert (RG : (1 <= IZR a3 /\ IZR a3 + 1 <= IZR b3 /\ IZR b3 <= 67108864)%R) by (rewrite <- plus_IZR; repeat split; apply IZR_le; lia).
  unfold eps in EH. destruct (sub_f (of_Z b3) _ (IZR b3) half (fin_of_Z b3 ltac:(lia)) FH) as (x0 & FX & EX); [unfold top; rabs; lra..|]. unfold eps in EX.
  assert (X0 : (IZR a3 + IZR b3 - / 10000 <= 2 * x0 <= IZR a3 + IZR b3 + / 10000)%R) by (clear - EX EH EV; rabs; lra).
  assert (V0 : (Rabs (v - m) <= / 7 + / 1000)%R) by (clear - EV A3 B3; rabs; lra).
  assert (FYY : fin (of_Z y) (IZR y)) by (apply fin_of_Z; lia).
  assert (RY : (0 <= IZR y <= 67108864)%R) by (split; apply IZR_le; lia).
  assert (X1 : (- / 1000 <= x0 - ax <= 1 + / 1000)%R) by (clear - X0 A3 B3; lra).
  set (p := Pt _ _) in E2.
  destruct (existsb _ cs1) eqn:EX1.
  - injection E2 as <-. apply existsb_exists in EX1 as (c' & Hc & N). exists c'. split; [now apply IN2|].
    destruct (find_candidates_ok g WF) as (cs' & E' & HC). rewrite HALL in E'. injection E' as <-.
    unfold cands_ok in HC. rewrite Forall_forall in HC. destruct (HC c' (IN2 _ Hc)) as (_ & x & y' & X & Y & BX & BY).
    exists x, y'. split; [exact X|]. split; [exact Y|]. right. exists p, x0, (est_of (b3 - a3)), v.
    split; [exact FX|]. split; [exact FYY|]. split; [exact FV|]. split; [|exact N].
    split; [exact X1|]. split; [exact V0|]. split; [lra|]. split; [exact RY|]. clear - V0 MB SIZE. rabs; lra.
  - destruct (straight_refined g m ax ay WF HD WX WY SIZE p x0 y (est_of (b3 - a3)) v FX eq_refl X1 FV V0 HY MB ltac:(lra)) as (q & ms' & x' & y' & v' & R & F1 & F2 & F3' & G1 & G2 & G3).
    rewrite R in E2. cbn [bind] in E2. injection E2 as <-. exists (FP q ms' (of_Z 0)). split; [apply IN2, in_or_app; right; now left|].
    exists x', y'. cbn [fp_location fp_module_size]. split; [exact F1|]. split; [exact F2|]. left. split; [exact G1|]. split; [exact G2|]. now exists v'.
Qed.
End Upright.
