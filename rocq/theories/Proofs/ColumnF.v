(** The column in which refinement looks first. *)
From Coq Require Import NArith ZArith Reals List Lia Lra Bool Arith Psatz.
From Verif.Model Require Import Prepare Detect.
From Flocq Require Import Core.
From Verif.Spec Require Import Window Finder Drawing Angle Slant Cross.
From Verif.Proofs Require Import BaseP PrepareP FloatP ApproxP DetectP ExtractP AlignP RefineP RefineF SlantF GeometryP SoundP SoundF.
Import ListNotations.
Local Open Scope R_scope.

Lemma refine_column g x y T loc ms' : wf_gray g -> (gw g <= 2 ^ 26)%Z -> (gh g <= 2 ^ 26)%Z ->
  (forall x, (0 <= x < gw g)%Z -> steady (fun y => pix g x y) (gh g - 1)) -> (0 <= x < gw g)%Z -> (0 <= y < gh g)%Z -> (7 <= T <= x + 1)%Z ->
  refine_all g (Pt (fsub (of_Z x) (fmul (est_of T) (lit 7 2))) (of_Z y)) (est_of T) = Ok (Some (loc, ms')) ->
  exists u b w, (Z.abs (2 * u - (2 * x - T)) <= 1)%Z /\ (0 <= u < gw g)%Z /\ (0 <= b)%Z /\ (w <= gh g)%Z /\ five_stretches (fun y => pix g u y) b w /\
    (7 * y - 5 * T - 5 <= 7 * b)%Z /\ (7 * w <= 7 * y + 5 * T + 5)%Z /\ (79 * T <= 100 * (w - b))%Z /\ (79 * (w - b) <= 100 * T)%Z.
Proof.
  intros HW WX WY HC Hx Hy HT H. pose proof HW as (W1 & W2 & _).
  assert (RT : 7 <= IZR T <= 67108864) by (split; apply IZR_le; lia). assert (RX : 0 <= IZR x <= 67108864) by (split; apply IZR_le; lia).
  destruct (est_f T ltac:(lia)) as (v0 & FV0 & EV0). destruct (est_size T ltac:(unfold u32_max; lia)) as (v0' & FV0' & BV0).
  assert (v0' = v0) by (apply (fin_inj _ _ _ FV0' FV0)). subst v0'.
  destruct (mul_f (est_of T) (lit 7 2) v0 (7 / 2) FV0 fin_7_2) as (h & FH & EH); [unfold top, eps in *; rabs; lra|].
  destruct (sub_f (of_Z x) _ (IZR x) h (fin_of_Z x ltac:(lia)) FH) as (k & FK & EK); [unfold top, eps in *; rabs; lra..|].
  assert (KX : Rabs (k - (IZR x - IZR T / 2)) <= / 1000) by (unfold eps in *; rabs; lra).
  assert (TX : IZR T <= IZR x + 1) by (rewrite <- (plus_IZR x 1); apply IZR_le; lia).
  destruct (round_f _ _ FK) as [U0 U1]; [unfold top; rabs; lra|].
  unfold refine_all in H. apply bind_ok in H as (ov & EV & H). destruct ov as [fv|]; [|discriminate]. clear H.
  unfold refine_vertical in EV. cbn [px py] in EV. set (u := round_u32 (fsub (of_Z x) _)) in *.
  assert (UX : (Z.abs (2 * u - (2 * x - T)) <= 1)%Z).
  { assert (Q : IZR (-2) < IZR (2 * u - (2 * x - T)) < IZR 2) by (rewrite !minus_IZR, !mult_IZR; rabs; lra).
    destruct Q as [Q1 Q2]. apply lt_IZR in Q1, Q2. lia. }
  assert (UB : (0 <= u < gw g)%Z) by lia. assert (RY : 0 <= IZR y <= 67108864) by (split; apply IZR_le; lia).
  destruct (path_start (of_Z y) (IZR y) (est_of T) v0 (fin_of_Z y ltac:(lia)) FV0) as [P0 P1]; [unfold top; lra|unfold top, eps in *; rabs; lra|].
  pose proof (path_end (of_Z y) (IZR y) (est_of T) v0 (fin_of_Z y ltac:(lia)) FV0 ltac:(unfold top; lra) ltac:(unfold top, eps in *; rabs; lra)) as PE.
  set (sy := round_u32 (fmax0 _)) in *. set (ey := round_u32 (fadd (of_Z y) _)) in *.
  apply (line_sound g HW (fun t => (u, t)) (gh g) (est_of T) v0) in EV; auto;
    [|intros t Ht; unfold in_image; cbn [fst snd]; lia|apply (HC u); lia|lia].
  cbn [fst snd] in EV. destruct EV as (b & w & zv & v1 & B & W & SV & _ & _ & _ & _ & _ & _ & _ & D1 & D2).
  assert (RB : IZR y - 5 * v0 - 17 / 32 <= IZR b) by (apply Rle_trans with (IZR sy); [pose proof (Rmax_r 0 (IZR y - 5 * v0)); lra|apply IZR_le; lia]).
  assert (RW : IZR w <= IZR y + 5 * v0 + 17 / 32) by (apply Rle_trans with (IZR ey); [apply IZR_le; lia|clear - PE; rabs; lra]).
  exists u, b, w. clear - UX UB P0 B W SV RB RW D1 D2 EV0 RT. unfold eps in *. splits; auto; try lia;
    apply le_IZR; repeat rewrite ?minus_IZR, ?plus_IZR, ?mult_IZR in *; rabs; lra.
Qed.
