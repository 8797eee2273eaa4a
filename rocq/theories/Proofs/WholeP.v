(** Three finder patterns found exactly give the location of the symbol. *)
From Coq Require Import NArith ZArith Reals List Lia Lra Bool Arith Psatz.
From Verif.Model Require Import Prepare Detect.
From Flocq Require Import Core.
From Verif.Spec Require Import Drawing.
From Verif.Proofs Require Import BaseP FloatP ApproxP DetectP GeometryP RefineP ScanP LocateP.
Import ListNotations.
Local Open Scope Z_scope.

Lemma diff_zero x y m : 1 <= m <= 10000000 -> fin x (IZR m) -> fin y (IZR m) -> fgt (diff x y) (lit 1 10) = false.
Proof.
  intros H X Y. assert (R : (1 <= IZR m <= 10000000)%R) by (split; apply IZR_le; lia).
  unfold diff. rewrite (fgt_R _ _ _ _ X Y). rewrite Rlt_bool_false by lra.
  assert (S : fin (fsub y x) 0%R).
  { rewrite <- rnd_0. rewrite <- (Rminus_diag_eq (IZR m) (IZR m) eq_refl). apply fin_fsub; [exact Y|exact X|]. apply half_big. rewrite Rminus_diag_eq, Rabs_R0; lra. }
  assert (D : fin (fdiv (fsub y x) y) 0%R).
  { rewrite <- rnd_0. replace (rnd 0) with (rnd (0 / IZR m)) by (f_equal; unfold Rdiv; ring). apply fin_fdiv; [exact S|exact Y|lra|].
    apply half_big. unfold Rdiv. rewrite Rmult_0_l, Rabs_R0. lra. }
  apply (apx_fgt_false _ _ _ _ _ _ (fin_apx _ _ D) (lit_apx 1 10 ltac:(lia) ltac:(lia))). unfold u53. lra.
Qed.

(** the location made of three candidates *)
Definition made_from (c1 c2 c3 : finder_pos) (v : Z) (loc : qrloc) : Prop :=
  top_left loc = fp_location c1 /\ top_right loc = fp_location c2 /\ bottom_left loc = fp_location c3 /\ version loc = v.

Section Symbol.
Context (m ox oy v : Z) (Hm : 1 <= m <= 10000000) (Hv : 1 <= v <= 100000) (Hx : 0 <= ox) (Hy : 0 <= oy).
Let L := (4 * v + 10) * m.
Context (LB : L <= 2 ^ 26) (ux uy wx wy : Z) (HQ : heading ux uy wx wy) (c1 c2 c3 : finder_pos).
Context (A1 : at_centre m ox oy c1) (A2 : at_centre m (ox + L * ux) (oy + L * uy) c2) (A3 : at_centre m (ox + L * wx) (oy + L * wy) c3).

Lemma L_pos : 0 < L.
Proof. unfold L. nia. Qed.
Lemma apart_cands : c1 <> c2 /\ c1 <> c3 /\ c2 <> c3.
Proof.
  pose proof L_pos. destruct A1 as (_ & X1 & Y1), A2 as (_ & X2 & Y2), A3 as (_ & X3 & Y3).
  assert (K : forall x a b, hf x a -> hf x b -> a = b).
  { intros x a b F G. pose proof (fin_inj _ _ _ F G) as E. apply eq_IZR. lra. }
  split; [|split]; intros E; rewrite E in *.
  - pose proof (K _ _ _ X1 X2). pose proof (K _ _ _ Y1 Y2). destruct HQ as [(-> & -> & -> & ->)|[(-> & -> & -> & ->)|[(-> & -> & -> & ->)|(-> & -> & -> & ->)]]]; lia.
  - pose proof (K _ _ _ X1 X3). pose proof (K _ _ _ Y1 Y3). destruct HQ as [(-> & -> & -> & ->)|[(-> & -> & -> & ->)|[(-> & -> & -> & ->)|(-> & -> & -> & ->)]]]; lia.
  - pose proof (K _ _ _ X2 X3). pose proof (K _ _ _ Y2 Y3). destruct HQ as [(-> & -> & -> & ->)|[(-> & -> & -> & ->)|[(-> & -> & -> & ->)|(-> & -> & -> & ->)]]]; lia.
Qed.

Lemma three_found a b c : shuffled (fp_location c1) (fp_location c2) (fp_location c3) (fp_location a) (fp_location b) (fp_location c) -> fin (fp_module_size a) (IZR m) ->
  find_qr (fp_location a) (fp_location b) (fp_location c) (fp_module_size a) = Ok (Some (mkQRLoc (fp_location c1) (fp_location c2) (fp_location c3) (fp_module_size a) v)).
Proof.
  intros S F. destruct A1 as (_ & X1 & Y1), A2 as (_ & X2 & Y2), A3 as (_ & X3 & Y3).
  apply (find_qr_any m v L ltac:(lia) Hv eq_refl LB ux uy wx wy HQ _ _ _ (2 * ox + 7 * m) (2 * (oy + (7 * m - 1) / 2))); auto.
  - split; auto.
  - split; [replace (2 * ox + 7 * m + 2 * (L * ux)) with (2 * (ox + L * ux) + 7 * m) by ring; exact X2|].
    replace (2 * (oy + (7 * m - 1) / 2) + 2 * (L * uy)) with (2 * (oy + L * uy + (7 * m - 1) / 2)) by ring. exact Y2.
  - split; [replace (2 * ox + 7 * m + 2 * (L * wx)) with (2 * (ox + L * wx) + 7 * m) by ring; exact X3|].
    replace (2 * (oy + (7 * m - 1) / 2) + 2 * (L * wy)) with (2 * (oy + L * wy + (7 * m - 1) / 2)) by ring. exact Y3.
Qed.

(** the six orders in which three different candidates can come *)
Inductive order : finder_pos -> finder_pos -> finder_pos -> Prop :=
| o1 : order c1 c2 c3 | o2 : order c1 c3 c2 | o3 : order c2 c1 c3 | o4 : order c2 c3 c1 | o5 : order c3 c1 c2 | o6 : order c3 c2 c1.

Lemma order_found a b c : order a b c -> exists loc, made_from c1 c2 c3 v loc /\
  find_qr (fp_location a) (fp_location b) (fp_location c) (fp_module_size a) = Ok (Some loc) /\
  fgt (diff (fp_module_size a) (fp_module_size b)) (lit 1 10) = false /\ fgt (diff (fp_module_size a) (fp_module_size c)) (lit 1 10) = false.
Proof.
  intros O. pose proof (proj1 A1) as F1. pose proof (proj1 A2) as F2. pose proof (proj1 A3) as F3.
  exists (mkQRLoc (fp_location c1) (fp_location c2) (fp_location c3) (fp_module_size a) v). split; [unfold made_from; auto|].
  split; [apply three_found|split; apply (diff_zero _ _ m Hm)]; destruct O; auto; constructor.
Qed.

Theorem triple_in cs locs : In c1 cs -> In c2 cs -> In c3 cs -> find_locations cs = Ok locs -> exists loc, In loc locs /\ made_from c1 c2 c3 v loc.
Proof.
  intros I1 I2 I3 H. destruct apart_cands as (N12 & N13 & N23).
  apply In_nth_error in I1 as (i1 & E1). apply In_nth_error in I2 as (i2 & E2). apply In_nth_error in I3 as (i3 & E3).
  assert (i1 <> i2) by (intros ->; congruence). assert (i1 <> i3) by (intros ->; congruence). assert (i2 <> i3) by (intros ->; congruence).
  assert (G : exists i j k a b c, (i < j < k)%nat /\ order a b c /\ nth_error cs i = Some a /\ nth_error cs j = Some b /\ nth_error cs k = Some c).
  { destruct (lt_dec i1 i2), (lt_dec i1 i3), (lt_dec i2 i3).
    - exists i1, i2, i3, c1, c2, c3. repeat split; auto. constructor.
    - exists i1, i3, i2, c1, c3, c2. repeat split; auto; try lia. constructor.
    - lia.
    - exists i3, i1, i2, c3, c1, c2. repeat split; auto; try lia. constructor.
    - exists i2, i1, i3, c2, c1, c3. repeat split; auto; try lia. constructor.
    - lia.
    - exists i2, i3, i1, c2, c3, c1. repeat split; auto; try lia. constructor.
    - exists i3, i2, i1, c3, c2, c1. repeat split; auto; try lia. constructor. }
  destruct G as (i & j & k & a & b & c & IJK & O & EA & EB & EC). destruct (order_found a b c O) as (loc & M & Q & D1 & D2).
  exists loc. split; [|exact M]. exact (locations_in cs i j k a b c loc locs IJK EA EB EC D1 D2 Q H).
Qed.

Theorem triple_only cs : In c1 cs -> In c2 cs -> In c3 cs -> length cs = 3%nat -> exists loc, find_locations cs = Ok [loc] /\ made_from c1 c2 c3 v loc.
Proof.
  intros I1 I2 I3 HL. destruct apart_cands as (N12 & N13 & N23). destruct cs as [|a [|b [|c [|]]]]; try discriminate. cbn [In] in I1, I2, I3.
  assert (O : order a b c).
  { destruct I1 as [E1|[E1|[E1|[]]]], I2 as [E2|[E2|[E2|[]]]], I3 as [E3|[E3|[E3|[]]]]; try congruence; rewrite E1, E2, E3; constructor. }
  destruct (order_found a b c O) as (loc & M & FQ & D1 & D2). exists loc. split; [|exact M].
  unfold find_locations. cbn [length]. change (range 0 3) with [0; 1; 2]%nat. cbn [foldM].
  change (range (0 + 1) 3) with [1; 2]%nat. change (range (1 + 1) 3) with [2]%nat. change (range (2 + 1) 3) with (@nil nat). cbn [foldM].
  change (range (1 + 1) 3) with [2]%nat. change (range (2 + 1) 3) with (@nil nat). cbn [foldM].
  change (get [a; b; c] 0) with (Ok a : res finder_pos). change (get [a; b; c] 1) with (Ok b : res finder_pos). change (get [a; b; c] 2) with (Ok c : res finder_pos).
  cbn [bind]. rewrite D1, D2, FQ. cbn [bind app]. destruct (fgt (diff (fp_module_size b) _) _); reflexivity.
Qed.
End Symbol.
