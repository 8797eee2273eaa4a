(** The whole scan, row by row: where refinements start. *)
From Coq Require Import NArith ZArith Reals List Lia Lra Bool Arith Psatz.
From Verif.Model Require Import Prepare Detect.
From Flocq Require Import Core.
From Verif.Spec Require Import Window Finder Drawing Angle Slant Cross.
From Verif.Proofs Require Import BaseP PrepareP FloatP ApproxP DetectP ExtractP AlignP RefineP ScanP SoundP SoundF.
Import ListNotations.
Local Open Scope Z_scope.

(** five runs of a line of [L] pixels that look like a finder pattern, none of them going on farther; the scan tests them at [x] *)
Definition whole_runs (f : Z -> N) (L x a b c d e z : Z) : Prop :=
  0 <= a /\ z <= L /\ (plain f a b /\ plain f b c /\ plain f c d /\ plain f d e /\ plain f e z) /\
  f b <> f a /\ f c <> f b /\ f d <> f c /\ f e <> f d /\ finder_runs (b - a) (c - b) (d - c) (e - d) (z - e) /\
  (0 < a -> f (a - 1) <> f a) /\ (z < L /\ x = z /\ f z <> f e \/ z = L /\ x = L - 1).

Section Row.
Context (g : gray) (WX : gw g <= 2 ^ 26) (y : Z).
Let f (x : Z) : N := pix g x y.
Context (HS : steady f (gw g - 1)).
Let h (t : Z) : Z * Z := (t, y).

Lemma h_steady a b d : 0 < a < b -> b < d < gw g -> (forall t, a <= t < b -> f t = f a) -> f (a - 1) <> f a -> f b <> f a ->
  (forall t, b <= t < d -> f t = f b) -> f d <> f b -> b - a <= 10 * (d - b).
Proof. intros. apply HS; auto; lia. Qed.

Lemma seen_whole t last p : seen g h 0 t last p -> looks_like_finder p = Ok true -> 0 < t <= gw g -> t < gw g /\ f t <> last \/ t = gw g ->
  exists a b c d e, whole_runs f (gw g) (if t <? gw g then t else t - 1) a b c d e t /\ total_size p = Ok (t - a).
Proof.
  intros (b2 & b3 & b4 & b5 & b6 & B & C2 & C3 & C4 & C5 & C6 & N2 & N3 & N4 & N5 & N6 & _ & LA & (Q2 & Q3 & Q4 & Q5 & Q6) & HP) HL Ht HT.
  assert (U : t - 0 <= u32_max) by (unfold u32_max; lia).
  destruct (looks_like_finder_exact _ p HP U) as (v & EV & V & _). rewrite HL in EV. injection EV as <-. specialize (V eq_refl).
  pose proof (finder_runs_pos _ _ _ _ _ V) as (P2 & P3 & P4 & P5 & P6). destruct (total_size_ok _ p HP U) as [ET _].
  unfold h in *. cbn [fst snd] in *. unfold f in *.
  exists b2, b3, b4, b5, b6. split.
  - rewrite Q2, Q3, Q4, Q5, Q6 in V. unfold whole_runs, plain. generalize dependent (finder_runs (b3 - b2) (b4 - b3) (b5 - b4) (b6 - b5) (t - b6)). intros FR V.
    splits; try assumption; try lia; try (exact N2).
    + rewrite <- (C2 (b3 - 1)) by lia. intros K. apply N3; [lia|congruence].
    + rewrite <- (C3 (b4 - 1)) by lia. intros K. apply N4; [lia|congruence].
    + rewrite <- (C4 (b5 - 1)) by lia. intros K. apply N5; [lia|congruence].
    + rewrite <- (C5 (b6 - 1)) by lia. intros K. apply N6; [lia|congruence].
    + destruct (Z.ltb_spec t (gw g)); destruct HT as [[H1 H2]|H1]; lia.
  - rewrite ET. f_equal. unfold pat_total. lia.
Qed.

(** one pixel: the candidates stay the same, or refinement starts *)
Definition starts (cs cs' : list finder_pos) (x : Z) : Prop := exists p a b c d e z, whole_runs f (gw g) x a b c d e z /\
  total_size p = Ok (z - a) /\ scan_found g cs p x y = Ok cs'.

Lemma pixel_scanned x s s' : 0 < x < gw g -> seen g h 0 x (sc_last s) (sc_pattern s) -> scan_pixel g s (x, y, f x) = Ok s' ->
  (x + 1 < gw g -> seen g h 0 (x + 1) (sc_last s') (sc_pattern s')) /\ (sc_candidates s' = sc_candidates s \/ starts (sc_candidates s) (sc_candidates s') x).
Proof.
  intros Hx HQ. unfold scan_pixel. destruct (Z.eqb_spec x 0); [lia|]. destruct (N.eqb_spec (f x) (sc_last s)) as [E|NE].
  - destruct (seen_inc g h 0 (gw g) ltac:(lia) ltac:(unfold u32_max; lia) x _ _ HQ ltac:(lia) E) as (p' & EP & HQ'). rewrite EP. cbn [bind]. rewrite sub_Z_ok by lia. cbn [bind andb].
    destruct (Z.eqb_spec x (gw g - 1)) as [EX|NX]; cbn [negb].
    + intros H. split; [lia|]. apply bind_ok in H as (l & EL & H). apply bind_ok in H as (cs & EC & H). apply bind_ok in H as (q & _ & H). injection H as <-. cbn [sc_candidates].
      destruct l; [|left; now injection EC as <-]. right.
      destruct (seen_whole (x + 1) _ _ HQ' EL ltac:(lia) ltac:(lia)) as (a & b & c & d & e & WR & ET). destruct (Z.ltb_spec (x + 1) (gw g)); [lia|].
      replace (x + 1 - 1) with x in WR by lia. exists p', a, b, c, d, e, (x + 1). auto.
    + intros [= <-]. cbn [sc_last sc_pattern sc_candidates]. split; [auto|now left].
  - cbn [bind andb]. intros H. apply bind_ok in H as (l & EL & H). apply bind_ok in H as (cs & EC & H). apply bind_ok in H as (q & EQ & H). injection H as <-. cbn [sc_candidates sc_last sc_pattern].
    split.
    + intros _. destruct (seen_slide g h 0 (gw g) ltac:(lia) ltac:(unfold u32_max; lia) (fun a b d => h_steady a b d) x _ _ HQ ltac:(lia) NE) as (p' & EP & HQ'). rewrite EQ in EP. injection EP as <-. exact HQ'.
    + destruct l; [|left; now injection EC as <-]. right.
      destruct (seen_whole x _ _ HQ EL ltac:(lia) ltac:(left; split; [lia|exact NE])) as (a & b & c & d & e & WR & ET). destruct (Z.ltb_spec x (gw g)); [|lia].
      exists (sc_pattern s), a, b, c, d, e, x. auto.
Qed.

Lemma first_scanned s s' : 1 < gw g -> scan_pixel g s (0, y, f 0) = Ok s' -> sc_candidates s' = sc_candidates s /\ seen g h 0 1 (sc_last s') (sc_pattern s').
Proof.
  intros Hg H. assert (K : s' = Scan (sc_candidates s) (f 0) (Pat 0 0 0 0 0 0 1)).
  { destruct (scan_first g y s s' Hg H) as (cs & ->). f_equal. revert H. unfold scan_pixel. rewrite Z.eqb_refl. destruct (N.eqb_spec (f 0) 127) as [E|E].
    - unfold pattern_inc. cbn [pattern_new p0 p1 p2 p3 p4 p5 p6]. rewrite chk_u32_ok by (unfold u32_max; lia). cbn [bind]. rewrite sub_Z_ok by lia. cbn [bind].
      destruct (Z.eqb_spec 0 (gw g - 1)); [lia|]. cbn [negb andb]. intros [= <-]. reflexivity.
    - cbn [bind andb]. change (looks_like_finder pattern_new) with (Ok false). cbn [bind]. intros H. apply bind_ok in H as (q & _ & H). injection H as <-. reflexivity. }
  subst s'. cbn [sc_candidates sc_last sc_pattern]. split; [reflexivity|].
  exists 0, 0, 0, 0, 0. cbn [p2 p3 p4 p5 p6]. splits; try lia; try (intros x Hx; now replace x with 0 by lia); try reflexivity.
  unfold pat_ok, pat_sum; cbn [p0 p1 p2 p3 p4 p5 p6]; lia.
Qed.

(** what holds for the candidates before a row and is kept by every refinement holds after it *)
Lemma row_scanned (J : list finder_pos -> Prop) s s' : 1 < gw g -> J (sc_candidates s) -> (forall cs cs' x, J cs -> starts cs cs' x -> J cs') ->
  row g y 0 (gw g) s = Ok s' -> J (sc_candidates s').
Proof.
  intros Hg J0 HJ H. apply (row_split g y 0 1) in H as (s1 & E1 & H); [|lia]. apply (row_one g y 0) in E1.
  destruct (first_scanned s s1 Hg E1) as [EC HQ]. rewrite <- EC in J0. clear E1 EC s.
  assert (K : forall n x s, 0 < x -> x + Z.of_nat n = gw g -> (x < gw g -> seen g h 0 x (sc_last s) (sc_pattern s)) -> J (sc_candidates s) -> row g y x (gw g) s = Ok s' -> J (sc_candidates s')).
  { clear - WX HS HJ. induction n as [|n IH]; intros x s Hx E HQ J0 H.
    - unfold row in H. rewrite zrange_nil in H by lia. injection H as <-. exact J0.
    - apply (row_split g y x (x + 1)) in H as (s1 & E1 & H); [|lia]. apply row_one in E1.
      destruct (pixel_scanned x s s1 ltac:(lia) (HQ ltac:(lia)) E1) as [HQ1 [EC|ST]]; apply (IH (x + 1) s1); try lia; auto; [now rewrite EC|now apply (HJ _ _ x J0)]. }
  apply (K (Z.to_nat (gw g - 1)) 1 s1); auto; lia.
Qed.
End Row.

(** all rows *)
Lemma picture_scanned g (J : Z -> list finder_pos -> Prop) cs : wf_gray g -> gw g <= 2 ^ 26 -> 1 < gw g -> 0 <= gh g ->
  (forall y, 0 <= y < gh g -> steady (fun x => pix g x y) (gw g - 1)) -> J 0 [] ->
  (forall y cs cs' x, 0 <= y < gh g -> J y cs -> starts g y cs cs' x -> J y cs') ->
  (forall y s s', 0 <= y < gh g -> row g y 0 (gw g) s = Ok s' -> J y (sc_candidates s') -> J (y + 1) (sc_candidates s')) ->
  find_candidates g = Ok cs -> J (gh g) cs.
Proof.
  intros HW WX Hg GH HS J0 HJ HN H. unfold find_candidates in H. rewrite enumerate_pix in H by exact HW. rewrite foldM_map in H. unfold coords in H. rewrite <- foldM_flat_map in H.
  apply bind_ok in H as (sf & H & HC). injection HC as <-.
  assert (K : forall n y s, 0 <= y -> y + Z.of_nat n = gh g -> J y (sc_candidates s) ->
    foldM (fun s a => foldM (fun s a0 => scan_pixel g s (let '(x, y) := a0 in (x, y, pix g x y))) (map (fun x => (x, a)) (zrange 0 (gw g))) s) (zrange y (gh g)) s = Ok sf -> J (gh g) (sc_candidates sf)).
  { induction n as [|n IH]; intros y s Hy E JS HF.
    - rewrite (zrange_nil y (gh g)) in HF by lia. injection HF as <-. now replace (gh g) with y by lia.
    - rewrite (zrange_cons y (gh g)) in HF by lia. cbn [foldM] in HF. apply bind_ok in HF as (s1 & E1 & HF). rewrite foldM_map in E1.
      apply (IH (y + 1) s1); [lia|lia| |exact HF]. apply (HN y s s1); [lia|exact E1|].
      apply (row_scanned g WX y (HS y ltac:(lia)) (J y) s s1); auto. intros cs cs' x. apply HJ. lia. }
  apply (K (Z.to_nat (gh g)) 0 (Scan [] 127%N pattern_new)); [lia|lia|exact J0|].
  exact H.
Qed.
