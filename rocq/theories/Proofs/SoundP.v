(** What a refinement along a line has seen when it reports a finder pattern. *)
From Coq Require Import NArith ZArith Reals List Lia Lra Bool Arith Psatz.
From Verif.Model Require Import Prepare Detect.
From Flocq Require Import Core.
From Verif.Spec Require Import Window Finder Drawing Angle Slant Cross.
From Verif.Proofs Require Import BaseP PrepareP FloatP ApproxP DetectP ExtractP AlignP RefineP.
Import ListNotations.
Local Open Scope Z_scope.

Ltac splits := repeat match goal with |- _ /\ _ => split end.

Lemma finder_runs_pos a b c d e : finder_runs a b c d e -> 0 < a /\ 0 < b /\ 0 < c /\ 0 < d /\ 0 < e.
Proof. unfold finder_runs, stands_for. cbv zeta. lia. Qed.

Lemma confirm_sound n p ms x y diag f : pat_ok n p -> n <= u32_max -> confirm ms p x y diag = Ok (Some f) ->
  finder_runs (p2 p) (p3 p) (p4 p) (p5 p) (p6 p) /\ fp_location f = Pt (of_Z x) (of_Z y) /\ fp_last f = est_of (pat_total p) /\
  fp_module_size f = fdiv (fadd ms (est_of (pat_total p))) (of_Z 2) /\ (diag = false -> flt (diff ms (est_of (pat_total p))) (lit 2 10) = true).
Proof.
  intros H L. unfold confirm. destruct (looks_like_finder_exact n p H L) as (b & -> & B & _). cbn [bind].
  destruct b; [|discriminate]. rewrite (est_ok n p H L). cbn [bind]. destruct (flt _ _) eqn:F; destruct diag; cbn [orb]; try discriminate;
  intros [= <-]; cbn [fp_location fp_last fp_module_size]; repeat split; auto; try discriminate; now apply B.
Qed.

Section Line.
Context (g : gray) (ms : f64) (diag : bool) (h : Z -> Z * Z) (s e : Z).
Let f (t : Z) : N := pix g (fst (h t)) (snd (h t)).
Context (HW : wf_gray g) (Hs : 0 <= s) (He : e <= u32_max) (HI : forall t, s <= t < e -> in_image g (h t)).
Context (HS : forall a b d, s < a < b -> b < d < e -> (forall t, a <= t < b -> f t = f a) -> f (a - 1) <> f a -> f b <> f a ->
  (forall t, b <= t < d -> f t = f b) -> f d <> f b -> b - a <= 10 * (d - b)).

(** the pattern counts the last runs *)
Definition seen (t : Z) (last : N) (p : pattern) : Prop := exists b2 b3 b4 b5 b6,
  (s <= b2 /\ b2 <= b3 /\ b3 <= b4 /\ b4 <= b5 /\ b5 <= b6 /\ b6 < t) /\
  (forall x, b2 <= x < b3 -> f x = f b2) /\ (forall x, b3 <= x < b4 -> f x = f b3) /\ (forall x, b4 <= x < b5 -> f x = f b4) /\
  (forall x, b5 <= x < b6 -> f x = f b5) /\ (forall x, b6 <= x < t -> f x = f b6) /\ (s < b2 -> f (b2 - 1) <> f b2) /\
  (s < b3 -> f (b3 - 1) <> f b3) /\ (s < b4 -> f (b4 - 1) <> f b4) /\ (s < b5 -> f (b5 - 1) <> f b5) /\ (s < b6 -> f (b6 - 1) <> f b6) /\
  (b5 < b6 \/ b6 = s) /\ last = f b6 /\
  (p2 p = b3 - b2 /\ p3 p = b4 - b3 /\ p4 p = b5 - b4 /\ p5 p = b6 - b5 /\ p6 p = t - b6) /\ pat_ok (t - s) p.

Definition sound (r : finder_pos) : Prop := exists a z, s <= a /\ a + 7 <= z <= e /\ five_stretches f a z /\
  (let t := if z <? e then z else z - 1 in fp_location r = Pt (of_Z (fst (h t))) (of_Z (snd (h t)))) /\
  fp_last r = est_of (z - a) /\ fp_module_size r = fdiv (fadd ms (est_of (z - a))) (of_Z 2) /\
  (diag = false -> flt (diff ms (est_of (z - a))) (lit 2 10) = true).

Lemma seen_sound t last p x y r : seen t last p -> s < t <= e -> confirm ms p x y diag = Ok (Some r) ->
  (x, y) = h (if t <? e then t else t - 1) -> sound r.
Proof.
  intros (b2 & b3 & b4 & b5 & b6 & B & C2 & C3 & C4 & C5 & C6 & N2 & N3 & N4 & N5 & N6 & _ & _ & (Q2 & Q3 & Q4 & Q5 & Q6) & HP) Ht HC EH.
  apply (confirm_sound (t - s)) in HC; [|exact HP|lia]. destruct HC as (HF & L & LA & M & D).
  pose proof (finder_runs_pos _ _ _ _ _ HF) as (P2 & P3 & P4 & P5 & P6). pose proof HF as (T7 & _).
  assert (ET : pat_total p = t - b2) by (unfold pat_total; lia). rewrite ET in *.
  exists b2, t. split; [lia|]. split; [lia|]. split.
  - exists b3, b4, b5, b6. rewrite <- Q2, <- Q3, <- Q4, <- Q5, <- Q6. generalize HF. generalize (finder_runs (p2 p) (p3 p) (p4 p) (p5 p) (p6 p)). intros FR HFR. repeat split; try assumption; try lia.
    + rewrite <- (C2 (b3 - 1)) by lia. intros K. apply N3; [lia|congruence].
    + rewrite <- (C3 (b4 - 1)) by lia. intros K. apply N4; [lia|congruence].
    + rewrite <- (C4 (b5 - 1)) by lia. intros K. apply N5; [lia|congruence].
    + rewrite <- (C5 (b6 - 1)) by lia. intros K. apply N6; [lia|congruence].
  - cbv zeta. rewrite <- EH. auto.
Qed.

Lemma seen_inc t last p : seen t last p -> s < t < e -> f t = last -> exists p', pattern_inc p = Ok p' /\ seen (t + 1) last p'.
Proof.
  intros (b2 & b3 & b4 & b5 & b6 & B & C2 & C3 & C4 & C5 & C6 & N2 & N3 & N4 & N5 & N6 & BE & LA & (Q2 & Q3 & Q4 & Q5 & Q6) & HP) Ht E.
  destruct (pattern_inc_ok _ _ HP ltac:(lia)) as (p' & EP & HP'). exists p'. split; [exact EP|].
  replace (t - s + 1) with (t + 1 - s) in HP' by lia.
  unfold pattern_inc in EP. rewrite chk_u32_ok in EP by (unfold pat_ok, pat_sum in HP; lia). cbn [bind] in EP. injection EP as <-.
  exists b2, b3, b4, b5, b6. cbn [p2 p3 p4 p5 p6]. splits; try assumption; try lia.
  intros x Hx. destruct (Z.eq_dec x t) as [-> |]; [congruence|apply C6; lia].
Qed.

Lemma seen_slide t last p : seen t last p -> s < t < e -> f t <> last -> exists p', slide p = Ok p' /\ seen (t + 1) (f t) p'.
Proof.
  intros (b2 & b3 & b4 & b5 & b6 & B & C2 & C3 & C4 & C5 & C6 & N2 & N3 & N4 & N5 & N6 & BE & LA & (Q2 & Q3 & Q4 & Q5 & Q6) & HP) Ht NE.
  pose proof HP as HP0. unfold pat_ok, pat_sum in HP0.
  assert (SL : slide p = Ok (Pat (p1 p) (p2 p) (p3 p) (p4 p) (p5 p) (p6 p) 1)).
  { apply slide_shift; [lia|lia|]. destruct (Z.eq_dec (p4 p) 0) as [Z4|Z4]; [now right|]. left. rewrite Q5, Q6.
    assert (b6 <> s) by lia. destruct BE as [BE|BE]; [|contradiction].
    apply (HS b5 b6 t); [lia|lia|exact C5|apply N5; lia| |exact C6|congruence].
    rewrite <- (C5 (b6 - 1)) by lia. intros K. apply N6; [lia|congruence]. }
  eexists. split; [exact SL|]. exists b3, b4, b5, b6, t. cbn [p2 p3 p4 p5 p6].
  splits; try assumption; try lia.
  - intros x Hx. now replace x with t by lia.
  - intros _. rewrite (C6 (t - 1)) by lia. congruence.
  - unfold pat_ok, pat_sum. cbn [p0 p1 p2 p3 p4 p5 p6]. lia.
Qed.

Lemma walk_sound n : forall t last p r, seen t last p -> s < t -> e - t = Z.of_nat n -> walk g ms diag h e t last p = Ok (Some r) -> sound r.
Proof.
  induction n as [|n IH]; intros t last p r HQ Ht En H.
  - unfold walk in H. rewrite zrange_nil in H by lia. cbn [map refine_loop] in H.
    apply (seen_sound t last p (fst (h (t - 1))) (snd (h (t - 1)))); auto; [lia|]. destruct (Z.ltb_spec t e); [lia|]. now destruct (h (t - 1)).
  - rewrite walk_step in H by lia. pose proof (HI t ltac:(lia)) as (I1 & I2). rewrite get_pixel_pix in H by (auto; lia). cbn [bind] in H. fold (f t) in H.
    destruct (N.eqb_spec (f t) last) as [E|NE].
    + destruct (seen_inc t last p HQ ltac:(lia) E) as (p' & EP & HQ'). rewrite EP in H. cbn [bind] in H. apply (IH (t + 1) last p'); auto; lia.
    + destruct (confirm ms p (fst (h t)) (snd (h t)) diag) as [o| |] eqn:EC; try discriminate. cbn [bind] in H. destruct o as [r'|].
      * injection H as ->. apply (seen_sound t last p (fst (h t)) (snd (h t))); auto; [lia|]. destruct (Z.ltb_spec t e); [|lia]. now destruct (h t).
      * destruct (seen_slide t last p HQ ltac:(lia) NE) as (p' & EP & HQ'). rewrite EP in H. cbn [bind] in H. apply (IH (t + 1) (f t) p'); auto; lia.
Qed.

Lemma refine_sound r : refine g ms (map h (zrange s e)) diag = Ok (Some r) -> sound r.
Proof.
  unfold refine. destruct (Z_lt_le_dec s e) as [L|L].
  - rewrite refine_loop_step by lia. pose proof (HI s ltac:(lia)) as (I1 & I2). rewrite get_pixel_pix by (auto; lia). cbn [bind]. fold (f s).
    assert (S1 : forall p, p = Pat 0 0 0 0 0 0 1 -> seen (s + 1) (f s) p).
    { intros p ->. exists s, s, s, s, s. cbn [p2 p3 p4 p5 p6]. splits; try lia; try (intros x Hx; now replace x with s by lia); try reflexivity.
      unfold pat_ok, pat_sum; cbn [p0 p1 p2 p3 p4 p5 p6]; lia. }
    assert (PI : pattern_inc pattern_new = Ok (Pat 0 0 0 0 0 0 1)) by reflexivity.
    assert (PS : slide pattern_new = Ok (Pat 0 0 0 0 0 0 1)) by (apply (slide_shift pattern_new); cbn; unfold u32_max; lia).
    destruct (N.eqb_spec (f s) 127%N) as [E|NE].
    + rewrite PI. cbn [bind]. rewrite <- E. intros H. apply (walk_sound (Z.to_nat (e - (s + 1))) (s + 1) (f s) (Pat 0 0 0 0 0 0 1)); auto; lia.
    + rewrite (confirm_none ms pattern_new _ _ diag 0); [|apply pat_new; lia|unfold u32_max; lia|apply not_finder_0; cbn; lia]. cbn [bind].
      rewrite PS. cbn [bind]. intros H. apply (walk_sound (Z.to_nat (e - (s + 1))) (s + 1) (f s) (Pat 0 0 0 0 0 0 1)); auto; lia.
  - rewrite zrange_nil by lia. cbn [map refine_loop]. rewrite (confirm_none ms pattern_new 0 0 diag 0); [discriminate|apply pat_new; lia|unfold u32_max; lia|apply not_finder_0; cbn; lia].
Qed.
End Line.
