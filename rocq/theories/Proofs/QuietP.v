(** A refinement finds nothing along a line with fewer than four changes of colour. *)
From Coq Require Import NArith ZArith List Lia Bool.
From Verif.Model Require Import Prepare Detect.
From Verif.Spec Require Import Window Finder.
From Verif.Proofs Require Import BaseP PrepareP DetectP BlankP RefineP SoundP.
Import ListNotations.
Local Open Scope Z_scope.

Section Line.
Context (g : gray) (ms : f64) (diag : bool) (h : Z -> Z * Z) (s e : Z).
Let f (t : Z) : N := pix g (fst (h t)) (snd (h t)).
Context (HW : wf_gray g) (Hs : 0 <= s) (He : e <= u32_max) (HI : forall t, s <= t < e -> in_image g (h t)) (HC : changes f e < 4).

Definition few (t : Z) (last : N) (p : pattern) : Prop := pat_ok (t - s) p /\ 1 <= p6 p /\ last = f (t - 1) /\ runs p <= 1 + changes f t.

Lemma few_confirm t p x y : pat_ok (t - s) p -> t <= e -> runs p <= 4 -> confirm ms p x y diag = Ok None.
Proof.
  intros HP Ht HR. unfold confirm. destruct (looks_like_finder_exact (t - s) p HP ltac:(lia)) as (b & E & _). rewrite E. cbn [bind].
  now rewrite (few_runs p (t - s) b HP ltac:(lia) HR E).
Qed.

Lemma walk_few n : forall t last p, few t last p -> s < t -> e - t = Z.of_nat n -> walk g ms diag h e t last p = Ok None.
Proof.
  induction n as [|n IH]; intros t last p (HP & H6 & HL & HR) Ht En; pose proof (changes_mono f t e ltac:(lia)) as M.
  - unfold walk. rewrite zrange_nil by lia. cbn [map refine_loop]. apply (few_confirm t); [exact HP|lia|lia].
  - rewrite walk_step by lia. pose proof (HI t ltac:(lia)) as (I1 & I2). rewrite get_pixel_pix by (auto; lia). cbn [bind]. fold (f t).
    assert (S := changes_succ f t ltac:(lia)). rewrite <- HL in S. destruct (N.eqb_spec (f t) last) as [E|NE].
    + destruct (pattern_inc_ok _ p HP ltac:(lia)) as (p' & EP & HP'). rewrite EP. cbn [bind].
      destruct (runs_inc p p' ltac:(lia) EP) as [P6 R]. apply IH; [|lia|lia].
      split; [now replace (t + 1 - s) with (t - s + 1) by lia|]. split; [lia|]. split; [now replace (t + 1 - 1) with t by lia|lia].
    + rewrite (few_confirm t) by (exact HP || lia). cbn [bind].
      destruct (slide_ok _ p HP ltac:(lia)) as (p' & EP & HP'). rewrite EP. cbn [bind].
      pose proof (runs_slide _ p p' HP EP) as R. pose proof (slide_p6 _ p p' HP ltac:(lia) EP) as P6. apply IH; [|lia|lia].
      split; [now replace (t + 1 - s) with (t - s + 1) by lia|]. split; [lia|]. split; [now replace (t + 1 - 1) with t by lia|lia].
Qed.

Lemma refine_few : refine g ms (map h (zrange s e)) diag = Ok None.
Proof.
  unfold refine. assert (N0 : forall x y, confirm ms pattern_new x y diag = Ok None).
  { intros x y. apply (confirm_none ms pattern_new x y diag 0); [apply pat_new; lia|unfold u32_max; lia|apply not_finder_0; cbn; lia]. }
  destruct (Z_lt_le_dec s e) as [L|L].
  - rewrite refine_loop_step by lia. pose proof (HI s ltac:(lia)) as (I1 & I2). rewrite get_pixel_pix by (auto; lia). cbn [bind]. fold (f s).
    assert (F1 : few (s + 1) (f s) (Pat 0 0 0 0 0 0 1)).
    { split; [unfold pat_ok, pat_sum; cbn [p0 p1 p2 p3 p4 p5 p6]; lia|]. split; [cbn [p6]; lia|]. split; [now replace (s + 1 - 1) with s by lia|].
      change (runs _) with 1. pose proof (changes_nonneg f (s + 1)). lia. }
    assert (PI : pattern_inc pattern_new = Ok (Pat 0 0 0 0 0 0 1)) by reflexivity.
    assert (PS : slide pattern_new = Ok (Pat 0 0 0 0 0 0 1)) by (apply (slide_shift pattern_new); cbn; unfold u32_max; lia).
    destruct (N.eqb_spec (f s) 127%N) as [E|NE].
    + rewrite PI. cbn [bind]. rewrite <- E. apply (walk_few (Z.to_nat (e - (s + 1)))); [exact F1|lia|lia].
    + rewrite N0. cbn [bind]. rewrite PS. cbn [bind]. apply (walk_few (Z.to_nat (e - (s + 1)))); [exact F1|lia|lia].
  - rewrite zrange_nil by lia. cbn [map refine_loop]. apply N0.
Qed.
End Line.
