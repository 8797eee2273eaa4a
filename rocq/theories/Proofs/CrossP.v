(** Lines through a finder pattern whose runs have the right lengths only roughly. *)
From Coq Require Import NArith ZArith Reals List Lia Lra Bool Arith Psatz.
From Verif.Model Require Import Prepare Detect.
From Flocq Require Import Core.
From Verif.Spec Require Import Window Finder Drawing.
From Verif.Proofs Require Import BaseP PrepareP FloatP ApproxP DetectP ExtractP AlignP RefineP.
Import ListNotations.
Local Open Scope Z_scope.

Section Cross.
Context (g : gray) (ms : f64) (diag : bool) (h : Z -> Z * Z) (s e : Z).
Context (SE : s < e) (SMALL : e - s <= 2 ^ 27).
Context (READ : forall t, s <= t < e -> exists v, get_pixel g (fst (h t)) (snd (h t)) = Ok v).
Let walk := walk g ms diag h e.
Let shows_at := shows_at g h.

(** up to [n] pixels nothing is confirmed, unless the line is the diagonal *)
Definition unconfirmed (n : Z) : Prop := forall q x y, pat_ok n q -> confirm ms q x y diag = Ok None \/ diag = true.
(** the search ends early, which only happens on the diagonal *)
Definition early (r : res (option finder_pos)) : Prop := diag = true /\ exists f, r = Ok (Some f).

Lemma u27 : 2 ^ 27 + 1 <= u32_max.
Proof. unfold u32_max. lia. Qed.

Lemma unconfirmed_le n n' : n <= n' -> unconfirmed n' -> unconfirmed n.
Proof. intros L U q x y H. apply U. now apply pat_weaken with n. Qed.

Lemma confirm_either n q x y : n <= 2 ^ 27 -> unconfirmed n -> pat_ok n q ->
  confirm ms q x y diag = Ok None \/ (diag = true /\ exists f, confirm ms q x y diag = Ok (Some f)).
Proof.
  intros L U H. pose proof u27 as K. destruct (U q x y H) as [E|E]; [now left|].
  destruct (confirm_ok n q ms x y diag H ltac:(lia)) as (o & EO & _). destruct o as [f|]; [right|now left]. eauto.
Qed.

Lemma step t last p : s <= t < e -> pat_ok (t - s) p -> unconfirmed (t - s) ->
  early (walk t last p) \/ exists last' p', walk t last p = walk (t + 1) last' p' /\ pat_ok (t + 1 - s) p' /\
    get_pixel g (fst (h t)) (snd (h t)) = Ok last' /\ (last' = last -> p6 p' = p6 p + 1) /\ 1 <= p6 p'.
Proof.
  intros Ht HP U. pose proof u27 as K. destruct (READ t Ht) as (v & HV).
  assert (E : walk t last p = _) by (unfold walk; apply walk_step; lia). rewrite HV in E. cbn [bind] in E.
  destruct (N.eqb_spec v last) as [-> | NV].
  - right. destruct (pattern_inc_ok (t - s) p HP ltac:(lia)) as (p' & EI & HP'). rewrite EI in E. cbn [bind] in E.
    exists last, p'. split; [exact E|]. split; [apply pat_weaken with (t - s + 1); [exact HP'|lia]|]. split; [exact HV|].
    unfold pattern_inc in EI. apply bind_ok in EI as (k & EK & EI). injection EI as <-. cbn [p6].
    unfold pat_ok in HP. rewrite chk_u32_ok in EK by (unfold pat_sum in HP; lia). injection EK as <-. lia.
  - destruct (confirm_either (t - s) p (fst (h t)) (snd (h t)) ltac:(lia) U HP) as [EC|(D & f & EC)]; rewrite EC in E; cbn [bind] in E.
    2:{ left. split; [exact D|]. now exists f. }
    right. destruct (slide_ok (t - s) p HP ltac:(lia)) as (p' & EL & HP'). rewrite EL in E. cbn [bind] in E.
    exists v, p'. split; [exact E|]. split; [apply pat_weaken with (t - s + 1); [exact HP'|lia]|]. split; [exact HV|].
    split; [intros; contradiction|]. unfold pat_ok, pat_sum in HP. destruct (Z.eq_dec (p5 p) 0) as [Z5|Z5].
    { rewrite slide_shift in EL by lia. injection EL as <-. cbn [p6]. lia. }
    unfold slide in EL. destruct (flt _ _ && _).
    + apply bind_ok in EL as (k & EK & EL). rewrite chk_u32_ok in EK by lia. injection EK as <-. injection EL as <-. cbn [p6]. lia.
    + injection EL as <-. cbn [p6]. lia.
Qed.

Lemma prefix n : forall t last p, s <= t -> t + Z.of_nat n <= e -> pat_ok (t - s) p -> unconfirmed (t + Z.of_nat n - s) ->
  early (walk t last p) \/ exists last' p', walk t last p = walk (t + Z.of_nat n) last' p' /\ pat_ok (t + Z.of_nat n - s) p'.
Proof.
  induction n as [|n IH]; intros t last p Hs He HP U.
  - right. exists last, p. rewrite Z.add_0_r. auto.
  - destruct (step t last p ltac:(lia) HP ltac:(apply unconfirmed_le with (2 := U); lia)) as [E|(l1 & p1' & -> & HP1 & _)]; [now left|].
    replace (t + Z.of_nat (S n)) with (t + 1 + Z.of_nat n) in * by lia. apply IH; auto; lia.
Qed.

(** one run, whatever came before *)
Lemma prefix_run a b v last p : s <= a < b -> b <= e -> shows_at a b v -> pat_ok (a - s) p -> unconfirmed (a - s) ->
  early (walk a last p) \/ exists p', walk a last p = walk b v p' /\ pat_ok (b - s) p' /\ b - a <= p6 p'.
Proof.
  intros Ha Hb HS HP U. pose proof u27 as K. destruct (step a last p ltac:(lia) HP U) as [E|(l1 & p' & -> & HP' & HV & _ & P6)]; [now left|right].
  unfold shows_at, RefineP.shows_at in HS. rewrite (HS a) in HV by lia. injection HV as <-. destruct p' as [q0 q1 q2 q3 q4 q5 q6].
  unfold pat_ok, pat_sum in HP'. cbn [p0 p1 p2 p3 p4 p5 p6] in *.
  exists (Pat q0 q1 q2 q3 q4 q5 (q6 + (b - a - 1))). unfold walk. rewrite (walk_same g ms diag h e (Z.to_nat (b - a - 1))); try lia.
  - rewrite Z2Nat.id by lia. replace (a + 1 + (b - a - 1)) with b by lia. split; [reflexivity|].
    split; [apply pat_small; unfold pat_sum; cbn [p0 p1 p2 p3 p4 p5 p6]; lia|cbn [p6]; lia].
  - intros t Ht. apply HS. lia.
Qed.

Lemma next_run a b v last q0 q1 q2 q3 q4 q5 q6 : s <= a < b -> b <= e -> shows_at a b v -> v <> last -> pat_ok (a - s) (Pat q0 q1 q2 q3 q4 q5 q6) ->
  unconfirmed (a - s) \/ ~ finder_runs q2 q3 q4 q5 q6 -> q5 <= 10 * q6 ->
  early (walk a last (Pat q0 q1 q2 q3 q4 q5 q6)) \/
  (walk a last (Pat q0 q1 q2 q3 q4 q5 q6) = walk b v (Pat q1 q2 q3 q4 q5 q6 (b - a)) /\ pat_ok (b - s) (Pat q1 q2 q3 q4 q5 q6 (b - a))).
Proof.
  intros Ha Hb HS NV HP U HQ. pose proof u27 as K.
  assert (HP' : pat_ok (b - s) (Pat q1 q2 q3 q4 q5 q6 (b - a))).
  { unfold pat_ok, pat_sum in *. cbn [p0 p1 p2 p3 p4 p5 p6] in *. lia. }
  assert (C : confirm ms (Pat q0 q1 q2 q3 q4 q5 q6) (fst (h a)) (snd (h a)) diag = Ok None \/
    (diag = true /\ exists f, confirm ms (Pat q0 q1 q2 q3 q4 q5 q6) (fst (h a)) (snd (h a)) diag = Ok (Some f))).
  { destruct U as [U|U]; [now apply (confirm_either (a - s)); [lia| |]|]. left. apply confirm_none with (a - s); [exact HP|lia|exact U]. }
  destruct C as [C|(D & f & C)].
  - right. split; [|exact HP']. unfold walk. apply walk_run; try lia; try assumption.
    unfold pat_ok, pat_sum in *. cbn [p0 p1 p2 p3 p4 p5 p6] in *. apply slide_shift; cbn [p0 p1 p2 p3 p4 p5 p6]; lia.
  - left. split; [exact D|]. exists f. unfold walk. rewrite walk_step by lia. unfold shows_at, RefineP.shows_at in HS. rewrite HS by lia. cbn [bind].
    destruct (N.eqb_spec v last); [congruence|]. rewrite C. reflexivity.
Qed.

(** The line crosses a pattern: white from [a4] on, the borders of the five runs at [a3], [a2],
    [a1], [b1], [b2] and [b3]. *)
Context (a4 a3 a2 a1 b1 b2 b3 : Z).
Definition borders : Prop := shows_at (Z.max s a4) a3 255 /\ shows_at a3 a2 0 /\ shows_at a2 a1 255 /\ shows_at a1 b1 0 /\
  shows_at b1 b2 255 /\ shows_at b2 b3 0 /\ shows_at b3 (b3 + 1) 255.
(** the runs are about right *)
Definition about_right : Prop :=
  s < a3 /\ a4 < a3 < a2 /\ a2 < a1 < b1 /\ b1 < b2 < b3 /\ b3 < e /\
  a3 - s <= 11 * (a3 - Z.max s a4) /\ a3 - s <= 10 * (a2 - a3) /\
  a2 - a3 <= 10 * (a1 - a2) /\ a1 - a2 <= 10 * (b1 - a1) /\ b1 - a1 <= 10 * (b2 - b1) /\ b2 - b1 <= 10 * (b3 - b2) /\
  2 * (a2 - a3) < b1 - a2 /\ 2 * (a1 - a2) < (a2 - a3) + (b2 - a1) /\
  finder_runs (a2 - a3) (a1 - a2) (b1 - a1) (b2 - b1) (b3 - b2) /\ b3 - a3 <> 3 * (b1 - a1).

Lemma crossing : borders -> about_right -> (diag = true \/ unconfirmed (a1 - s)) ->
  let est := est_of (b3 - a3) in
  flt (diff ms est) (lit 2 10) || diag = true ->
  early (refine g ms (map h (zrange s e)) diag) \/
  refine g ms (map h (zrange s e)) diag = Ok (Some (FP (Pt (of_Z (fst (h b3))) (of_Z (snd (h b3)))) (fdiv (fadd ms est) (of_Z 2)) est)).
Proof.
  intros (S4 & S3 & S2 & S1 & T1 & T2 & T3) (L3 & L2 & L1 & LB & LE & R0 & R1 & R2 & R3 & R4 & R5 & F1 & F2 & FR & NT) U est HD.
  pose proof u27 as K.
  assert (UN : forall n, n <= a1 - s -> unconfirmed n).
  { intros n Hn. destruct U as [U|U]; [intros q x y _; now right|]. now apply unconfirmed_le with (a1 - s). }
  assert (W0 : refine g ms (map h (zrange s e)) diag = walk s 127%N pattern_new).
  { unfold refine, walk, RefineP.walk. rewrite (refine_loop_step g ms diag h e s _ _ _ _ SE). now rewrite (refine_loop_step g ms diag h e s _ _ _ _ SE). }
  rewrite W0. clear W0.
  destruct (prefix (Z.to_nat (Z.max s a4 - s)) s 127%N pattern_new) as [E|(l1 & p & W & HP)]; [lia|lia|apply pat_new; lia|apply UN; lia|now left|].
  rewrite Z2Nat.id in W, HP by lia. replace (s + (Z.max s a4 - s)) with (Z.max s a4) in W, HP by lia. rewrite W. clear W.
  destruct (prefix_run (Z.max s a4) a3 255 l1 p) as [E|(p' & W & HP' & P6)]; [lia|lia|exact S4|exact HP|apply UN; lia|now left|].
  rewrite W. clear W HP p l1. destruct p' as [q0 q1 q2 q3 q4 q5 q6]. cbn [p6] in P6.
  assert (B := HP'). unfold pat_ok, pat_sum in B. cbn [p0 p1 p2 p3 p4 p5 p6] in B.
  destruct (next_run a3 a2 0 255 q0 q1 q2 q3 q4 q5 q6) as [E|[W HP1]]; [lia|lia|exact S3|discriminate|exact HP'|left; apply UN; lia|lia|now left|].
  rewrite W. clear W HP'.
  destruct (next_run a2 a1 255 0 q1 q2 q3 q4 q5 q6 (a2 - a3)) as [E|[W HP2]]; [lia|lia|exact S2|discriminate|exact HP1|left; apply UN; lia|lia|now left|].
  rewrite W. clear W HP1.
  destruct (next_run a1 b1 0 255 q2 q3 q4 q5 q6 (a2 - a3) (a1 - a2)) as [E|[W HP3]]; [lia|lia|exact S1|discriminate|exact HP2|left; apply UN; lia|lia|now left|].
  rewrite W. clear W HP2.
  destruct (next_run b1 b2 255 0 q3 q4 q5 q6 (a2 - a3) (a1 - a2) (b1 - a1)) as [E|[W HP4]]; [lia|lia|exact T1|discriminate|exact HP3|right; apply not_finder_c; lia|lia|now left|].
  rewrite W. clear W HP3.
  destruct (next_run b2 b3 0 255 q4 q5 q6 (a2 - a3) (a1 - a2) (b1 - a1) (b2 - b1)) as [E|[W HP5]]; [lia|lia|exact T2|discriminate|exact HP4|right; apply not_finder_c; lia|lia|now left|].
  rewrite W. clear W HP4. right.
  unfold walk. rewrite walk_step by lia. unfold shows_at, RefineP.shows_at in T3. rewrite T3 by lia. cbn [bind]. change (255 =? 0)%N with false. cbv iota.
  unfold confirm. destruct (looks_like_finder_exact _ _ HP5 ltac:(lia)) as (b & -> & _ & BT). cbn [bind].
  rewrite BT; [|exact FR|unfold pat_total; cbn [p2 p3 p4 p5 p6]; lia].
  rewrite (est_ok _ _ HP5) by lia. cbn [bind]. unfold pat_total. cbn [p0 p1 p2 p3 p4 p5 p6].
  replace (a2 - a3 + (a1 - a2) + (b1 - a1) + (b2 - b1) + (b3 - b2)) with (b3 - a3) by lia. fold est. now rewrite HD.
Qed.
End Cross.
