(** The scan along a row through a finder pattern whose runs have the right lengths only roughly. *)
From Coq Require Import NArith ZArith Reals List Lia Lra Bool Arith Psatz.
From Verif.Model Require Import Prepare Detect.
From Flocq Require Import Core.
From Verif.Spec Require Import Window Finder Drawing Angle Slant.
From Verif.Proofs Require Import BaseP PrepareP FloatP ApproxP DetectP ExtractP AlignP RefineP ScanP.
Import ListNotations.
Local Open Scope Z_scope.

Section Row.
Context (g : gray) (y : Z).
Let f (x : Z) : N := pix g x y.

(** the pattern counts the current run and the run before it *)
Definition counted (x : Z) (s : scan_state) : Prop := exists a b q0 q1 q2 q3 q4 q5,
  0 <= b < x /\ (forall t, b <= t < x -> f t = f b) /\ sc_last s = f b /\ sc_pattern s = Pat q0 q1 q2 q3 q4 q5 (x - b) /\
  0 <= q4 <= x /\ 0 <= q5 <= x /\
  (b = 0 /\ q4 = 0 /\ q5 = 0 \/
   0 <= a < b /\ f (b - 1) <> f b /\ (forall t, a <= t < b -> f t = f a) /\ q5 = b - a /\ (a = 0 /\ q4 = 0 \/ 0 < a /\ f (a - 1) <> f a)).

Lemma counted_first s s' : 1 < gw g -> scan_pixel g s (0, y, f 0) = Ok s' -> counted 1 s'.
Proof.
  intros Hg H. destruct (scan_first g y s s' Hg H) as (cs & ->). exists 0, 0, 0, 0, 0, 0, 0, 0. cbn [sc_last sc_pattern]. repeat split; try lia.
  intros t Ht. now replace t with 0 by lia.
Qed.

Lemma counted_step e x s s' : steady f e -> 0 < x < e -> e < gw g -> gw g <= 2 ^ 26 -> counted x s ->
  scan_pixel g s (x, y, f x) = Ok s' -> counted (x + 1) s'.
Proof.
  intros HF Hx He HG (a & b & q0 & q1 & q2 & q3 & q4 & q5 & Hb & HC & HL & HP & H4 & H5 & HB) H.
  assert (U : u32_max = 4294967295) by reflexivity. destruct (N.eq_dec (f x) (f b)) as [E|N].
  - rewrite <- E in HL.
    pose proof (scan_same g y x s s' q0 q1 q2 q3 q4 q5 (x - b) ltac:(lia) ltac:(lia) ltac:(lia) HL HP H) as ->.
    exists a, b, q0, q1, q2, q3, q4, q5. cbn [sc_last sc_pattern]. fold (f x). rewrite E. repeat split; try lia; try tauto.
    + intros t Ht. destruct (Z.eq_dec t x) as [-> | NT]; [exact E|apply HC; lia].
    + f_equal. lia.
  - assert (HQ : q5 <= 10 * (x - b) \/ q4 = 0).
    { destruct HB as [HB|(Ha & NB & CA & -> & [HA|[A0 NA]])]; [now right|now right|]. left.
      apply (HF a b x); try lia; try assumption.
      rewrite <- (CA (b - 1)) by lia. congruence. }
    pose proof (slide_shift (Pat q0 q1 q2 q3 q4 q5 (x - b)) ltac:(cbn [p5]; lia) ltac:(cbn [p6]; lia) HQ) as SL. cbn [p0 p1 p2 p3 p4 p5 p6] in SL. rewrite <- HP in SL.
    destruct (scan_change g y x s s' _ ltac:(lia) ltac:(rewrite HL; intros K; now apply N) SL H) as (cs & ->).
    exists b, x, q1, q2, q3, q4, q5, (x - b). cbn [sc_last sc_pattern]. repeat split; try lia.
    + intros t Ht. now replace t with x by lia.
    + f_equal. lia.
    + right. repeat split; try lia; try assumption.
      rewrite (HC (x - 1)) by lia. congruence.
Qed.

Lemma counted_row e n : steady f e -> e < gw g -> gw g <= 2 ^ 26 -> forall x s s', 0 < x -> x + Z.of_nat n <= e -> counted x s ->
  row g y x (x + Z.of_nat n) s = Ok s' -> counted (x + Z.of_nat n) s'.
Proof.
  intros HF He HG. induction n as [|n IH]; intros x s s' Hx Hn HQ H.
  - rewrite Z.add_0_r in *. unfold row in H. rewrite zrange_nil in H by lia. cbn [foldM] in H. now injection H as <-.
  - apply (row_split g y x (x + 1)) in H as (s1 & E1 & H); [|lia]. apply row_one in E1.
    replace (x + Z.of_nat (S n)) with (x + 1 + Z.of_nat n) in * by lia.
    apply (IH (x + 1) s1); try lia; try assumption. apply (counted_step e x s); auto; lia.
Qed.

(** the row through the pattern: borders as in CrossP *)
Lemma scan_cross a3 a2 a1 b1 b2 b3 s s' : 0 < a3 < a2 -> a2 < a1 < b1 -> b1 < b2 < b3 -> b3 < gw g -> gw g <= 2 ^ 26 -> steady f a2 ->
  f (a3 - 1) = 255%N -> (forall t, a3 <= t < a2 -> f t = 0%N) -> (forall t, a2 <= t < a1 -> f t = 255%N) ->
  (forall t, a1 <= t < b1 -> f t = 0%N) -> (forall t, b1 <= t < b2 -> f t = 255%N) -> (forall t, b2 <= t < b3 -> f t = 0%N) ->
  a2 - a3 <= 10 * (a1 - a2) -> a1 - a2 <= 10 * (b1 - a1) -> b1 - a1 <= 10 * (b2 - b1) -> b2 - b1 <= 10 * (b3 - b2) ->
  row g y 0 b3 s = Ok s' ->
  exists cs q0 q1, s' = Scan cs 0%N (Pat q0 q1 (a2 - a3) (a1 - a2) (b1 - a1) (b2 - b1) (b3 - b2)) /\ 0 <= q0 <= 2 ^ 26 /\ 0 <= q1 <= 2 ^ 26.
Proof.
  intros HA HB HC Hg HG HF HW D1 D2 D3 D4 D5 R1 R2 R3 R4 H. assert (U : u32_max = 4294967295) by reflexivity.
  apply (row_split g y 0 a2) in H as (s1 & E1 & H); [|lia].
  assert (S1 : exists cs q0 q1 q2 q3 q4 q5, s1 = Scan cs 0%N (Pat q0 q1 q2 q3 q4 q5 (a2 - a3)) /\ 0 <= q4 <= 2 ^ 26 /\ 0 <= q5 <= 2 ^ 26 /\ (q5 <= 10 * (a2 - a3) \/ q4 = 0)).
  { apply (row_split g y 0 (0 + 1)) in E1 as (sa & E0 & E1); [|lia]. apply row_one in E0. change (0 + 1) with 1 in E1.
    apply counted_first in E0; [|lia]. replace a2 with (1 + Z.of_nat (Z.to_nat (a2 - 1))) in E1 at 1 by lia.
    apply (counted_row a2) in E1; try lia; try assumption. replace (1 + Z.of_nat (Z.to_nat (a2 - 1))) with a2 in E1 by lia.
    destruct E1 as (a & b & q0 & q1 & q2 & q3 & q4 & q5 & Hb & CB & HL & HP & H4 & H5 & K).
    assert (F0 : f b = 0%N) by (rewrite <- (CB (a2 - 1)) by lia; apply D1; lia).
    assert (b = a3) as ->.
    { destruct (Z_lt_le_dec b a3) as [L|L]; [|destruct (Z.eq_dec b a3) as [E|NE]; [exact E|]].
      - rewrite <- (CB (a3 - 1)), HW in F0 by lia. discriminate.
      - destruct K as [K|(_ & K & _)]; [lia|]. contradiction K. rewrite F0. apply D1. lia. }
    destruct s1 as [cs l p]. cbn [sc_last sc_pattern] in HL, HP. subst l p. rewrite F0.
    exists cs, q0, q1, q2, q3, q4, q5. split; [reflexivity|]. split; [lia|]. split; [lia|].
    destruct K as [K|(Ha & NB & CA & -> & [K|[A0 NA]])]; [lia|now right|]. left.
    apply (HF a a3 a2); try lia; try assumption.
    - rewrite <- (CA (a3 - 1)) by lia. rewrite HW, F0. discriminate.
    - rewrite F0, D2 by lia. discriminate. }
  clear E1. destruct S1 as (cs & q0 & q1 & q2 & q3 & q4 & q5 & -> & B4 & B5 & HQ).
  apply (row_split g y _ a1) in H as (s2 & E2 & H); [|lia].
  destruct (scan_next g y _ _ _ _ _ _ _ _ _ _ _ _ _ E2 D2 ltac:(lia) ltac:(lia) ltac:(lia) ltac:(lia) ltac:(lia) ltac:(lia) ltac:(lia)) as (c2 & ->).
  apply (row_split g y _ b1) in H as (s3 & E3 & H); [|lia].
  destruct (scan_next g y _ _ _ _ _ _ _ _ _ _ _ _ _ E3 D3 ltac:(lia) ltac:(lia) ltac:(lia) ltac:(lia) ltac:(lia) ltac:(lia) ltac:(lia)) as (c3 & ->).
  apply (row_split g y _ b2) in H as (s4 & E4 & H); [|lia].
  destruct (scan_next g y _ _ _ _ _ _ _ _ _ _ _ _ _ E4 D4 ltac:(lia) ltac:(lia) ltac:(lia) ltac:(lia) ltac:(lia) ltac:(lia) ltac:(lia)) as (c4 & ->).
  destruct (scan_next g y _ _ _ _ _ _ _ _ _ _ _ _ _ H D5 ltac:(lia) ltac:(lia) ltac:(lia) ltac:(lia) ltac:(lia) ltac:(lia) ltac:(lia)) as (c5 & ->).
  exists c5, q4, q5. split; [reflexivity|lia].
Qed.
End Row.
