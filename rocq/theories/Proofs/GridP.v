(** The grid through the centres of the finder patterns and the alignment pattern, for any location. *)
From Coq Require Import NArith ZArith Reals List Lia Lra Bool Arith Psatz.
From Verif.Model Require Import Prepare Detect Extract.
From Flocq Require Import Core.
From Verif.Spec Require Import Drawing Perspective.
From Verif.Proofs Require Import BaseP PrepareP FloatP ApproxP DetectP ExtractP AlignP.
Import ListNotations.
Local Open Scope R_scope.

(** corners in images up to 2^22 pixels *)
Definition M22 : R := 4194304.

Lemma abs_range a b : 0 <= a <= M22 -> 0 <= b <= M22 -> Rabs (a - b) <= M22.
Proof. intros. apply Rabs_le. lra. Qed.

Section One.
(** one coordinate of the corners *)
Context (n : Z) (HN : (25 <= n <= 177)%Z) (t q b : f64) (T Q B : R).
Context (FT : fin t T) (FQ : fin q Q) (FB : fin b B).
Context (HT : 0 <= T <= M22) (HQ : 0 <= Q <= M22) (HB : 0 <= B <= M22).

Definition DX : R := (Q - T) / IZR (n - 7).
Definition DY : R := (B - T) / IZR (n - 7).
Definition dx1 : f64 := fdiv (fsub q t) (of_Z (n - 7)).
Definition dy1 : f64 := fdiv (fsub b t) (of_Z (n - 7)).
Definition expected : R := T + IZR (n - 10) * DX + IZR (n - 10) * DY.

Lemma n7 : 18 <= IZR (n - 7) <= 170.
Proof. split; apply IZR_le; lia. Qed.
Lemma n10 : 15 <= IZR (n - 10) <= 167 /\ IZR (n - 10) = IZR (n - 7) - 3.
Proof. split; [split; apply IZR_le; lia|]. rewrite !minus_IZR. lra. Qed.

Lemma quotient_small a : Rabs a <= M22 -> Rabs (a / IZR (n - 7)) <= 233017 /\ IZR (n - 10) * Rabs (a / IZR (n - 7)) <= M22.
Proof.
  intros H. pose proof n7 as [N1 N2]. pose proof n10 as [_ N3]. unfold Rdiv. rewrite Rabs_mult, (Rabs_pos_eq (/ IZR (n - 7))) by (apply Rlt_le, Rinv_0_lt_compat; lra).
  pose proof (Rabs_pos a). assert (I : 0 < / IZR (n - 7) <= / 18) by (split; [apply Rinv_0_lt_compat; lra|apply Rinv_le; lra]).
  split.
  - apply Rle_trans with (M22 * / 18); [apply Rmult_le_compat; lra|unfold M22; lra].
  - apply Rle_trans with (IZR (n - 7) * (Rabs a * / IZR (n - 7))).
    + apply Rmult_le_compat_r; [apply Rmult_le_pos; lra|lra].
    + replace (IZR (n - 7) * (Rabs a * / IZR (n - 7))) with (Rabs a) by (field; lra). exact H.
Qed.

Lemma DX_small : Rabs DX <= 233017 /\ IZR (n - 10) * Rabs DX <= M22.
Proof. apply quotient_small. now apply abs_range. Qed.
Lemma DY_small : Rabs DY <= 233017 /\ IZR (n - 10) * Rabs DY <= M22.
Proof. apply quotient_small. now apply abs_range. Qed.

Lemma dx1_apx : apx dx1 DX (2 * u24).
Proof. apply step_apx; auto; try (apply Rabs_le; unfold M22 in *; lra). lia. Qed.
Lemma dy1_apx : apx dy1 DY (2 * u24).
Proof. apply step_apx; auto; try (apply Rabs_le; unfold M22 in *; lra). lia. Qed.

Lemma times a A k : (Z.abs k <= 167)%Z -> Rabs (IZR k) * Rabs A <= M22 -> apx a A (2 * u24) -> apx (fmul a (of_Z k)) (A * IZR k) (335 * u24).
Proof.
  intros Hk HA AP. assert (U : u24 = / 16777216) by reflexivity. assert (R : Rabs (IZR k) <= 167) by (rewrite <- abs_IZR; apply IZR_le; lia).
  pose proof (Rabs_pos (IZR k)). assert (Rabs (IZR k) * (2 * u24) <= 167 * (2 * u24)) by (apply Rmult_le_compat_r; lra).
  apply apx_weaken with (Rabs (IZR k) * (2 * u24) + u24); [|lra]. apply mulz29; auto; [lia|]. rewrite Rabs_mult. unfold big29, M22 in *. lra.
Qed.

Lemma expected_small : Rabs expected <= 3 * M22.
Proof.
  pose proof DX_small as [_ X]. pose proof DY_small as [_ Y]. pose proof n10 as [N _]. unfold expected.
  rewrite <- (Rabs_pos_eq (IZR (n - 10))) in X, Y by lra. rewrite <- Rabs_mult in X, Y. apply Rabs_le_inv in X, Y. apply Rabs_le. lra.
Qed.

(** the x and the y of the estimate *)
Lemma estimate_x : apx (fadd (fsub q (fmul dx1 (of_Z 3))) (fmul dy1 (of_Z (n - 10)))) expected (400 * u24).
Proof.
  assert (U : u24 = / 16777216) by reflexivity. pose proof DX_small as [X1 X2]. pose proof DY_small as [Y1 Y2]. pose proof n10 as [N N']. pose proof n7.
  assert (A3 : apx (fmul dx1 (of_Z 3)) (DX * 3) (335 * u24)) by (apply times; [lia|rewrite Rabs_pos_eq; unfold M22; lra|exact dx1_apx]).
  assert (A10 : apx (fmul dy1 (of_Z (n - 10))) (DY * IZR (n - 10)) (335 * u24)) by (apply times; [lia|rewrite (Rabs_pos_eq (IZR (n - 10))); lra|exact dy1_apx]).
  assert (A3' : apx (fmul dx1 (of_Z 3)) (DX * 3) (7 * u24)).
  { apply apx_weaken with (IZR 3 * (2 * u24) + u24); [|lra]. apply mul29; [exact dx1_apx|lia|]. rewrite Rabs_mult, (Rabs_pos_eq 3) by lra. unfold big29. lra. }
  assert (E : Q - DX * 3 = T + IZR (n - 10) * DX) by (unfold DX; rewrite N'; field; lra).
  assert (E2 : expected = Q - DX * 3 + DY * IZR (n - 10)) by (rewrite E; unfold expected; lra).
  pose proof expected_small as ES. rewrite E2 in *. apply apx_weaken with (0 + 7 * u24 + u24 + 335 * u24 + u24); [|lra].
  apply add29; [apply sub29; [now apply fin_apx|exact A3'|]|exact A10|].
  - assert (Rabs (Q - DX * 3) <= M22 + 699051) by (apply Rabs_le_inv in X1; apply Rabs_le; lra). unfold big29, M22 in *. lra.
  - unfold big29, M22 in *. lra.
Qed.
Lemma estimate_y : apx (fsub (fadd b (fmul dx1 (of_Z (n - 10)))) (fmul dy1 (of_Z 3))) expected (400 * u24).
Proof.
  assert (U : u24 = / 16777216) by reflexivity. pose proof DX_small as [X1 X2]. pose proof DY_small as [Y1 Y2]. pose proof n10 as [N N']. pose proof n7.
  assert (A10 : apx (fmul dx1 (of_Z (n - 10))) (DX * IZR (n - 10)) (335 * u24)) by (apply times; [lia|rewrite (Rabs_pos_eq (IZR (n - 10))); lra|exact dx1_apx]).
  assert (A3' : apx (fmul dy1 (of_Z 3)) (DY * 3) (7 * u24)).
  { apply apx_weaken with (IZR 3 * (2 * u24) + u24); [|lra]. apply mul29; [exact dy1_apx|lia|]. rewrite Rabs_mult, (Rabs_pos_eq 3) by lra. unfold big29. lra. }
  assert (E : B - DY * 3 = T + IZR (n - 10) * DY) by (unfold DY; rewrite N'; field; lra).
  assert (E2 : expected = B + DX * IZR (n - 10) - DY * 3) by (unfold expected; lra).
  pose proof expected_small as ES. rewrite E2 in *. apply apx_weaken with (0 + 335 * u24 + u24 + 7 * u24 + u24); [|lra].
  rewrite <- (Rabs_pos_eq (IZR (n - 10))) in X2 by lra. rewrite <- Rabs_mult in X2. apply Rabs_le_inv in X2.
  apply sub29; [apply add29; [now apply fin_apx|exact A10|]|exact A3'|].
  - assert (Rabs (B + DX * IZR (n - 10)) <= 2 * M22) by (apply Rabs_le; lra). unfold big29, M22 in *. lra.
  - unfold big29, M22 in *. lra.
Qed.

(** [i] half steps along the rows and [j] along the columns *)
Lemma half_fin k : (Z.abs k <= 3)%Z -> fin (half k) (IZR k / 2).
Proof.
  intros Hk. assert (R : Rabs (IZR k) <= 3) by (rewrite <- abs_IZR; apply IZR_le; lia).
  assert (E : rnd (IZR k / 2) = IZR k / 2).
  { replace (IZR k / 2) with (IZR k * bpow radix2 (-1)) by (simpl; lra). apply rnd_dyadic; lia. }
  rewrite <- E. apply fin_fdiv; [apply fin_of_Z; lia|apply fin_of_Z; lia|lra|]. apply small_big with 29%Z; [lia|].
  unfold Rdiv. rewrite Rabs_mult, (Rabs_pos_eq (/ 2)) by lra. change (bpow radix2 29) with big29. unfold big29. lra.
Qed.

Lemma times_half a A k : (Z.abs k <= 3)%Z -> Rabs A <= 233017 -> apx a A (2 * u24) -> apx (fmul a (half k)) (A * (IZR k / 2)) (4 * u24).
Proof.
  intros Hk HA AP. assert (U : u24 = / 16777216) by reflexivity. pose proof (fin_apx _ _ (half_fin k Hk)) as H.
  assert (R : Rabs (IZR k / 2) <= 3 / 2).
  { unfold Rdiv. rewrite Rabs_mult, (Rabs_pos_eq (/ 2)) by lra. apply Rmult_le_compat_r; [lra|]. rewrite <- abs_IZR. apply IZR_le. lia. }
  assert (Rabs (IZR k / 2) * (2 * u24) <= 3 / 2 * (2 * u24)) by (apply Rmult_le_compat_r; lra).
  apply apx_weaken with (Rabs A * 0 + Rabs (IZR k / 2) * (2 * u24) + 2 * u24 * 0 + bpow radix2 (29 - 53)).
  - apply apx_fmul; auto; [lia|]. rewrite Rabs_mult. change (bpow radix2 29) with big29. unfold big29.
    assert (Rabs A * Rabs (IZR k / 2) <= 233017 * (3 / 2)) by (apply Rmult_le_compat; try apply Rabs_pos; lra). lra.
  - change (bpow radix2 (29 - 53)) with u24. lra.
Qed.

Definition tried (i j : Z) : R := expected + IZR i / 2 * DX + IZR j / 2 * DY.

Lemma half_step a k : (Z.abs k <= 3)%Z -> Rabs a <= 233017 -> Rabs (IZR k / 2 * a) <= 349526.
Proof.
  intros Hk Ha. rewrite Rabs_mult. assert (Rabs (IZR k / 2) <= 3 / 2).
  { unfold Rdiv. rewrite Rabs_mult, (Rabs_pos_eq (/ 2)) by lra. apply Rmult_le_compat_r; [lra|]. rewrite <- abs_IZR. apply IZR_le. lia. }
  apply Rle_trans with (3 / 2 * 233017); [apply Rmult_le_compat; try apply Rabs_pos; lra|lra].
Qed.

Lemma tried_small i j : (Z.abs i <= 3)%Z -> (Z.abs j <= 3)%Z -> Rabs (tried i j) <= 4 * M22.
Proof.
  intros Hi Hj. pose proof DX_small as [X1 _]. pose proof DY_small as [Y1 _]. pose proof expected_small as E.
  pose proof (half_step _ i Hi X1) as P1. pose proof (half_step _ j Hj Y1) as P2. unfold tried.
  apply Rabs_le_inv in E, P1, P2. unfold M22 in *. apply Rabs_le. lra.
Qed.

(** all the shapes of the sums *)
Lemma tried_apx e f1 f2 i j : (Z.abs i <= 3)%Z -> (Z.abs j <= 3)%Z -> apx e expected (400 * u24) ->
  apx f1 (IZR i / 2 * DX) (4 * u24) -> apx f2 (IZR j / 2 * DY) (4 * u24) -> apx (fadd (fadd e f1) f2) (tried i j) (420 * u24).
Proof.
  intros Hi Hj AE A1 A2. assert (U : u24 = / 16777216) by reflexivity. pose proof (tried_small i j Hi Hj) as TS. pose proof (tried_small i 0 Hi ltac:(lia)) as TS'.
  unfold tried in *. apply apx_weaken with (400 * u24 + 4 * u24 + u24 + 4 * u24 + u24); [|lra].
  replace (expected + IZR i / 2 * DX + 0 / 2 * DY) with (expected + IZR i / 2 * DX) in TS' by lra.
  apply add29; [apply add29; [exact AE|exact A1|]|exact A2|]; unfold big29, M22 in *; lra.
Qed.
Lemma tried_apx_sub e f1 f2 i j : (Z.abs i <= 3)%Z -> (Z.abs j <= 3)%Z -> apx e expected (400 * u24) ->
  apx f1 (IZR i / 2 * DX) (4 * u24) -> apx f2 (IZR j / 2 * DY) (4 * u24) -> apx (fsub (fadd e f1) f2) (tried i (- j)) (420 * u24).
Proof.
  intros Hi Hj AE A1 A2. assert (U : u24 = / 16777216) by reflexivity. pose proof (tried_small i (- j) Hi ltac:(lia)) as TS. pose proof (tried_small i 0 Hi ltac:(lia)) as TS'.
  unfold tried in *. rewrite opp_IZR in *. apply apx_weaken with (400 * u24 + 4 * u24 + u24 + 4 * u24 + u24); [|lra].
  replace (expected + IZR i / 2 * DX + 0 / 2 * DY) with (expected + IZR i / 2 * DX) in TS' by lra.
  replace (expected + IZR i / 2 * DX + - IZR j / 2 * DY) with (expected + IZR i / 2 * DX - IZR j / 2 * DY) in * by lra.
  apply sub29; [apply add29; [exact AE|exact A1|]|exact A2|]; unfold big29, M22 in *; lra.
Qed.
Lemma sub_tried_apx e f1 f2 i j : (Z.abs i <= 3)%Z -> (Z.abs j <= 3)%Z -> apx e expected (400 * u24) ->
  apx f1 (IZR i / 2 * DX) (4 * u24) -> apx f2 (IZR j / 2 * DY) (4 * u24) -> apx (fadd (fsub e f1) f2) (tried (- i) j) (420 * u24).
Proof.
  intros Hi Hj AE A1 A2. assert (U : u24 = / 16777216) by reflexivity. pose proof (tried_small (- i) j ltac:(lia) Hj) as TS. pose proof (tried_small (- i) 0 ltac:(lia) ltac:(lia)) as TS'.
  unfold tried in *. rewrite opp_IZR in *. apply apx_weaken with (400 * u24 + 4 * u24 + u24 + 4 * u24 + u24); [|lra].
  replace (expected + - IZR i / 2 * DX + 0 / 2 * DY) with (expected - IZR i / 2 * DX) in TS' by lra.
  replace (expected + - IZR i / 2 * DX + IZR j / 2 * DY) with (expected - IZR i / 2 * DX + IZR j / 2 * DY) in * by lra.
  apply add29; [apply sub29; [exact AE|exact A1|]|exact A2|]; unfold big29, M22 in *; lra.
Qed.

(** *** the points probed around a tried point *)
Lemma scale_apx j : (Z.abs j <= 3)%Z -> apx (fadd (of_Z 1) (fdiv (of_Z j) (of_Z 10))) (1 + IZR j / 10) (/ 1000000000000000).
Proof.
  intros Hj. assert (R : Rabs (IZR j) <= 3) by (rewrite <- abs_IZR; apply IZR_le; lia).
  assert (S : Rabs (IZR j / 10) <= 3 / 10) by (unfold Rdiv; rewrite Rabs_mult, (Rabs_pos_eq (/ 10)) by lra; apply Rmult_le_compat_r; lra).
  assert (D : apx (fdiv (of_Z j) (of_Z 10)) (IZR j / 10) (0 / Rabs (IZR 10) + bpow radix2 (0 - 53))).
  { apply apx_fdiv; [lia|apply apx_of_Z; lia|apply fin_of_Z; lia|lra|]. rewrite (Rabs_pos_eq (IZR 10)) by lra. unfold Rdiv at 2. rewrite Rmult_0_l. simpl bpow. lra. }
  assert (B0 : bpow radix2 (0 - 53) = / 9007199254740992) by reflexivity. assert (B' : bpow radix2 (1 - 53) = / 4503599627370496) by reflexivity.
  rewrite B0, (Rabs_pos_eq (IZR 10)) in D by lra.
  apply apx_weaken with (0 + (0 / 10 + / 9007199254740992) + bpow radix2 (1 - 53)); [|rewrite B'; lra].
  apply apx_fadd; [lia|apply apx_of_Z; lia|exact D|]. apply Rabs_le_inv in S. simpl bpow. assert (Rabs (1 + IZR j / 10) <= 13 / 10) by (apply Rabs_le; lra). lra.
Qed.

Definition scaled (j : Z) : R := 1 + IZR j / 10.
Lemma scaled_range j : (Z.abs j <= 3)%Z -> 7 / 10 <= scaled j <= 13 / 10.
Proof.
  intros Hj. assert (R : Rabs (IZR j) <= 3) by (rewrite <- abs_IZR; apply IZR_le; lia). apply Rabs_le_inv in R. unfold scaled. lra.
Qed.

Lemma scaled_step a A j : (Z.abs j <= 3)%Z -> Rabs A <= 233017 -> apx a A (2 * u24) ->
  apx (fmul a (fadd (of_Z 1) (fdiv (of_Z j) (of_Z 10)))) (A * scaled j) (5 * u24) /\ Rabs (A * scaled j) <= 302923.
Proof.
  intros Hj HA AP. assert (U : u24 = / 16777216) by reflexivity. pose proof (scale_apx j Hj) as S. pose proof (scaled_range j Hj) as SR. fold (scaled j) in S.
  pose proof (Rabs_pos A) as PA.
  assert (K : Rabs (A * scaled j) <= 302923).
  { rewrite Rabs_mult, (Rabs_pos_eq (scaled j)) by lra. apply Rle_trans with (233017 * (13 / 10)); [apply Rmult_le_compat; lra|lra]. }
  split; [|exact K].
  assert (E1 : Rabs A * / 1000000000000000 <= / 4000000000) by (apply Rle_trans with (233017 * / 1000000000000000); [apply Rmult_le_compat_r; lra|lra]).
  assert (E2 : Rabs (scaled j) * (2 * u24) <= 13 / 10 * (2 * u24)) by (rewrite Rabs_pos_eq by lra; apply Rmult_le_compat_r; lra).
  apply apx_weaken with (Rabs A * / 1000000000000000 + Rabs (scaled j) * (2 * u24) + 2 * u24 * / 1000000000000000 + bpow radix2 (29 - 53)).
  - apply apx_fmul; auto; [lia|]. change (bpow radix2 29) with big29. unfold big29. lra.
  - change (bpow radix2 (29 - 53)) with u24. lra.
Qed.

(** [i] modules along the rows and [k] along the columns of the pattern *)
Definition probe (a b j i k : Z) : R := tried a b + IZR i * (DX * scaled j) + IZR k * (DY * scaled j).
Lemma two_times s A k : (Z.abs k <= 2)%Z -> Rabs A <= 302923 -> apx s A (5 * u24) -> apx (fmul s (of_Z k)) (IZR k * A) (11 * u24) /\ Rabs (IZR k * A) <= 605846.
Proof.
  intros Hk HA AP. assert (U : u24 = / 16777216) by reflexivity. assert (R : Rabs (IZR k) <= 2) by (rewrite <- abs_IZR; apply IZR_le; lia).
  pose proof (Rabs_pos (IZR k)). assert (Rabs (IZR k) * (5 * u24) <= 2 * (5 * u24)) by (apply Rmult_le_compat_r; lra).
  assert (K : Rabs (A * IZR k) <= 605846) by (rewrite Rabs_mult; apply Rle_trans with (302923 * 2); [apply Rmult_le_compat; try apply Rabs_pos; lra|lra]).
  rewrite (Rmult_comm (IZR k)). split; [|exact K].
  apply apx_weaken with (Rabs (IZR k) * (5 * u24) + u24); [|lra]. apply mulz29; auto; [lia|]. unfold big29. lra.
Qed.
Context (x sx sy : f64) (a b0 j : Z) (Ha : (Z.abs a <= 3)%Z) (Hb : (Z.abs b0 <= 3)%Z) (Hj : (Z.abs j <= 3)%Z).
Context (AX : apx x (tried a b0) (420 * u24)) (SX : apx sx (DX * scaled j) (5 * u24)) (SY : apx sy (DY * scaled j) (5 * u24)).


Lemma steps_small : Rabs (DX * scaled j) <= 302923 /\ Rabs (DY * scaled j) <= 302923.
Proof.
  pose proof DX_small as [X1 _]. pose proof DY_small as [Y1 _].
  split; [apply (scaled_step dx1 DX j Hj X1 dx1_apx)|apply (scaled_step dy1 DY j Hj Y1 dy1_apx)].
Qed.

(** adding and subtracting steps, in any order *)
Lemma moved (op1 op2 : bool) f1 f2 P1 P2 : apx f1 P1 (11 * u24) -> apx f2 P2 (11 * u24) -> Rabs P1 <= 605846 -> Rabs P2 <= 605846 ->
  apx ((if op2 then fadd else fsub) ((if op1 then fadd else fsub) x f1) f2)
    (tried a b0 + (if op1 then P1 else - P1) + (if op2 then P2 else - P2)) (450 * u24) /\
  apx ((if op1 then fadd else fsub) x f1) (tried a b0 + (if op1 then P1 else - P1)) (450 * u24).
Proof.
  intros A1 A2 B1 B2. assert (U : u24 = / 16777216) by reflexivity. pose proof (tried_small a b0 Ha Hb) as TS.
  apply Rabs_le_inv in TS, B1, B2.
  assert (K1 : apx ((if op1 then fadd else fsub) x f1) (tried a b0 + (if op1 then P1 else - P1)) (432 * u24)).
  { apply apx_weaken with (420 * u24 + 11 * u24 + u24); [|lra]. destruct op1; [apply add29|apply sub29]; auto;
    (match goal with |- Rabs ?v + _ <= _ => assert (Rabs v <= 5 * M22) by (apply Rabs_le; unfold M22 in *; lra) end; unfold big29, M22 in *; lra). }
  split; [|eapply apx_weaken; [exact K1|lra]].
  apply apx_weaken with (432 * u24 + 11 * u24 + u24); [|lra].
  destruct op2; [apply add29|apply sub29]; auto;
    (match goal with |- Rabs ?v + _ <= _ => assert (Rabs v <= 5 * M22) by (apply Rabs_le; destruct op1; unfold M22 in *; lra) end; unfold big29, M22 in *; lra).
Qed.
End One.

(** *** pixels around points *)
Lemma max0_near a x d : Rabs (a - x) <= d -> Rabs (Rmax 0 a - Rmax 0 x) <= d.
Proof. intros H. apply Rabs_le_inv in H. apply Rabs_le. unfold Rmax. destruct (Rle_dec 0 a), (Rle_dec 0 x); lra. Qed.

Lemma round_holds x r : apx x r slack -> Rabs r <= 67108864 -> (0 <= round_u32 x)%Z /\ Rabs (IZR (round_u32 x) - Rmax 0 r) <= / 2 + / 64.
Proof.
  intros A H. destruct (round_pixel _ _ _ A) as (q & HQ & ->). unfold slack in HQ. pose proof (away_bounds q) as [B1 B2]. unfold pixel_of.
  apply Rabs_le_inv in HQ, H.
  assert (away q <= u32_max)%Z by (apply le_IZR; unfold u32_max; apply Rle_trans with 100000000; [lra|apply IZR_le; lia]).
  split; [unfold u32_max in *; lia|].
  replace (Z.min u32_max (Z.max 0 (away q))) with (Z.max 0 (away q)) by (unfold u32_max in *; lia).
  replace (IZR (Z.max 0 (away q))) with (Rmax 0 (IZR (away q))).
  - apply max0_near, Rabs_le. lra.
  - unfold Rmax. destruct (Rle_dec 0 (IZR (away q))) as [L|L].
    + rewrite Z.max_r; [reflexivity|]. now apply le_IZR.
    + rewrite Z.max_l; [reflexivity|]. apply le_IZR. lra.
Qed.

Lemma get_seen g p x y v : apx (px p) x slack -> apx (py p) y slack -> Rabs x <= 67108864 -> Rabs y <= 67108864 ->
  get_pixel g (round_u32 (px p)) (round_u32 (py p)) = Ok v -> seen (pixel g) x y v.
Proof.
  intros A B HX HY E. destruct (round_holds _ _ A HX) as [P1 Q1]. destruct (round_holds _ _ B HY) as [P2 Q2].
  exists (round_u32 (px p)), (round_u32 (py p)). do 2 (split; [assumption|]). split; [now split|]. unfold pixel. now rewrite E.
Qed.
Lemma get_clear g p x y v : apx (px p) x slack -> apx (py p) y slack -> Rabs x <= 67108864 -> Rabs y <= 67108864 ->
  clearly (pixel g) x y v -> get_pixel g (round_u32 (px p)) (round_u32 (py p)) = Ok v.
Proof.
  intros A B HX HY H. destruct (round_holds _ _ A HX) as [P1 Q1]. destruct (round_holds _ _ B HY) as [P2 Q2].
  apply pixel_get, H; auto. now split.
Qed.

Lemma all_ok_inv l : all_ok l = Ok true -> Forall (fun c => c = Ok true) l.
Proof.
  induction l as [|c l IH]; intros E; [constructor|]. cbn [all_ok] in E. apply bind_ok in E. destruct E as (b & -> & E).
  destruct b; [|discriminate]. constructor; [reflexivity|]. now apply IH.
Qed.

(** *** the scans around the centre *)
Lemma scan_right f w : forall k a r, Z.to_nat (w - a) = k -> (a <= w)%Z -> first_white f (zrange a w) w = Ok r ->
  ((a <= r < w)%Z /\ f r = Ok 255%N \/ r = w) /\ (forall z, (a <= z < r)%Z -> exists v, f z = Ok v /\ v <> 255%N).
Proof.
  induction k as [|k IH]; intros a r Hk Ha E.
  - rewrite zrange_nil in E by lia. injection E as <-. split; [now right|]. intros z Hz. lia.
  - rewrite zrange_cons in E by lia. cbn [first_white] in E. apply bind_ok in E. destruct E as (v & EV & E). destruct (N.eqb_spec v 255) as [->|NV].
    + injection E as <-. split; [left; split; [lia|exact EV]|]. intros z Hz. lia.
    + destruct (IH (a + 1)%Z r ltac:(lia) ltac:(lia) E) as [A B]. split.
      * destruct A as [[A1 A2]|A]; [left; split; [lia|exact A2]|now right].
      * intros z Hz. destruct (Z.eq_dec z a) as [->|N]; [now exists v|]. apply B. lia.
Qed.
Lemma scan_left f : forall k x l, Z.to_nat x = k -> (0 <= x)%Z -> first_white f (rev (zrange 0 x)) 0 = Ok l ->
  ((0 <= l < x)%Z /\ f l = Ok 255%N \/ l = 0%Z /\ (x = 0%Z \/ exists v, f 0%Z = Ok v /\ v <> 255%N)) /\ (forall z, (l < z < x)%Z -> exists v, f z = Ok v /\ v <> 255%N).
Proof.
  induction k as [|k IH]; intros x l Hk Hx E.
  - replace x with 0%Z in * by lia. rewrite zrange_nil in E by lia. injection E as <-. split; [right; split; [reflexivity|now left]|]. intros z Hz. lia.
  - rewrite (zrange_app 0 (x - 1) x), (zrange_cons (x - 1) x), (zrange_nil (x - 1 + 1) x) in E by lia. rewrite rev_app_distr in E. cbn [rev app first_white] in E.
    apply bind_ok in E. destruct E as (v & EV & E). destruct (N.eqb_spec v 255) as [->|NV].
    + injection E as <-. split; [left; split; [lia|exact EV]|]. intros z Hz. lia.
    + destruct (IH (x - 1)%Z l ltac:(lia) ltac:(lia) E) as [A B].
      assert (B' : forall z, (l < z < x)%Z -> exists v, f z = Ok v /\ v <> 255%N).
      { intros z Hz. destruct (Z.eq_dec z (x - 1)) as [->|N]; [now exists v|]. apply B. lia. }
      split; [|exact B']. destruct A as [[A1 A2]|[-> [A|A]]]; [left; split; [lia|exact A2]|right; split; [reflexivity|right]|right; split; [reflexivity|now right]].
      replace (x - 1)%Z with 0%Z in EV by lia. now exists v.
Qed.
Lemma scan_total f l d : (forall x, In x l -> exists v, f x = Ok v) -> exists r, first_white f l d = Ok r.
Proof.
  induction l as [|x l IH]; intros H; cbn [first_white]; [now exists d|]. destruct (H x) as (v & ->); [now left|]. cbn [bind].
  destruct (N.eqb v 255); [now exists x|]. apply IH. intros y Hy. apply H. now right.
Qed.

Lemma run_unique white w x l r l' r' : (0 <= x)%Z -> run_between white w x l r -> run_between white w x l' r' -> l = l' /\ r = r'.
Proof.
  intros Hx [[A1 A2] [B1 B2]] [[C1 C2] [D1 D2]]. split.
  - destruct (Z.lt_total l l') as [L|[L|L]]; auto; exfalso.
    + destruct C1 as [[C1 C3]|[-> C1]]; [exact (A2 l' ltac:(lia) C3)|]. destruct A1 as [[A1 _]|[-> _]]; lia.
    + destruct A1 as [[A1 A3]|[-> A1]]; [exact (C2 l ltac:(lia) A3)|]. destruct C1 as [[C1 _]|[-> _]]; lia.
  - destruct (Z.lt_total r r') as [L|[L|L]]; auto; exfalso.
    + destruct B1 as [[B1 B3]| ->]; [exact (D2 r ltac:(lia) B3)|]. destruct D1 as [[D1 _]| ->]; lia.
    + destruct D1 as [[D1 D3]| ->]; [exact (B2 r' ltac:(lia) D3)|]. destruct B1 as [[B1 _]| ->]; lia.
Qed.

(** the average of two pixel numbers *)
Lemma average2 l r : (0 <= l <= 2 ^ 22)%Z -> (0 <= r <= 2 ^ 22)%Z -> fin (fdiv (fadd (of_Z l) (of_Z r)) (of_Z 2)) (IZR (l + r) / 2).
Proof.
  intros Hl Hr.
  assert (FA : fin (fadd (of_Z l) (of_Z r)) (IZR (l + r))).
  { rewrite <- rnd_int by lia. rewrite plus_IZR. apply fin_fadd; try (apply fin_of_Z; lia).
    rewrite <- plus_IZR. apply small_big with 29%Z; [lia|]. rewrite <- abs_IZR. change (bpow radix2 29) with (IZR 536870912). apply IZR_le. lia. }
  replace (IZR (l + r) / 2) with (rnd (IZR (l + r) / IZR 2)).
  - apply fin_fdiv; [exact FA|apply fin_of_Z; lia|lra|].
    apply small_big with 29%Z; [lia|]. unfold Rdiv. rewrite Rabs_mult, (Rabs_pos_eq (/ 2)) by lra.
    assert (Rabs (IZR (l + r)) <= IZR 536870912) by (rewrite <- abs_IZR; apply IZR_le; lia). change (bpow radix2 29) with (IZR 536870912). pose proof (Rabs_pos (IZR (l + r))). lra.
  - replace (IZR (l + r) / IZR 2) with (IZR (l + r) * bpow radix2 (-1)) by (simpl; lra).
    rewrite rnd_dyadic by lia. simpl. lra.
Qed.
Lemma round_average x l r : (0 <= l <= 2 ^ 22)%Z -> (0 <= r <= 2 ^ 22)%Z -> fin x (IZR (l + r) / 2) -> (2 * round_u32 x = l + r \/ 2 * round_u32 x = l + r + 1)%Z.
Proof.
  intros Hl Hr F. rewrite (round_u32_R _ _ F). assert (0 <= IZR (l + r)) by (apply IZR_le; lia).
  assert (E : away (IZR (l + r) / 2) = ((l + r + 1) / 2)%Z).
  { rewrite away_pos by lra. apply Zfloor_imp. pose proof (Z.div_mod (l + r + 1) 2 ltac:(lia)) as DM. pose proof (Z.mod_pos_bound (l + r + 1) 2 ltac:(lia)).
    set (k := ((l + r + 1) / 2)%Z) in *. assert (K : (2 * k <= l + r + 1 < 2 * k + 2)%Z) by lia.
    destruct K as [K1 K2]. apply IZR_le in K1. apply IZR_lt in K2. rewrite !plus_IZR, !mult_IZR in *. lra. }
  rewrite E. pose proof (Z.div_mod (l + r + 1) 2 ltac:(lia)). pose proof (Z.mod_pos_bound (l + r + 1) 2 ltac:(lia)). unfold u32_max. lia.
Qed.

(** *** bilinear maps *)
Definition plane (t dx dd dy row column : R) : R := t + (row - 3) * dy + (column - 3) * (dx + (row - 3) * dd).
Lemma grid_plane t dx dd dy r c : grid t dx dd dy r c = plane t dx dd dy (INR r) (INR c).
Proof. reflexivity. Qed.
Definition bend (n : Z) (t q b al : R) : R := (al - expected n t q b) / (IZR (n - 10) * IZR (n - 10)).

Lemma plane_bilinear t dx dd dy : bilinear (plane t dx dd dy).
Proof. exists (t - 3 * dy - 3 * dx + 9 * dd), (dy - 3 * dd), (dx - 3 * dd), dd. intros. unfold plane. ring. Qed.
Lemma plane_through n t q b al : (25 <= n)%Z -> through n (plane t (DX n t q) (bend n t q b al) (DY n t b)) t q b al.
Proof.
  intros Hn. assert (N : 25 <= IZR n) by now apply IZR_le. unfold through, plane, bend, expected, DX, DY. rewrite !minus_IZR.
  repeat split; field; lra.
Qed.
Lemma bilinear_unique n f t q b al : (25 <= n)%Z -> bilinear f -> through n f t q b al ->
  forall row column, f row column = plane t (DX n t q) (bend n t q b al) (DY n t b) row column.
Proof.
  intros Hn (k0 & k1 & k2 & k3 & HF) (T1 & T2 & T3 & T4) row column. assert (N : 25 <= IZR n) by now apply IZR_le. rewrite !HF in *.
  rewrite <- T1, <- T2, <- T3, <- T4. unfold plane, bend, expected, DX, DY. rewrite !minus_IZR. field. lra.
Qed.

(** *** the rows that are read *)
Lemma sample_row_reads g : forall n line dx data data', sample_row n g line dx data = Ok data' ->
  exists tail, data' = data ++ tail /\ length tail = n /\
  forall i, (i < n)%nat -> exists v, nth_error tail i = Some v /\ get_pixel g (round_u32 (steps i (px line) (dlx dx))) (round_u32 (steps i (py line) (dly dx))) = Ok v.
Proof.
  induction n as [|n IH]; intros line dx data data' E; cbn [sample_row] in E.
  - injection E as <-. exists []. rewrite app_nil_r. repeat split; auto. intros i Hi. lia.
  - apply bind_ok in E. destruct E as (v & EV & E). destruct (IH _ _ _ _ E) as (tail & -> & LT & HT).
    exists (v :: tail). rewrite <- app_assoc. split; [reflexivity|]. split; [cbn [length]; now rewrite LT|].
    intros [|i] Hi; [exists v; split; [reflexivity|exact EV]|]. destruct (HT i ltac:(lia)) as (w & W1 & W2). exists w. split; [exact W1|exact W2].
Qed.
Lemma sample_rows_reads g p cols : forall n start dx dy data data', sample_rows n cols g p start dx dy data = Ok data' ->
  exists tail, data' = data ++ tail /\ length tail = (n * cols)%nat /\
  forall r c, (r < n)%nat -> (c < cols)%nat -> exists v, nth_error tail (r * cols + c) = Some v /\
     get_pixel g (round_u32 (coord (px start) (dlx dx) (dlx (pddx p)) (dlx dy) (dlx (pddy p)) r c))
                 (round_u32 (coord (py start) (dly dx) (dly (pddx p)) (dly dy) (dly (pddy p)) r c)) = Ok v.
Proof.
  induction n as [|n IH]; intros start dx dy data data' E; cbn [sample_rows] in E.
  - injection E as <-. exists []. rewrite app_nil_r. repeat split; auto. intros r c Hr. lia.
  - apply bind_ok in E. destruct E as (d & E1 & E). destruct (sample_row_reads _ _ _ _ _ _ E1) as (t1 & -> & L1 & R1).
    destruct (IH _ _ _ _ _ E) as (t2 & -> & L2 & R2). exists (t1 ++ t2). rewrite <- app_assoc. split; [reflexivity|]. split; [rewrite app_length; lia|].
    intros [|r] c Hr Hc.
    + destruct (R1 c Hc) as (v & V1 & V2). exists v. split; [cbn [Nat.mul Nat.add]; rewrite nth_error_app1 by lia; exact V1|exact V2].
    + destruct (R2 r c ltac:(lia) Hc) as (v & V1 & V2). exists v. split; [|exact V2].
      rewrite nth_error_app2 by lia. replace (S r * cols + c - length t1)%nat with (r * cols + c)%nat by lia. exact V1.
Qed.

Lemma ring_even k i : ring_dark (- k) (- i) = ring_dark k i.
Proof. unfold ring_dark. now rewrite !Z.abs_opp. Qed.

Section Two.
Context (g : gray) (HW : wf_gray g) (WG : (gw g <= 2 ^ 22)%Z) (HG : (gh g <= 2 ^ 22)%Z).
Context (n : Z) (HN : (25 <= n <= 177)%Z) (loc : qrloc) (tx ty qx qy bx by_ : R).
Context (F1 : fin (px (top_left loc)) tx) (F2 : fin (py (top_left loc)) ty) (F3 : fin (px (top_right loc)) qx) (F4 : fin (py (top_right loc)) qy).
Context (F5 : fin (px (bottom_left loc)) bx) (F6 : fin (py (bottom_left loc)) by_).
Context (H1 : 0 <= tx <= M22) (H2 : 0 <= ty <= M22) (H3 : 0 <= qx <= M22) (H4 : 0 <= qy <= M22) (H5 : 0 <= bx <= M22) (H6 : 0 <= by_ <= M22).

Definition dX2 : delta := ddiv (pdiff (top_right loc) (top_left loc)) (of_Z (n - 7)).
Definition dY2 : delta := ddiv (pdiff (bottom_left loc) (top_left loc)) (of_Z (n - 7)).
Definition at_tried (p : point) (a b : Z) : Prop := apx (px p) (tried n tx qx bx a b) (420 * u24) /\ apx (py p) (tried n ty qy by_ a b) (420 * u24).
Definition est2 : point := estimate loc dX2 dY2 (n - 10).
Definition scale_of (j : Z) : f64 := fadd (of_Z 1) (fdiv (of_Z j) (of_Z 10)).

Lemma est2_apx : apx (px est2) (expected n tx qx bx) (400 * u24) /\ apx (py est2) (expected n ty qy by_) (400 * u24).
Proof. split; [apply estimate_x|apply estimate_y]; auto. Qed.

Lemma at_expected : at_tried est2 0 0.
Proof.
  destruct est2_apx as [A B]. assert (U : u24 = / 16777216) by reflexivity. unfold at_tried, tried.
  split; (eapply apx_weaken; [eapply apx_eq; [eassumption|lra]|lra]).
Qed.

Lemma half_moves i : (Z.abs i <= 3)%Z ->
  (apx (dlx (dmul (half i) dX2)) (IZR i / 2 * DX n tx qx) (4 * u24) /\ apx (dly (dmul (half i) dX2)) (IZR i / 2 * DX n ty qy) (4 * u24)) /\
  (apx (dlx (dmul (half i) dY2)) (IZR i / 2 * DY n tx bx) (4 * u24) /\ apx (dly (dmul (half i) dY2)) (IZR i / 2 * DY n ty by_) (4 * u24)).
Proof.
  intros Hi. assert (K : forall a A, Rabs A <= 233017 -> apx a A (2 * u24) -> apx (fmul a (half i)) (IZR i / 2 * A) (4 * u24)).
  { intros a A HA AP. apply apx_eq with (A * (IZR i / 2)); [now apply times_half|lra]. }
  split; split; cbn [dmul dlx dly]; apply K.
  - now apply (DX_small n HN tx qx). - now apply dx1_apx.
  - now apply (DX_small n HN ty qy). - now apply dx1_apx.
  - now apply (DY_small n HN tx bx). - now apply dy1_apx.
  - now apply (DY_small n HN ty by_). - now apply dy1_apx.
Qed.

(** all half steps up to three in each direction are tried, in all scales *)
Lemma search_complete a b j : (Z.abs a <= 3)%Z -> (Z.abs b <= 3)%Z -> In j [0; 1; -1; 2; -2; 3]%Z ->
  exists p, In (scale_of j, p) (search_points est2 dX2 dY2) /\ at_tried p a b.
Proof.
  intros Ha Hb Hj. destruct est2_apx as [E1 E2].
  destruct (Z.eq_dec (Z.max (Z.abs a) (Z.abs b)) 0) as [Z0|NZ].
  { exists est2. assert (a = 0 /\ b = 0)%Z as [-> ->] by lia. split; [|exact at_expected].
    unfold search_points. apply in_flat_map. exists 0%Z. split; [apply in_zrange; lia|]. apply in_flat_map. exists j. split; [exact Hj|].
    change (0 =? 0)%Z with true. now left. }
  set (i := Z.max (Z.abs a) (Z.abs b)) in *. assert (Hi : (0 < i < 4)%Z) by lia.
  assert (K : forall p, In (scale_of j, p) (flat_map (fun x => [(scale_of j, psub (padd est2 (dmul (half x) dX2)) (dmul (half i) dY2)); (scale_of j, padd (padd est2 (dmul (half x) dX2)) (dmul (half i) dY2))]) (zrange (- i) (i + 1))
      ++ flat_map (fun y => [(scale_of j, padd (psub est2 (dmul (half i) dX2)) (dmul (half y) dY2)); (scale_of j, padd (padd est2 (dmul (half i) dX2)) (dmul (half y) dY2))]) (zrange (- i + 1) i)) ->
      In (scale_of j, p) (search_points est2 dX2 dY2)).
  { intros p HI. unfold search_points. apply in_flat_map. exists i. split; [apply in_zrange; lia|]. apply in_flat_map. exists j. split; [exact Hj|].
    destruct (Z.eqb_spec i 0); [lia|]. exact HI. }
  destruct (half_moves a Ha) as [[AX1 AX2] _]. destruct (half_moves b Hb) as [_ [AY1 AY2]]. destruct (half_moves i ltac:(lia)) as [[IX1 IX2] [IY1 IY2]].
  destruct (Z.eq_dec (Z.abs b) i) as [Eb|Nb]; [|assert (Ea : Z.abs a = i) by lia].
  - destruct (Z_lt_dec b 0).
    + exists (psub (padd est2 (dmul (half a) dX2)) (dmul (half i) dY2)). split.
      * apply K, in_or_app. left. apply in_flat_map. exists a. split; [apply in_zrange; lia|now left].
      * replace b with (- i)%Z by lia. split; (apply tried_apx_sub; auto; lia).
    + exists (padd (padd est2 (dmul (half a) dX2)) (dmul (half i) dY2)). split.
      * apply K, in_or_app. left. apply in_flat_map. exists a. split; [apply in_zrange; lia|right; now left].
      * replace b with i by lia. split; (apply tried_apx; auto; lia).
  - destruct (Z_lt_dec a 0).
    + exists (padd (psub est2 (dmul (half i) dX2)) (dmul (half b) dY2)). split.
      * apply K, in_or_app. right. apply in_flat_map. exists b. split; [apply in_zrange; lia|now left].
      * replace a with (- i)%Z by lia. split; (apply sub_tried_apx; auto; lia).
    + exists (padd (padd est2 (dmul (half i) dX2)) (dmul (half b) dY2)). split.
      * apply K, in_or_app. right. apply in_flat_map. exists b. split; [apply in_zrange; lia|right; now left].
      * replace a with i by lia. split; (apply tried_apx; auto; lia).
Qed.

Definition scales : list Z := [0; 1; -1; 2; -2; 3]%Z.
Lemma scales_small j : In j scales -> (Z.abs j <= 3)%Z.
Proof. unfold scales. cbn [In]. lia. Qed.

(** ... and nothing else *)
Lemma search_sound s p : In (s, p) (search_points est2 dX2 dY2) -> exists a b j, (Z.abs a <= 3)%Z /\ (Z.abs b <= 3)%Z /\ In j scales /\ s = scale_of j /\ at_tried p a b.
Proof.
  intros HI. destruct est2_apx as [E1 E2]. unfold search_points in HI. apply in_flat_map in HI as (i & Hi & HI). apply in_zrange in Hi.
  apply in_flat_map in HI as (j & Hj & HI). change (In j scales) in Hj. fold (scale_of j) in HI.
  destruct (half_moves i ltac:(lia)) as [[IX1 IX2] [IY1 IY2]].
  destruct (Z.eqb_spec i 0) as [->|NZ].
  { destruct HI as [HI|[]]. injection HI as <- <-. exists 0%Z, 0%Z, j. do 2 (split; [lia|]). split; [exact Hj|]. split; [reflexivity|exact at_expected]. }
  apply in_app_or in HI as [HI|HI]; apply in_flat_map in HI as (x & Hx & HI); apply in_zrange in Hx; destruct (half_moves x ltac:(lia)) as [[AX1 AX2] [AY1 AY2]];
    destruct HI as [HI|[HI|[]]]; injection HI as <- <-.
  - exists x, (- i)%Z, j. do 2 (split; [lia|]). split; [exact Hj|]. split; [reflexivity|]. split; (apply tried_apx_sub; auto; lia).
  - exists x, i, j. do 2 (split; [lia|]). split; [exact Hj|]. split; [reflexivity|]. split; (apply tried_apx; auto; lia).
  - exists (- i)%Z, x, j. do 2 (split; [lia|]). split; [exact Hj|]. split; [reflexivity|]. split; (apply sub_tried_apx; auto; lia).
  - exists i, x, j. do 2 (split; [lia|]). split; [exact Hj|]. split; [reflexivity|]. split; (apply tried_apx; auto; lia).
Qed.

(** *** the probes *)
Definition probe_x (a b j i k : Z) : R := probe n tx qx bx a b j i k.
Definition probe_y (a b j i k : Z) : R := probe n ty qy by_ a b j i k.
Definition tested : list (Z * Z) := (* row, column *)
  [(-2, 2); (2, 2); (-2, 1); (2, 1); (-2, 0); (2, 0); (-2, -1); (2, -1);
   (1, -2); (1, 2); (1, -1); (-1, -1); (0, -2); (0, 2); (0, -1); (0, -1); (-1, 0); (1, 0)]%Z.

Section Probe.
Context (a b j : Z) (p : point) (Ha : (Z.abs a <= 3)%Z) (Hb : (Z.abs b <= 3)%Z) (Hj : (Z.abs j <= 3)%Z) (AT : at_tried p a b).
Definition at_probe (q : point) (k i : Z) : Prop := apx (px q) (probe_x a b j i k) slack /\ apx (py q) (probe_y a b j i k) slack.
Definition conditions (dx dy : delta) : list (res bool) :=
  let two := of_Z 2 in
  flat_map (fun x => [not_white g (psub (psub p (dmul (of_Z x) dx)) (dmul two dy)); not_white g (padd (psub p (dmul (of_Z x) dx)) (dmul two dy))]) [-2; -1; 0; 1]%Z
  ++ flat_map (fun y => [not_white g (psub (psub p (dmul two dx)) (dmul (of_Z y) dy)); not_white g (psub (padd p (dmul two dx)) (dmul (of_Z y) dy));
       not_black g (psub (psub p dx) (dmul (of_Z y) dy)); not_black g (padd (psub p dx) (dmul (of_Z y) dy))]) [-1; 0]%Z
  ++ [not_black g (psub p dy); not_black g (padd p dy)].

Notation sdx := (dmul (scale_of j) dX2).
Notation sdy := (dmul (scale_of j) dY2).

Lemma moves i : (Z.abs i <= 2)%Z ->
  ((apx (dlx (dmul (of_Z i) sdx)) (IZR i * (DX n tx qx * scaled j)) (11 * u24) /\ Rabs (IZR i * (DX n tx qx * scaled j)) <= 605846) /\
   (apx (dly (dmul (of_Z i) sdx)) (IZR i * (DX n ty qy * scaled j)) (11 * u24) /\ Rabs (IZR i * (DX n ty qy * scaled j)) <= 605846)) /\
  ((apx (dlx (dmul (of_Z i) sdy)) (IZR i * (DY n tx bx * scaled j)) (11 * u24) /\ Rabs (IZR i * (DY n tx bx * scaled j)) <= 605846) /\
   (apx (dly (dmul (of_Z i) sdy)) (IZR i * (DY n ty by_ * scaled j)) (11 * u24) /\ Rabs (IZR i * (DY n ty by_ * scaled j)) <= 605846)).
Proof.
  intros Hi. cbn [dmul dlx dly].
  assert (K : forall f A, Rabs A <= 233017 -> apx f A (2 * u24) -> apx (fmul (fmul f (scale_of j)) (of_Z i)) (IZR i * (A * scaled j)) (11 * u24) /\ Rabs (IZR i * (A * scaled j)) <= 605846).
  { intros f A HA AP. destruct (scaled_step f A j Hj HA AP) as [S1 S2]. now apply two_times. }
  split; split; apply K.
  - now apply (DX_small n HN tx qx). - now apply dx1_apx.
  - now apply (DX_small n HN ty qy). - now apply dx1_apx.
  - now apply (DY_small n HN tx bx). - now apply dy1_apx.
  - now apply (DY_small n HN ty by_). - now apply dy1_apx.
Qed.
Lemma unit_moves :
  ((apx (dlx sdx) (IZR 1 * (DX n tx qx * scaled j)) (11 * u24) /\ Rabs (IZR 1 * (DX n tx qx * scaled j)) <= 605846) /\
   (apx (dly sdx) (IZR 1 * (DX n ty qy * scaled j)) (11 * u24) /\ Rabs (IZR 1 * (DX n ty qy * scaled j)) <= 605846)) /\
  ((apx (dlx sdy) (IZR 1 * (DY n tx bx * scaled j)) (11 * u24) /\ Rabs (IZR 1 * (DY n tx bx * scaled j)) <= 605846) /\
   (apx (dly sdy) (IZR 1 * (DY n ty by_ * scaled j)) (11 * u24) /\ Rabs (IZR 1 * (DY n ty by_ * scaled j)) <= 605846)).
Proof.
  cbn [dmul dlx dly]. assert (U : u24 = / 16777216) by reflexivity.
  assert (K : forall f A, Rabs A <= 233017 -> apx f A (2 * u24) -> apx (fmul f (scale_of j)) (IZR 1 * (A * scaled j)) (11 * u24) /\ Rabs (IZR 1 * (A * scaled j)) <= 605846).
  { intros f A HA AP. destruct (scaled_step f A j Hj HA AP) as [S1 S2]. rewrite Rmult_1_l. split; [eapply apx_weaken; [exact S1|lra]|lra]. }
  split; split; apply K.
  - now apply (DX_small n HN tx qx). - now apply dx1_apx.
  - now apply (DX_small n HN ty qy). - now apply dx1_apx.
  - now apply (DY_small n HN tx bx). - now apply dy1_apx.
  - now apply (DY_small n HN ty by_). - now apply dy1_apx.
Qed.

(** two moves *)
Lemma moved_twice (op1 op2 : bool) d1 d2 i k :
  ((apx (dlx d1) (IZR i * (DX n tx qx * scaled j)) (11 * u24) /\ Rabs (IZR i * (DX n tx qx * scaled j)) <= 605846) /\
   (apx (dly d1) (IZR i * (DX n ty qy * scaled j)) (11 * u24) /\ Rabs (IZR i * (DX n ty qy * scaled j)) <= 605846)) ->
  ((apx (dlx d2) (IZR k * (DY n tx bx * scaled j)) (11 * u24) /\ Rabs (IZR k * (DY n tx bx * scaled j)) <= 605846) /\
   (apx (dly d2) (IZR k * (DY n ty by_ * scaled j)) (11 * u24) /\ Rabs (IZR k * (DY n ty by_ * scaled j)) <= 605846)) ->
  at_probe ((if op2 then padd else psub) ((if op1 then padd else psub) p d1) d2) (if op2 then k else - k) (if op1 then i else - i).
Proof.
  intros [[A1 B1] [A2 B2]] [[A3 B3] [A4 B4]]. destruct AT as [T1 T2]. assert (U : u24 = / 16777216 /\ slack = / 64) by (split; reflexivity).
  destruct (moved n HN tx qx bx H1 H3 H5 (px p) a b Ha Hb T1 op1 op2 _ _ _ _ A1 A3 B1 B3) as [MX _].
  destruct (moved n HN ty qy by_ H2 H4 H6 (py p) a b Ha Hb T2 op1 op2 _ _ _ _ A2 A4 B2 B4) as [MY _].
  unfold at_probe, probe_x, probe_y, probe. destruct op1, op2; cbn [padd psub px py]; rewrite ?opp_IZR;
    (split; (eapply apx_weaken; [eapply apx_eq; [eassumption|lra]|lra])).
Qed.
(** one move along a column *)
Lemma moved_once (op : bool) : at_probe ((if op then padd else psub) p sdy) (if op then 1 else -1) 0.
Proof.
  destruct unit_moves as [_ [[A1 B1] [A2 B2]]]. destruct AT as [T1 T2]. assert (U : u24 = / 16777216 /\ slack = / 64) by (split; reflexivity).
  destruct (moved n HN tx qx bx H1 H3 H5 (px p) a b Ha Hb T1 op op _ _ _ _ A1 A1 B1 B1) as [_ MX].
  destruct (moved n HN ty qy by_ H2 H4 H6 (py p) a b Ha Hb T2 op op _ _ _ _ A2 A2 B2 B2) as [_ MY].
  unfold at_probe, probe_x, probe_y, probe. destruct op; cbn [padd psub px py];
    (split; (eapply apx_weaken; [eapply apx_eq; [eassumption|rewrite ?(opp_IZR 1); lra]|lra])).
Qed.

Lemma conditions_probe : Forall2 (fun t c => exists q, c = (if ring_dark (fst t) (snd t) then not_white g q else not_black g q) /\ at_probe q (fst t) (snd t))
  tested (conditions sdx sdy).
Proof.
  assert (SS : forall i k, (Z.abs i <= 2)%Z -> (Z.abs k <= 2)%Z -> at_probe (psub (psub p (dmul (of_Z i) sdx)) (dmul (of_Z k) sdy)) (- k) (- i))
    by (intros i k Hi Hk; exact (moved_twice false false _ _ i k (proj1 (moves i Hi)) (proj2 (moves k Hk)))).
  assert (SA : forall i k, (Z.abs i <= 2)%Z -> (Z.abs k <= 2)%Z -> at_probe (padd (psub p (dmul (of_Z i) sdx)) (dmul (of_Z k) sdy)) k (- i))
    by (intros i k Hi Hk; exact (moved_twice false true _ _ i k (proj1 (moves i Hi)) (proj2 (moves k Hk)))).
  assert (AS : forall i k, (Z.abs i <= 2)%Z -> (Z.abs k <= 2)%Z -> at_probe (psub (padd p (dmul (of_Z i) sdx)) (dmul (of_Z k) sdy)) (- k) i)
    by (intros i k Hi Hk; exact (moved_twice true false _ _ i k (proj1 (moves i Hi)) (proj2 (moves k Hk)))).
  assert (S1 : forall k, (Z.abs k <= 2)%Z -> at_probe (psub (psub p sdx) (dmul (of_Z k) sdy)) (- k) (-1))
    by (intros k Hk; exact (moved_twice false false _ _ 1 k (proj1 unit_moves) (proj2 (moves k Hk)))).
  assert (A1 : forall k, (Z.abs k <= 2)%Z -> at_probe (padd (psub p sdx) (dmul (of_Z k) sdy)) k (-1))
    by (intros k Hk; exact (moved_twice false true _ _ 1 k (proj1 unit_moves) (proj2 (moves k Hk)))).
  unfold conditions, tested. cbn [flat_map app].
  repeat (apply Forall2_cons; [eexists; (split; [reflexivity|first
    [exact (SS (-2)%Z 2%Z ltac:(lia) ltac:(lia)) | exact (SS (-1)%Z 2%Z ltac:(lia) ltac:(lia)) | exact (SS 0%Z 2%Z ltac:(lia) ltac:(lia)) | exact (SS 1%Z 2%Z ltac:(lia) ltac:(lia))
    |exact (SA (-2)%Z 2%Z ltac:(lia) ltac:(lia)) | exact (SA (-1)%Z 2%Z ltac:(lia) ltac:(lia)) | exact (SA 0%Z 2%Z ltac:(lia) ltac:(lia)) | exact (SA 1%Z 2%Z ltac:(lia) ltac:(lia))
    |exact (SS 2%Z (-1)%Z ltac:(lia) ltac:(lia)) | exact (SS 2%Z 0%Z ltac:(lia) ltac:(lia)) | exact (AS 2%Z (-1)%Z ltac:(lia) ltac:(lia)) | exact (AS 2%Z 0%Z ltac:(lia) ltac:(lia))
    |exact (S1 (-1)%Z ltac:(lia)) | exact (S1 0%Z ltac:(lia)) | exact (A1 (-1)%Z ltac:(lia)) | exact (A1 0%Z ltac:(lia))
    |exact (moved_once false) | exact (moved_once true)]])|]).
  apply Forall2_nil.
Qed.
End Probe.
(** ** acceptance *)
Lemma probe_small a b j i k : (Z.abs a <= 3)%Z -> (Z.abs b <= 3)%Z -> (Z.abs j <= 3)%Z -> (Z.abs i <= 2)%Z -> (Z.abs k <= 2)%Z ->
  Rabs (probe_x a b j i k) <= 67108864 /\ Rabs (probe_y a b j i k) <= 67108864.
Proof.
  intros Ha Hb Hj Hi Hk. destruct (moves j Hj i Hi) as [[[_ A1] [_ A2]] _]. destruct (moves j Hj k Hk) as [_ [[_ B1] [_ B2]]].
  pose proof (tried_small n HN tx qx bx H1 H3 H5 a b Ha Hb) as T1. pose proof (tried_small n HN ty qy by_ H2 H4 H6 a b Ha Hb) as T2.
  unfold probe_x, probe_y, probe. unfold M22 in *. apply Rabs_le_inv in A1, A2, B1, B2, T1, T2. split; apply Rabs_le; lra.
Qed.
Lemma probe_centre a b j : probe_x a b j 0 0 = tried n tx qx bx a b /\ probe_y a b j 0 0 = tried n ty qy by_ a b.
Proof. unfold probe_x, probe_y, probe. split; lra. Qed.
Lemma tested_small k i : In (k, i) tested -> (Z.abs k <= 2)%Z /\ (Z.abs i <= 2)%Z.
Proof. unfold tested. cbn [In]. intros H. repeat (destruct H as [H|H]; [injection H as <- <-; lia|]). destruct H. Qed.

Lemma Forall2_in {A B} (P : A -> B -> Prop) l l' : Forall2 P l l' -> forall x, In x l -> exists y, In y l' /\ P x y.
Proof.
  induction 1 as [|x y l l' H _ IH]; intros z [].
  - subst z. exists y. split; [now left|assumption].
  - destruct (IH z H0) as (w & Hw & PW). exists w. split; [now right|assumption].
Qed.
Lemma Forall2_in' {A B} (P : A -> B -> Prop) l l' : Forall2 P l l' -> forall y, In y l' -> exists x, In x l /\ P x y.
Proof.
  induction 1 as [|x y l l' H _ IH]; intros z [].
  - subst z. exists x. split; [now left|assumption].
  - destruct (IH z H0) as (w & Hw & PW). exists w. split; [now right|assumption].
Qed.

Lemma accepted_sound a b j p : (Z.abs a <= 3)%Z -> (Z.abs b <= 3)%Z -> (Z.abs j <= 3)%Z -> at_tried p a b ->
  is_alignment g p dX2 dY2 (scale_of j) = Ok true ->
  (forall k i, In (k, i) tested -> exists v, (if ring_dark k i then v <> 255%N else v <> 0%N) /\ seen (pixel g) (probe_x a b j i k) (probe_y a b j i k) v) /\
  get_pixel g (round_u32 (px p)) (round_u32 (py p)) = Ok 0%N.
Proof.
  intros Ha Hb Hj AT E. unfold is_alignment in E. cbv zeta in E. destruct (_ || _); [discriminate|]. destruct (_ || _); [discriminate|]. destruct (_ || _); [discriminate|].
  apply bind_ok in E. destruct E as (c & EC & E). destruct c; [|discriminate]. apply all_ok_inv in EC.
  change (Forall (fun c => c = Ok true) (conditions p (dmul (scale_of j) dX2) (dmul (scale_of j) dY2))) in EC.
  apply bind_ok in E. destruct E as (v & EV & E). injection E as E. apply N.eqb_eq in E. subst v.
  split; [|exact EV]. intros k i HI. pose proof (conditions_probe a b j p Ha Hb Hj AT) as CP.
  destruct (Forall2_in _ _ _ CP _ HI) as (c & Hc & q & -> & [A B]). cbn [fst snd] in *. rewrite Forall_forall in EC. specialize (EC _ Hc).
  destruct (tested_small k i HI) as [Sk Si]. destruct (probe_small a b j i k Ha Hb Hj Si Sk) as [P1 P2].
  destruct (ring_dark k i); unfold not_white, not_black in EC; apply bind_ok in EC; destruct EC as (v & EV' & EC); injection EC as EC; apply negb_true_iff, N.eqb_neq in EC;
    exists v; (split; [exact EC|exact (get_seen g q _ _ v A B P1 P2 EV')]).
Qed.

Lemma inside_image p x y v : apx (px p) x slack -> apx (py p) y slack -> get_pixel g (round_u32 (px p)) (round_u32 (py p)) = Ok v ->
  fge (fround (px p)) (of_Z (gw g)) || fge (fround (py p)) (of_Z (gh g)) = false.
Proof.
  intros (a & FA & _) (b & FB & _) E. pose proof HW as (W1 & W2 & _).
  rewrite (round_u32_R _ _ FA), (round_u32_R _ _ FB) in E. apply get_pixel_in in E; auto; [|unfold u32_max; lia|unfold u32_max; lia].
  unfold u32_max in *.
  rewrite (fge_R _ _ _ _ (fin_fround _ _ FA) (fin_of_Z (gw g) ltac:(lia))), (fge_R _ _ _ _ (fin_fround _ _ FB) (fin_of_Z (gh g) ltac:(lia))).
  apply orb_false_iff. split; apply Rle_bool_false, IZR_lt; lia.
Qed.

(** the pattern is where it is tried *)
Definition pattern_at (a b j : Z) : Prop := forall k i, (-2 <= k <= 2)%Z -> (-2 <= i <= 2)%Z ->
  / 64 <= probe_x a b j i k /\ / 64 <= probe_y a b j i k /\ clearly (pixel g) (probe_x a b j i k) (probe_y a b j i k) (colour (ring_dark k i)).

Lemma positive q x y : apx (px q) x slack -> apx (py q) y slack -> / 64 <= x -> / 64 <= y -> flt (px q) (of_Z 0) || flt (py q) (of_Z 0) = false.
Proof.
  intros A B HX HY. assert (Z0 : apx (of_Z 0) 0 0) by (apply fin_apx, fin_of_Z; lia). unfold slack in *.
  apply orb_false_iff. split; (eapply apx_flt_false; [eassumption|exact Z0|lra]).
Qed.

Lemma accepted_complete a b j p : (Z.abs a <= 3)%Z -> (Z.abs b <= 3)%Z -> (Z.abs j <= 3)%Z -> at_tried p a b -> pattern_at a b j ->
  is_alignment g p dX2 dY2 (scale_of j) = Ok true.
Proof.
  intros Ha Hb Hj AT HP. assert (U : u24 = / 16777216 /\ slack = / 64) by (split; reflexivity).
  assert (PC : at_probe a b j p 0 0).
  { destruct AT as [A B]. destruct (probe_centre a b j) as [E1 E2]. unfold at_probe. rewrite E1, E2. split; (eapply apx_weaken; [eassumption|lra]). }
  assert (VAL : forall q k i, (-2 <= k <= 2)%Z -> (-2 <= i <= 2)%Z -> at_probe a b j q k i -> get_pixel g (round_u32 (px q)) (round_u32 (py q)) = Ok (colour (ring_dark k i))).
  { intros q k i Hk Hi [A B]. destruct (probe_small a b j i k Ha Hb Hj ltac:(lia) ltac:(lia)). destruct (HP k i Hk Hi) as (_ & _ & C). now apply (get_clear g q _ _ _ A B). }
  assert (POS : forall q k i, (-2 <= k <= 2)%Z -> (-2 <= i <= 2)%Z -> at_probe a b j q k i -> flt (px q) (of_Z 0) || flt (py q) (of_Z 0) = false).
  { intros q k i Hk Hi [A B]. destruct (HP k i Hk Hi) as (P1 & P2 & _). exact (positive q _ _ A B P1 P2). }
  unfold is_alignment. cbv zeta. rewrite (POS p 0 0)%Z by (auto; lia).
  pose proof (moved_twice a b j p Ha Hb AT false false _ _ 2 2 (proj1 (moves j Hj 2 ltac:(lia))) (proj2 (moves j Hj 2 ltac:(lia))))%Z as TL.
  pose proof (moved_twice a b j p Ha Hb AT true true _ _ 2 2 (proj1 (moves j Hj 2 ltac:(lia))) (proj2 (moves j Hj 2 ltac:(lia))))%Z as BR.
  cbv iota in TL, BR. rewrite (POS _ (-2) (-2))%Z by (first [lia|exact TL]).
  rewrite (inside_image _ _ _ _ (proj1 BR) (proj2 BR) (VAL _ 2 2 ltac:(lia) ltac:(lia) BR))%Z.
  change (flat_map _ [-2; -1; 0; 1]%Z ++ _) with (conditions p (dmul (scale_of j) dX2) (dmul (scale_of j) dY2)).
  rewrite all_ok_true.
  - cbn [bind]. unfold pixel_at. rewrite (VAL p 0 0)%Z by (auto; lia). reflexivity.
  - pose proof (conditions_probe a b j p Ha Hb Hj AT) as CP. apply Forall_forall. intros c Hc.
    destruct (Forall2_in' _ _ _ CP c Hc) as ([k i] & HI & q & -> & AP). cbn [fst snd] in *. destruct (tested_small k i HI).
    pose proof (VAL q k i ltac:(lia) ltac:(lia) AP) as V. unfold not_white, not_black, pixel_at. rewrite V. destruct (ring_dark k i); reflexivity.
Qed.

Lemma find_not_none l s p : In (s, p) l -> is_alignment g p dX2 dY2 s = Ok true -> find_alignment g dX2 dY2 l <> Ok None.
Proof.
  intros HI HA. induction l as [|[s' p'] l IH]; [destruct HI|]. cbn [find_alignment]. destruct (is_alignment g p' dX2 dY2 s') as [c| |] eqn:E; cbn [bind]; try discriminate.
  destruct c; [discriminate|]. destruct HI as [HI|HI]; [injection HI as -> ->; congruence|now apply IH].
Qed.
Lemma find_in l p : find_alignment g dX2 dY2 l = Ok (Some p) -> exists s, In (s, p) l /\ is_alignment g p dX2 dY2 s = Ok true.
Proof.
  induction l as [|[s' p'] l IH]; cbn [find_alignment]; intros E; [discriminate|]. apply bind_ok in E. destruct E as (c & EC & E). destruct c.
  - injection E as <-. exists s'. split; [now left|exact EC].
  - destruct (IH E) as (s & HI & HA). exists s. split; [now right|exact HA].
Qed.
(** ** the centre *)
Definition white_in_row (y x : Z) : Prop := pixel g x y = Some 255%N.
Definition white_in_column (x y : Z) : Prop := pixel g x y = Some 255%N.

Definition centred_at (x y l r x' t u : Z) : Prop :=
  run_between (white_in_row y) (gw g) x l r /\ (2 * x' = l + r \/ 2 * x' = l + r + 1)%Z /\ run_between (white_in_column x') (gh g) y t u.

Lemma run_range white w x l r : (0 <= x < w)%Z -> (w <= 2 ^ 22)%Z -> run_between white w x l r -> (0 <= l <= 2 ^ 22)%Z /\ (0 <= r <= 2 ^ 22)%Z.
Proof. intros Hx Hw [[A _] [B _]]. destruct A as [[A _]|[-> _]], B as [[B _]| ->]; lia. Qed.

Lemma white_iff x y : pixel g x y = Some 255%N <-> get_pixel g x y = Ok 255%N.
Proof. unfold pixel. destruct (get_pixel g x y); split; congruence. Qed.
Lemma not_white_pixel x y v : get_pixel g x y = Ok v -> v <> 255%N -> ~ pixel g x y = Some 255%N.
Proof. intros E N. rewrite white_iff. congruence. Qed.

Lemma row_run x y l r : (0 <= x < gw g)%Z -> first_white (fun x => get_pixel g x y) (rev (zrange 0 x)) 0 = Ok l ->
  first_white (fun x => get_pixel g x y) (zrange x (gw g)) (gw g) = Ok r -> run_between (white_in_row y) (gw g) x l r.
Proof.
  intros Hx EL ER. destruct (scan_left _ _ x l eq_refl ltac:(lia) EL) as [A1 A2]. destruct (scan_right _ (gw g) _ x r eq_refl ltac:(lia) ER) as [B1 B2].
  unfold run_between, white_in_row. split; split.
  - destruct A1 as [[A1 A3]|[-> [A1|(v & E & N)]]]; [left; split; [lia|now apply white_iff]|right; split; [reflexivity|now left]|right; split; [reflexivity|right; exact (not_white_pixel _ _ _ E N)]].
  - intros z Hz. destruct (A2 z Hz) as (v & E & N). exact (not_white_pixel _ _ _ E N).
  - destruct B1 as [[B1 B3]|B1]; [left; split; [lia|now apply white_iff]|now right].
  - intros z Hz. destruct (B2 z Hz) as (v & E & N). exact (not_white_pixel _ _ _ E N).
Qed.
Lemma column_run x y l r : (0 <= y < gh g)%Z -> first_white (fun y => get_pixel g x y) (rev (zrange 0 y)) 0 = Ok l ->
  first_white (fun y => get_pixel g x y) (zrange y (gh g)) (gh g) = Ok r -> run_between (white_in_column x) (gh g) y l r.
Proof.
  intros Hx EL ER. destruct (scan_left _ _ y l eq_refl ltac:(lia) EL) as [A1 A2]. destruct (scan_right _ (gh g) _ y r eq_refl ltac:(lia) ER) as [B1 B2].
  unfold run_between, white_in_column. split; split.
  - destruct A1 as [[A1 A3]|[-> [A1|(v & E & N)]]]; [left; split; [lia|now apply white_iff]|right; split; [reflexivity|now left]|right; split; [reflexivity|right; exact (not_white_pixel _ _ _ E N)]].
  - intros z Hz. destruct (A2 z Hz) as (v & E & N). exact (not_white_pixel _ _ _ E N).
  - destruct B1 as [[B1 B3]|B1]; [left; split; [lia|now apply white_iff]|now right].
  - intros z Hz. destruct (B2 z Hz) as (v & E & N). exact (not_white_pixel _ _ _ E N).
Qed.

Lemma centre_sound p al : let x := round_u32 (px p) in let y := round_u32 (py p) in (0 <= x < gw g)%Z -> (0 <= y < gh g)%Z -> centre_alignment g p = Ok al ->
  exists l r x' t u, centred_at x y l r x' t u /\ fin (px al) (IZR (l + r) / 2) /\ fin (py al) (IZR (t + u) / 2) /\ 0 <= IZR (l + r) / 2 <= M22 /\ 0 <= IZR (t + u) / 2 <= M22.
Proof.
  intros x y Hx Hy E. unfold centre_alignment in E. fold x y in E.
  apply bind_ok in E. destruct E as (l & EL & E). apply bind_ok in E. destruct E as (r & ER & E). set (ex := fdiv (fadd (of_Z l) (of_Z r)) (of_Z 2)) in *.
  cbv zeta in E. apply bind_ok in E. destruct E as (t & ET & E). apply bind_ok in E. destruct E as (u & EU & E). injection E as <-. cbn [px py].
  pose proof (row_run x y l r Hx EL ER) as R1. destruct (run_range _ _ _ _ _ Hx WG R1) as [L1 L2].
  pose proof (column_run _ y t u Hy ET EU) as R2. destruct (run_range _ _ _ _ _ Hy HG R2) as [L3 L4].
  pose proof (average2 l r L1 L2) as F. fold ex in F. pose proof (round_average ex l r L1 L2 F) as RA.
  exists l, r, (round_u32 ex), t, u. split; [now split|]. split; [exact F|]. split; [now apply average2|].
  assert (K : forall a b, (0 <= a <= 2 ^ 22)%Z -> (0 <= b <= 2 ^ 22)%Z -> 0 <= IZR (a + b) / 2 <= M22).
  { intros a b HA HB. assert (0 <= IZR (a + b) <= IZR (2 ^ 23)) by (split; apply IZR_le; lia). change (IZR (2 ^ 23)) with 8388608 in *. unfold M22. lra. }
  split; now apply K.
Qed.

Lemma get_total x y : (0 <= x < gw g)%Z -> (0 <= y < gh g)%Z -> exists v, get_pixel g x y = Ok v.
Proof.
  intros Hx Hy. exists (pix g x y). now apply get_pixel_pix.
Qed.

Lemma centre_total p : let x := round_u32 (px p) in let y := round_u32 (py p) in (0 <= x < gw g)%Z -> (0 <= y < gh g)%Z -> (2 <= gw g)%Z -> exists al, centre_alignment g p = Ok al.
Proof.
  intros x y Hx Hy H2'. unfold centre_alignment. fold x y.
  destruct (scan_total (fun x => get_pixel g x y) (rev (zrange 0 x)) 0) as (l & EL); [intros z Hz; apply in_rev, in_zrange in Hz; apply get_total; lia|].
  destruct (scan_total (fun x => get_pixel g x y) (zrange x (gw g)) (gw g)) as (r & ER); [intros z Hz; apply in_zrange in Hz; apply get_total; lia|].
  rewrite EL, ER. cbn [bind]. pose proof (row_run x y l r Hx EL ER) as R1. destruct (run_range _ _ _ _ _ Hx WG R1) as [L1 L2].
  pose proof (average2 l r L1 L2) as F. set (ex := fdiv _ _) in *. pose proof (round_average ex l r L1 L2 F) as RA.
  assert (X' : (0 <= round_u32 ex < gw g)%Z) by (destruct R1 as [[A1 _] [B1 _]]; lia).
  destruct (scan_total (fun y => get_pixel g (round_u32 ex) y) (rev (zrange 0 y)) 0) as (t & ->); [intros z Hz; apply in_rev, in_zrange in Hz; apply get_total; lia|].
  destruct (scan_total (fun y => get_pixel g (round_u32 ex) y) (zrange y (gh g)) (gh g)) as (u & ->); [intros z Hz; apply in_zrange in Hz; apply get_total; lia|].
  cbn [bind]. eexists. reflexivity.
Qed.

(** ** the samples *)
Section Samples.
Context (al : point) (ax ay : R) (FX : fin (px al) ax) (FY : fin (py al) ay) (HX : 0 <= ax <= M22) (HY : 0 <= ay <= M22).
Definition bent : delta := ddiv (pdiff al est2) (of_Z ((n - 10) * (n - 10))).

Lemma bend_growth t q b a : bend n t q b a = growth n (expected n t q b - a).
Proof. unfold bend, growth. rewrite mult_IZR. f_equal. lra. Qed.
Lemma bent_apx : apx (dlx bent) (bend n tx qx bx ax) (5 * u24) /\ apx (dly bent) (bend n ty qy by_ ay) (5 * u24).
Proof.
  destruct est2_apx as [A B]. pose proof (expected_small n HN tx qx bx H1 H3 H5) as E1. pose proof (expected_small n HN ty qy by_ H2 H4 H6) as E2.
  rewrite !bend_growth. unfold M22 in *. apply Rabs_le_inv in E1, E2.
  split; cbn [bent ddiv pdiff dlx dly].
  - apply (delta_apx n ltac:(lia) 1 0 1 0 eq_refl eq_refl ax); auto; [eapply apx_eq; [exact A|lra]|apply Rabs_le; lra].
  - apply (delta_apx n ltac:(lia) 1 0 1 0 eq_refl eq_refl ay); auto; [eapply apx_eq; [exact B|lra]|apply Rabs_le; lra].
Qed.

Lemma plane_small t q b a r c : 0 <= t <= M22 -> 0 <= q <= M22 -> 0 <= b <= M22 -> 0 <= a <= M22 -> (r < Z.to_nat n)%nat -> (c < Z.to_nat n)%nat ->
  Rabs (grid t (DX n t q) (bend n t q b a) (DY n t b) r c) <= 67108864.
Proof.
  intros Ht Hq Hb Ha Hr Hc. unfold grid. rewrite !INR_IZR_INZ. set (R0 := Z.of_nat r). set (C0 := Z.of_nat c).
  assert (K7 : forall z w : R, forall k : Z, Rabs z <= M22 -> (Z.abs k <= n - 4)%Z -> w = z / IZR (n - 7) -> Rabs (IZR k * w) <= 7 / 6 * M22).
  { intros z w k Hz Hk ->. pose proof (n7 n HN) as N7. assert (A : Rabs (IZR k) <= IZR (n - 4)) by (rewrite <- abs_IZR; apply IZR_le; lia).
    assert (E : IZR (n - 4) <= 7 / 6 * IZR (n - 7)) by (assert (IZR (6 * (n - 4)) <= IZR (7 * (n - 7))) by (apply IZR_le; lia); rewrite !mult_IZR in *; lra).
    unfold Rdiv. rewrite !Rabs_mult, (Rabs_pos_eq (/ IZR (n - 7))) by (apply Rlt_le, Rinv_0_lt_compat; lra).
    replace (Rabs (IZR k) * (Rabs z * / IZR (n - 7))) with ((Rabs (IZR k) * / IZR (n - 7)) * Rabs z) by ring.
    apply Rmult_le_compat; try apply Rabs_pos; auto; [apply Rmult_le_pos; [apply Rabs_pos|apply Rlt_le, Rinv_0_lt_compat; lra]|].
    apply Rmult_le_reg_r with (IZR (n - 7)); [lra|]. rewrite Rmult_assoc, Rinv_l by lra. lra. }
  assert (B1 : Rabs (IZR (R0 - 3) * DY n t b) <= 7 / 6 * M22).
  { apply (K7 (b - t)); [now apply abs_range|unfold R0; lia|reflexivity]. }
  assert (B2 : Rabs (IZR (C0 - 3) * DX n t q) <= 7 / 6 * M22).
  { apply (K7 (q - t)); [now apply abs_range|unfold C0; lia|reflexivity]. }
  assert (B3 : Rabs (IZR ((R0 - 3) * (C0 - 3)) * bend n t q b a) <= 49 / 25 * (4 * M22)).
  { pose proof (spread n ltac:(lia) 1 0 1 0 eq_refl eq_refl R0 C0 ltac:(lia) ltac:(unfold R0; lia) ltac:(unfold C0; lia)) as [S1 S2].
    pose proof (expected_small n HN t q b Ht Hq Hb) as E. unfold bend. rewrite <- mult_IZR. set (sq := ((n - 10) * (n - 10))%Z) in *.
    assert (SQ : 225 <= IZR sq) by (apply IZR_le; unfold sq; nia). set (p := ((R0 - 3) * (C0 - 3))%Z) in *. apply IZR_le in S1, S2. rewrite !mult_IZR in S1, S2.
    replace (IZR p * ((a - expected n t q b) / IZR sq)) with ((IZR p * / IZR sq) * (a - expected n t q b)) by (unfold Rdiv; ring).
    rewrite Rabs_mult. apply Rmult_le_compat; try apply Rabs_pos.
    - rewrite Rabs_mult, (Rabs_pos_eq (/ IZR sq)) by (apply Rlt_le, Rinv_0_lt_compat; lra).
      apply Rmult_le_reg_r with (IZR sq); [lra|]. rewrite Rmult_assoc, Rinv_l by lra. rewrite Rmult_1_r. apply Rabs_le. lra.
    - apply Rabs_le_inv in E. apply Rabs_le. lra. }
  rewrite !mult_IZR, !minus_IZR in *. unfold M22 in *. apply Rabs_le_inv in B1, B2, B3. apply Rabs_le. lra.
Qed.

Definition sample_at (r c : nat) : point :=
  Pt (sample (px (top_left loc)) (dlx dX2) (dlx bent) (dlx dY2) (of_Z 0) r c) (sample (py (top_left loc)) (dly dX2) (dly bent) (dly dY2) (of_Z 0) r c).
Definition grid_x2 (r c : nat) : R := plane tx (DX n tx qx) (bend n tx qx bx ax) (DY n tx bx) (INR r) (INR c).
Definition grid_y2 (r c : nat) : R := plane ty (DX n ty qy) (bend n ty qy by_ ay) (DY n ty by_) (INR r) (INR c).

Lemma grid2_small r c : (r < Z.to_nat n)%nat -> (c < Z.to_nat n)%nat -> Rabs (grid_x2 r c) <= 67108864 /\ Rabs (grid_y2 r c) <= 67108864.
Proof. intros Hr Hc. split; [apply (plane_small tx qx bx ax)|apply (plane_small ty qy by_ ay)]; auto. Qed.

Lemma sample_near r c : (r < Z.to_nat n)%nat -> (c < Z.to_nat n)%nat -> apx (px (sample_at r c)) (grid_x2 r c) slack /\ apx (py (sample_at r c)) (grid_y2 r c) slack.
Proof.
  intros Hr Hc. destruct bent_apx as [B1 B2]. assert (Z0 : fin (of_Z 0) 0) by (apply fin_of_Z; lia).
  split; cbn [sample_at px py].
  - apply (sample_apx _ _ _ _ _ tx (DX n tx qx) (bend n tx qx bx ax) (DY n tx bx) (Z.to_nat (n - 1)) r c); try lia; auto.
    + now apply dx1_apx. + now apply dy1_apx. + intros r' c' Hr' Hc'. apply plane_small; auto; lia.
  - apply (sample_apx _ _ _ _ _ ty (DX n ty qy) (bend n ty qy by_ ay) (DY n ty by_) (Z.to_nat (n - 1)) r c); try lia; auto.
    + now apply dx1_apx. + now apply dy1_apx. + intros r' c' Hr' Hc'. apply plane_small; auto; lia.
Qed.
End Samples.

(** ** the whole extraction *)
Context (NV : n = (17 + 4 * version loc)%Z).

Definition accepted (a b j : Z) (p : point) : Prop := (Z.abs a <= 3)%Z /\ (Z.abs b <= 3)%Z /\ In j scales /\ at_tried p a b /\ is_alignment g p dX2 dY2 (scale_of j) = Ok true.

Lemma perspective_sound P : determine_perspective g (version loc) n loc = Ok P ->
  exists a b j p al, accepted a b j p /\ centre_alignment g p = Ok al /\ P = Persp dX2 (bent al) dY2 no_delta.
Proof.
  intros E. unfold determine_perspective in E. rewrite sub_Z_ok in E by lia. cbn [bind] in E. destruct (Z.eqb_spec (version loc) 1); [lia|].
  rewrite sub_Z_ok in E by lia. cbn [bind] in E. fold dX2 dY2 in E. fold est2 in E. apply bind_ok in E. destruct E as (found & EF & E).
  destruct found as [p|]; [|discriminate]. apply bind_ok in E. destruct E as (al & EA & E). cbv zeta in E.
  rewrite chk_u32_ok in E by (unfold u32_max; nia). cbn [bind] in E. injection E as <-.
  destruct (find_in _ _ EF) as (s & HI & HA). destruct (search_sound _ _ HI) as (a & b & j & Ha & Hb & Hj & -> & AT).
  exists a, b, j, p, al. split; [exact (conj Ha (conj Hb (conj Hj (conj AT HA))))|]. split; [exact EA|reflexivity].
Qed.

Lemma perspective_complete p al : find_alignment g dX2 dY2 (search_points est2 dX2 dY2) = Ok (Some p) -> centre_alignment g p = Ok al ->
  determine_perspective g (version loc) n loc = Ok (Persp dX2 (bent al) dY2 no_delta).
Proof.
  intros EF EA. unfold determine_perspective. rewrite sub_Z_ok by lia. cbn [bind]. destruct (Z.eqb_spec (version loc) 1); [lia|].
  rewrite sub_Z_ok by lia. cbn [bind]. fold dX2 dY2. fold est2. rewrite EF. cbn [bind]. rewrite EA. cbn [bind].
  rewrite chk_u32_ok by (unfold u32_max; nia). reflexivity.
Qed.

Lemma extract_steps : extract g loc = (P <- determine_perspective g (version loc) n loc ;;
  data <- sample_rows (Z.to_nat n) (Z.to_nat n) g P (psub (psub (top_left loc) (dmul (of_Z 3) (pdy P))) (dmul (of_Z 3) (pddy P)))
    (dsub (pdx P) (dmul (of_Z 3) (pddx P))) (dsub (pdy P) (dmul (of_Z 3) (pddy P))) [] ;;
  Ok (mkQRData data (version loc) n)).
Proof.
  unfold extract. rewrite chk_u32_ok by (unfold u32_max; lia). cbn [bind]. rewrite chk_u32_ok by (unfold u32_max; lia). cbn [bind].
  replace (17 + version loc * 4)%Z with n by lia. destruct (determine_perspective g (version loc) n loc) as [P| |]; cbn [bind]; [|reflexivity|reflexivity].
  cbv zeta. destruct (sample_rows _ _ _ _ _ _ _ _) as [d| |]; cbn [bind]; [|reflexivity|reflexivity].
  unfold qrdata_new. rewrite chk_u32_ok by (unfold u32_max; lia). cbn [bind]. rewrite chk_u32_ok by (unfold u32_max; lia). cbn [bind].
  do 2 f_equal. lia.
Qed.

Theorem extract_sound q : extract g loc = Ok q -> exists a b j p l r x' t u, let x := round_u32 (px p) in let y := round_u32 (py p) in
  accepted a b j p /\ get_pixel g x y = Ok 0%N /\ centred_at x y l r x' t u /\ 0 <= IZR (l + r) / 2 <= M22 /\ 0 <= IZR (t + u) / 2 <= M22 /\
  forall row column, (row < Z.to_nat n)%nat -> (column < Z.to_nat n)%nat -> exists v, nth_error (qdata q) (row * Z.to_nat n + column) = Some v /\
    seen (pixel g) (grid_x2 (IZR (l + r) / 2) row column) (grid_y2 (IZR (t + u) / 2) row column) v.
Proof.
  intros E. rewrite extract_steps in E. apply bind_ok in E. destruct E as (P & EP & E). apply bind_ok in E. destruct E as (data & ED & E). injection E as <-.
  destruct (perspective_sound P EP) as (a & b & j & p & al & AC & EA & ->). cbn [pdx pddx pdy pddy] in ED.
  pose proof AC as (Ha & Hb & Hj & AT & IA). destruct (accepted_sound a b j p Ha Hb (scales_small j Hj) AT IA) as [_ PX].
  assert (RG : (0 <= round_u32 (px p) < gw g)%Z /\ (0 <= round_u32 (py p) < gh g)%Z).
  { destruct AT as [(c1 & C1 & _) (c2 & C2 & _)]. pose proof PX as PX'. apply get_pixel_in in PX'; auto;
      rewrite ?(round_u32_R _ _ C1), ?(round_u32_R _ _ C2) in *; unfold u32_max in *; lia. }
  destruct RG as [RX RY]. destruct (centre_sound p al RX RY EA) as (l & r & x' & t & u & CA & G1 & G2 & M1 & M2).
  exists a, b, j, p, l, r, x', t, u. cbv zeta. split; [exact AC|]. split; [exact PX|]. split; [exact CA|]. split; [exact M1|]. split; [exact M2|].
  destruct (sample_rows_reads _ _ _ _ _ _ _ _ _ ED) as (tail & -> & _ & RD). cbn [app qdata].
  intros row column Hr Hc. destruct (RD row column Hr Hc) as (v & V1 & V2). exists v. split; [exact V1|].
  destruct (sample_near al _ _ G1 G2 M1 M2 row column Hr Hc) as [S1 S2]. destruct (grid2_small _ _ M1 M2 row column Hr Hc) as [L1 L2].
  exact (get_seen g (sample_at al row column) _ _ v S1 S2 L1 L2 V2).
Qed.

Theorem extract_complete p al ax ay dark : find_alignment g dX2 dY2 (search_points est2 dX2 dY2) = Ok (Some p) -> centre_alignment g p = Ok al ->
  fin (px al) ax -> fin (py al) ay -> 0 <= ax <= M22 -> 0 <= ay <= M22 ->
  (forall row column, (row < Z.to_nat n)%nat -> (column < Z.to_nat n)%nat -> clearly (pixel g) (grid_x2 ax row column) (grid_y2 ay row column) (dark row column)) ->
  extract g loc = Ok (mkQRData (rows dark (Z.to_nat n)) (version loc) n).
Proof.
  intros EF EA G1 G2 M1 M2 HC. rewrite extract_steps, (perspective_complete p al EF EA). cbn [bind pdx pddx pdy pddy].
  rewrite (sample_rows_ok g _ dark); [reflexivity|]. intros row column Hr Hc.
  destruct (sample_near al _ _ G1 G2 M1 M2 row column Hr Hc) as [S1 S2]. destruct (grid2_small _ _ M1 M2 row column Hr Hc) as [L1 L2].
  exact (get_clear g (sample_at al row column) _ _ _ S1 S2 L1 L2 (HC row column Hr Hc)).
Qed.
(** ** no panic as long as the search stays in the image *)
Definition search_inside : Prop := forall s t, Rabs s <= 41 / 10 -> Rabs t <= 41 / 10 ->
  expected n tx qx bx + s * DX n tx qx + t * DY n tx bx <= IZR (gw g) - 1 /\ expected n ty qy by_ + s * DX n ty qy + t * DY n ty by_ <= IZR (gh g) - 1.

Section Inside.
Context (SI : search_inside) (W2 : (2 <= gw g)%Z) (G2 : (2 <= gh g)%Z).

Lemma offset_41 a i j : (Z.abs a <= 3)%Z -> (Z.abs i <= 2)%Z -> (Z.abs j <= 3)%Z -> Rabs (IZR a / 2 + IZR i * scaled j) <= 41 / 10.
Proof.
  intros Ha Hi Hj. pose proof (scaled_range j Hj) as S.
  assert (A : Rabs (IZR a) <= 3) by (rewrite <- abs_IZR; apply IZR_le; lia). assert (I : Rabs (IZR i) <= 2) by (rewrite <- abs_IZR; apply IZR_le; lia).
  eapply Rle_trans; [apply Rabs_triang|]. unfold Rdiv. rewrite !Rabs_mult, (Rabs_pos_eq (/ 2)), (Rabs_pos_eq (scaled j)) by lra.
  assert (Rabs (IZR i) * scaled j <= 2 * (13 / 10)) by (apply Rmult_le_compat; try apply Rabs_pos; lra). lra.
Qed.

Lemma probe_inside a b j i k : (Z.abs a <= 3)%Z -> (Z.abs b <= 3)%Z -> (Z.abs j <= 3)%Z -> (Z.abs i <= 2)%Z -> (Z.abs k <= 2)%Z ->
  probe_x a b j i k <= IZR (gw g) - 1 /\ probe_y a b j i k <= IZR (gh g) - 1.
Proof.
  intros Ha Hb Hj Hi Hk. destruct (SI _ _ (offset_41 a i j Ha Hi Hj) (offset_41 b k j Hb Hk Hj)) as [A B].
  unfold probe_x, probe_y, probe, tried. split; lra.
Qed.

Lemma inside_total q x y : apx (px q) x slack -> apx (py q) y slack -> Rabs x <= 67108864 -> Rabs y <= 67108864 -> x <= IZR (gw g) - 1 -> y <= IZR (gh g) - 1 ->
  (0 <= round_u32 (px q) < gw g)%Z /\ (0 <= round_u32 (py q) < gh g)%Z.
Proof.
  intros A B HX HY IX IY. destruct (round_holds _ _ A HX) as [P1 Q1]. destruct (round_holds _ _ B HY) as [P2 Q2].
  assert (GW : 2 <= IZR (gw g) /\ 2 <= IZR (gh g)) by (split; now apply IZR_le). destruct GW as [GW GH].
  assert (M : Rmax 0 x <= IZR (gw g) - 1 /\ Rmax 0 y <= IZR (gh g) - 1) by (split; apply Rmax_lub; lra). destruct M as [M1 M2].
  apply Rabs_le_inv in Q1, Q2. split; (split; [assumption|apply lt_IZR; lra]).
Qed.

Lemma accept_total a b j p : (Z.abs a <= 3)%Z -> (Z.abs b <= 3)%Z -> (Z.abs j <= 3)%Z -> at_tried p a b -> exists c, is_alignment g p dX2 dY2 (scale_of j) = Ok c.
Proof.
  intros Ha Hb Hj AT. assert (U : u24 = / 16777216 /\ slack = / 64) by (split; reflexivity).
  assert (PT : forall q k i, (Z.abs k <= 2)%Z -> (Z.abs i <= 2)%Z -> at_probe a b j q k i -> exists v, pixel_at g q = Ok v).
  { intros q k i Hk Hi [A B]. destruct (probe_small a b j i k Ha Hb Hj Hi Hk) as [S1 S2]. destruct (probe_inside a b j i k Ha Hb Hj Hi Hk) as [I1 I2].
    destruct (inside_total q _ _ A B S1 S2 I1 I2) as [R1 R2]. unfold pixel_at. now apply get_total. }
  unfold is_alignment. cbv zeta. destruct (_ || _); [now exists false|]. destruct (_ || _); [now exists false|]. destruct (_ || _); [now exists false|].
  change (flat_map _ [-2; -1; 0; 1]%Z ++ _) with (conditions p (dmul (scale_of j) dX2) (dmul (scale_of j) dY2)).
  assert (AO : forall l : list (res bool), (forall c, In c l -> exists b, c = Ok b) -> exists b, all_ok l = Ok b).
  { induction l as [|c l IH]; intros H; cbn [all_ok]; [now exists true|]. destruct (H c) as (b0 & ->); [now left|]. cbn [bind]. destruct b0; [|now exists false].
    apply IH. intros c' Hc'. apply H. now right. }
  destruct (AO (conditions p (dmul (scale_of j) dX2) (dmul (scale_of j) dY2))) as (c & EC).
  { intros c Hc. pose proof (conditions_probe a b j p Ha Hb Hj AT) as CP. destruct (Forall2_in' _ _ _ CP c Hc) as ([k i] & HI & q & -> & AP). cbn [fst snd] in *.
    destruct (tested_small k i HI) as [Sk Si]. destruct (PT q k i Sk Si AP) as (v & EV).
    unfold not_white, not_black. rewrite EV. cbn [bind]. destruct (ring_dark k i); eexists; reflexivity. }
  rewrite EC. cbn [bind]. destruct c; [|now exists false].
  destruct (PT p 0 0)%Z as (v & ->); [lia|lia| |cbn [bind]; eexists; reflexivity].
  destruct AT as [A B]. destruct (probe_centre a b j) as [E1 E2]. unfold at_probe. rewrite E1, E2. split; (eapply apx_weaken; [eassumption|lra]).
Qed.

Lemma find_total l : (forall s p, In (s, p) l -> exists c, is_alignment g p dX2 dY2 s = Ok c) -> exists f, find_alignment g dX2 dY2 l = Ok f.
Proof.
  induction l as [|[s p] l IH]; intros H; cbn [find_alignment]; [now exists None|]. destruct (H s p) as (c & ->); [now left|]. cbn [bind].
  destruct c; [now exists (Some p)|]. apply IH. intros s' p' HI. apply H. now right.
Qed.

Lemma search_total : exists f, find_alignment g dX2 dY2 (search_points est2 dX2 dY2) = Ok f.
Proof.
  apply find_total. intros s p HI. destruct (search_sound _ _ HI) as (a & b & j & Ha & Hb & Hj & -> & AT). exact (accept_total a b j p Ha Hb (scales_small j Hj) AT).
Qed.

Lemma found a b j : (Z.abs a <= 3)%Z -> (Z.abs b <= 3)%Z -> In j scales -> pattern_at a b j ->
  exists a' b' j' p, find_alignment g dX2 dY2 (search_points est2 dX2 dY2) = Ok (Some p) /\ accepted a' b' j' p.
Proof.
  intros Ha Hb Hj HP. destruct search_total as (f & EF). destruct (search_complete a b j Ha Hb Hj) as (p & HI & AT).
  pose proof (find_not_none _ _ _ HI (accepted_complete a b j p Ha Hb (scales_small j Hj) AT HP)) as NN. destruct f as [p'|]; [|congruence].
  destruct (find_in _ _ EF) as (s & HI' & HA). destruct (search_sound _ _ HI') as (a' & b' & j' & Ha' & Hb' & Hj' & -> & AT').
  exists a', b', j', p'. split; [exact EF|exact (conj Ha' (conj Hb' (conj Hj' (conj AT' HA))))].
Qed.
End Inside.
End Two.
