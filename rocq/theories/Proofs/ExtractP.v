(** Sampling: which pixels are read, and how far the sample points are from the exact grid. *)
From Coq Require Import NArith ZArith Reals List Lia Lra Bool Arith Psatz.
From Verif.Model Require Import Prepare Detect Extract.
From Flocq Require Import Core.
From Verif.Proofs Require Import BaseP PrepareP FloatP ApproxP DetectP.
Import ListNotations.
Local Open Scope Z_scope.

(** *** one coordinate at a time *)

(** a, a + d, a + d + d, ... *)
Fixpoint steps (n : nat) (a d : f64) : f64 :=
  match n with
  | O => a
  | S n => steps n (fadd a d) d
  end.
(** the start of row [r], when the step itself changes by [dd] *)
Fixpoint starts (r : nat) (s d dd : f64) : f64 :=
  match r with
  | O => s
  | S r => starts r (fadd s d) (fadd d dd) dd
  end.
(** a coordinate of sample [c] of row [r] *)
Definition coord (s dx ddx dy ddy : f64) (r c : nat) : f64 :=
  let d := steps r dx ddx in
  steps c (fsub (starts r s dy ddy) (fmul d (of_Z 3))) d.

Lemma sample_row_ok g f : forall n line dx data,
  (forall i, (i < n)%nat -> get_pixel g (round_u32 (steps i (px line) (dlx dx))) (round_u32 (steps i (py line) (dly dx))) = Ok (f i)) ->
  sample_row n g line dx data = Ok (data ++ map f (seq 0 n)).
Proof.
  intros n. revert f. induction n as [|n IH]; intros f line dx data H; cbn [sample_row seq map].
  - now rewrite app_nil_r.
  - pose proof (H 0%nat ltac:(lia)) as H0. cbn [steps] in H0. rewrite H0. cbn [bind].
    rewrite (IH (fun i => f (S i))).
    + rewrite <- app_assoc. cbn [app]. now rewrite <- seq_shift, map_map.
    + intros i Hi. apply (H (S i)). lia.
Qed.

Lemma sample_rows_ok g p f : forall n cols start dx dy data,
  (forall r c, (r < n)%nat -> (c < cols)%nat ->
     get_pixel g (round_u32 (coord (px start) (dlx dx) (dlx (pddx p)) (dlx dy) (dlx (pddy p)) r c))
                 (round_u32 (coord (py start) (dly dx) (dly (pddx p)) (dly dy) (dly (pddy p)) r c)) = Ok (f r c)) ->
  sample_rows n cols g p start dx dy data = Ok (data ++ flat_map (fun r => map (f r) (seq 0 cols)) (seq 0 n)).
Proof.
  intros n. revert f. induction n as [|n IH]; intros f cols start dx dy data H; cbn [sample_rows seq flat_map].
  - now rewrite app_nil_r.
  - rewrite (sample_row_ok g (f 0%nat)) by (intros i Hi; exact (H 0%nat i ltac:(lia) Hi)). cbn [bind].
    rewrite (IH (fun r => f (S r))).
    + rewrite <- app_assoc. f_equal. f_equal. f_equal. rewrite <- seq_shift, !flat_map_concat_map, map_map. reflexivity.
    + intros r c Hr Hc. exact (H (S r) c ltac:(lia) Hc).
Qed.

(** *** what is sampled, always *)
Lemma sample_row_inv g (P : N -> Prop) : (forall x y v, get_pixel g x y = Ok v -> P v) -> forall n line dx data data', Forall P data ->
  sample_row n g line dx data = Ok data' -> Forall P data' /\ length data' = (length data + n)%nat.
Proof.
  intros HP. induction n as [|n IH]; intros line dx data data' HD E; cbn [sample_row] in E.
  - injection E as <-. auto.
  - apply bind_ok in E. destruct E as (v & E1 & E). apply IH in E.
    + rewrite app_length in E. cbn [length] in E. destruct E. split; [assumption|lia].
    + apply Forall_app. split; [exact HD|]. constructor; [|constructor]. eauto.
Qed.

Lemma sample_rows_inv g (P : N -> Prop) p cols : (forall x y v, get_pixel g x y = Ok v -> P v) -> forall n start dx dy data data', Forall P data ->
  sample_rows n cols g p start dx dy data = Ok data' -> Forall P data' /\ length data' = (length data + n * cols)%nat.
Proof.
  intros HP. induction n as [|n IH]; intros start dx dy data data' HD E; cbn [sample_rows] in E.
  - injection E as <-. split; [assumption|lia].
  - apply bind_ok in E. destruct E as (d & E1 & E). apply sample_row_inv with (P := P) in E1; auto.
    destruct E1 as [D L]. apply IH in E; auto. destruct E. split; [assumption|lia].
Qed.

(** *** the error of a coordinate *)
Local Open Scope R_scope.

(** a unit of rounding for numbers below 2^29 *)
Definition u24 : R := / 16777216.
Definition big29 : R := 536870912.

Lemma add29 x y a b d e : apx x a d -> apx y b e -> Rabs (a + b) + (d + e) <= big29 -> apx (fadd x y) (a + b) (d + e + u24).
Proof. intros A B H. apply (apx_fadd 29); auto. lia. Qed.
Lemma sub29 x y a b d e : apx x a d -> apx y b e -> Rabs (a - b) + (d + e) <= big29 -> apx (fsub x y) (a - b) (d + e + u24).
Proof. intros A B H. apply (apx_fsub 29); auto. lia. Qed.
Lemma mul29 x n a d : apx x a d -> (0 <= n <= 2 ^ 53)%Z -> Rabs (a * IZR n) + IZR n * d <= big29 -> apx (fmul x (of_Z n)) (a * IZR n) (IZR n * d + u24).
Proof.
  intros A Hn H. pose proof (apx_of_Z n ltac:(lia)) as B. assert (0 <= IZR n) by (apply IZR_le; lia).
  apply apx_weaken with (Rabs a * 0 + Rabs (IZR n) * d + d * 0 + bpow radix2 (29 - 53)).
  - apply apx_fmul; auto; [lia|]. rewrite (Rabs_pos_eq (IZR n)) by lra. change (bpow radix2 29) with big29. lra.
  - rewrite (Rabs_pos_eq (IZR n)) by lra. change (bpow radix2 (29 - 53)) with u24. lra.
Qed.

Lemma mulz29 x n a d : apx x a d -> (Z.abs n <= 2 ^ 53)%Z -> Rabs (a * IZR n) + Rabs (IZR n) * d <= big29 -> apx (fmul x (of_Z n)) (a * IZR n) (Rabs (IZR n) * d + u24).
Proof.
  intros A Hn H. pose proof (apx_of_Z n ltac:(lia)) as B.
  apply apx_weaken with (Rabs a * 0 + Rabs (IZR n) * d + d * 0 + bpow radix2 (29 - 53)).
  - apply apx_fmul; auto; [lia|]. change (bpow radix2 29) with big29. lra.
  - change (bpow radix2 (29 - 53)) with u24. lra.
Qed.

Lemma apx_nonneg x a d : apx x a d -> 0 <= d.
Proof. intros (v & _ & H). pose proof (Rabs_pos (v - a)). lra. Qed.

Lemma steps_snoc n : forall a d, steps (S n) a d = fadd (steps n a d) d.
Proof. induction n as [|n IH]; intros a d; [reflexivity|]. cbn [steps]. rewrite <- IH. reflexivity. Qed.

Lemma steps_apx x d a v e w n : apx x a e -> apx d v w ->
  (forall i, (i <= n)%nat -> Rabs (a + INR i * v) + e + INR i * (w + u24) <= big29) ->
  apx (steps n x d) (a + INR n * v) (e + INR n * (w + u24)).
Proof.
  intros A D. pose proof (apx_nonneg _ _ _ A). pose proof (apx_nonneg _ _ _ D).
  assert (0 < u24) by (unfold u24; lra).
  induction n as [|n IH]; intros HB.
  - cbn [steps INR]. apply apx_eq with a; [|lra]. apply apx_weaken with e; [exact A|lra].
  - rewrite steps_snoc, S_INR.
    apply apx_eq with (a + INR n * v + v); [|lra].
    apply apx_weaken with (e + INR n * (w + u24) + w + u24); [|lra].
    apply add29; [apply IH; intros i Hi; apply HB; lia|exact D|].
    specialize (HB (S n) ltac:(lia)). rewrite S_INR in HB.
    replace (a + INR n * v + v) with (a + (INR n + 1) * v) by lra. lra.
Qed.

(** adding zero changes nothing *)
Lemma fadd_zero d z v : fin d v -> Rabs v <= big29 -> fin z 0 -> fin (fadd d z) v.
Proof.
  intros D B Z. rewrite <- (rnd_fin d v D). replace v with (v + 0) by lra. apply fin_fadd; auto.
  replace (v + 0) with v by lra. apply small_big with 29%Z; [lia|exact B].
Qed.

Lemma starts_zero r : forall s d z v, fin d v -> Rabs v <= big29 -> fin z 0 ->
  forall a e, apx s a e -> (forall i, (i <= r)%nat -> Rabs (a + INR i * v) + e + INR i * u24 <= big29) ->
  apx (starts r s d z) (a + INR r * v) (e + INR r * u24).
Proof.
  assert (0 < u24) by (unfold u24; lra).
  induction r as [|r IH]; intros s d z v D B Z a e A H1.
  - cbn [starts INR]. apply apx_eq with a; [|lra]. apply apx_weaken with e; [exact A|lra].
  - cbn [starts]. rewrite S_INR. apply apx_eq with (a + v + INR r * v); [|lra].
    apply apx_weaken with (e + u24 + INR r * u24); [|lra].
    apply IH; auto; [now apply fadd_zero| |].
    + apply apx_weaken with (e + 0 + u24); [|lra]. apply add29; auto; [now apply fin_apx|].
      specialize (H1 1%nat ltac:(lia)). cbn [INR] in H1. rewrite Rmult_1_l in H1. lra.
    + intros i Hi. specialize (H1 (S i) ltac:(lia)). rewrite S_INR in H1.
      replace (a + v + INR i * v) with (a + (INR i + 1) * v) by lra. lra.
Qed.

(** the exact coordinate *)
Definition exact (s dx ddx dy : R) (r c : nat) : R := s + INR r * dy + (INR c - 3) * (dx + INR r * ddx).

Definition slack : R := / 64.

Lemma INR_le n m : (n <= m)%nat -> 0 <= INR n <= INR m.
Proof. intros H. split; [apply pos_INR|now apply le_INR]. Qed.

Lemma coord_apx s dx ddx dy ddy S DX DD DY v n r c : (n <= 177)%nat -> (r <= n)%nat -> (c <= n)%nat ->
  apx s S (20 * u24) -> apx dx DX (20 * u24) -> apx ddx DD (5 * u24) -> fin dy v -> Rabs (v - DY) <= 2 * u24 -> fin ddy 0 ->
  Rabs DY <= 134217728 ->
  (forall i, (i <= n)%nat -> Rabs (S + INR i * DY) <= 67108864) ->
  (forall i, (i <= n)%nat -> Rabs (DX + INR i * DD) <= 134217728) ->
  (forall i, (i <= n)%nat -> Rabs (exact S DX DD DY r i) <= 67108864) ->
  apx (coord s dx ddx dy ddy r c) (exact S DX DD DY r c) slack.
Proof.
  intros Hn Hr Hc AS AX AD FY HY FZ BY B1 B2 B3.
  assert (N177 : INR n <= 177) by (replace 177 with (INR 177) by (simpl; lra); now apply le_INR).
  pose proof (INR_le _ _ Hr) as R1. pose proof (INR_le _ _ Hc) as C1.
  assert (U : 0 < u24 /\ 262144 * u24 <= slack /\ slack <= 1) by (unfold u24, slack; lra). destruct U as (U0 & U1 & U2).
  set (w := 20 * u24 + INR r * (5 * u24 + u24)).
  assert (W : 0 <= w <= 1082 * u24).
  { unfold w. assert (INR r * u24 <= 177 * u24) by (apply Rmult_le_compat_r; lra).
    assert (0 <= INR r * u24) by (apply Rmult_le_pos; lra). lra. }
  assert (D : apx (steps r dx ddx) (DX + INR r * DD) w).
  { apply steps_apx; auto. intros i Hi. specialize (B2 i ltac:(lia)). pose proof (INR_le _ _ Hi).
    assert (INR i * (5 * u24 + u24) <= 177 * (6 * u24)) by (apply Rmult_le_compat; lra). unfold big29. lra. }
  assert (ST : apx (starts r s dy ddy) (S + INR r * DY) (20 * u24 + 177 * (3 * u24))).
  { assert (K : forall i, (i <= r)%nat -> Rabs (INR i * (v - DY)) <= 177 * (2 * u24)).
    { intros i Hi. pose proof (INR_le _ _ Hi). rewrite Rabs_mult, (Rabs_pos_eq (INR i)) by lra.
      apply Rmult_le_compat; try lra. apply Rabs_pos. }
    destruct (starts_zero r s dy ddy v FY) with (a := S) (e := 20 * u24) as (q & FQ & HQ); auto.
    - replace v with (DY + (v - DY)) by lra. eapply Rle_trans; [apply Rabs_triang|]. unfold big29. lra.
    - intros i Hi. pose proof (INR_le _ _ Hi). specialize (K i Hi). specialize (B1 i ltac:(lia)).
      replace (S + INR i * v) with ((S + INR i * DY) + INR i * (v - DY)) by lra.
      pose proof (Rabs_triang (S + INR i * DY) (INR i * (v - DY))).
      assert (INR i * u24 <= 177 * u24) by (apply Rmult_le_compat_r; lra). unfold big29. lra.
    - exists q. split; [exact FQ|]. specialize (K r ltac:(lia)).
      replace (q - (S + INR r * DY)) with ((q - (S + INR r * v)) + INR r * (v - DY)) by lra.
      eapply Rle_trans; [apply Rabs_triang|]. assert (INR r * u24 <= 177 * u24) by (apply Rmult_le_compat_r; lra). lra. }
  set (d := DX + INR r * DD) in *.
  assert (L : apx (fsub (starts r s dy ddy) (fmul (steps r dx ddx) (of_Z 3))) (S + INR r * DY - d * 3) (20 * u24 + 177 * (3 * u24) + (3 * w + u24) + u24)).
  { pose proof (B2 r Hr) as Bd. fold d in Bd.
    apply sub29; [exact ST|apply mul29; [exact D|lia|]|].
    - rewrite Rabs_mult, (Rabs_pos_eq 3) by lra. unfold big29. lra.
    - specialize (B3 0%nat ltac:(lia)). unfold exact in B3. fold d in B3. cbn [INR] in B3.
      replace (S + INR r * DY - d * 3) with (S + INR r * DY + (0 - 3) * d) by lra. unfold big29. lra. }
  unfold coord. apply apx_weaken with (20 * u24 + 177 * (3 * u24) + (3 * w + u24) + u24 + INR c * (w + u24)).
  - apply apx_eq with (S + INR r * DY - d * 3 + INR c * d); [|unfold exact; fold d; lra].
    apply steps_apx; auto. intros i Hi. specialize (B3 i ltac:(lia)). unfold exact in B3. fold d in B3.
    replace (S + INR r * DY - d * 3 + INR i * d) with (S + INR r * DY + (INR i - 3) * d) by lra.
    pose proof (INR_le _ _ Hi). assert (INR i * (w + u24) <= 177 * (1083 * u24)) by (apply Rmult_le_compat; lra). unfold big29. lra.
  - assert (INR c * (w + u24) <= 177 * (1083 * u24)) by (apply Rmult_le_compat; lra). lra.
Qed.

Lemma fsub_zero d z v : fin d v -> Rabs v <= big29 -> fin z 0 -> fin (fsub d z) v.
Proof.
  intros D B Z. rewrite <- (rnd_fin d v D). replace v with (v - 0) by lra. apply fin_fsub; auto.
  replace (v - 0) with v by lra. apply small_big with 29%Z; [lia|exact B].
Qed.
Lemma fmul_zero z n : fin z 0 -> (0 <= n <= 2 ^ 53)%Z -> fin (fmul z (of_Z n)) 0.
Proof.
  intros Z Hn. rewrite <- rnd_0. replace 0 with (0 * IZR n) by lra. apply fin_fmul; auto; [apply fin_of_Z; lia|].
  rewrite Rmult_0_l, Rabs_R0. apply bpow_ge_0.
Qed.

(** the point of the grid for module (r, c): from the centre of the top left finder, three
    modules in, with the steps [dx] to the right, [dy] down, and [ddx] the growth of [dx] per row *)
Definition grid (t dx ddx dy : R) (r c : nat) : R := t + (INR r - 3) * dy + (INR c - 3) * (dx + (INR r - 3) * ddx).

Lemma exact_grid t dx ddx dy r c : exact (t - 3 * dy) (dx - 3 * ddx) ddx dy r c = grid t dx ddx dy r c.
Proof. unfold exact, grid. lra. Qed.

(** a coordinate of a sample, from the location and the perspective *)
Definition sample (t dx ddx dy ddy : f64) (r c : nat) : f64 :=
  coord (fsub (fsub t (fmul dy (of_Z 3))) (fmul ddy (of_Z 3))) (fsub dx (fmul ddx (of_Z 3))) ddx (fsub dy (fmul ddy (of_Z 3))) ddy r c.

Lemma sample_apx t dx ddx dy ddy T DX DD DY n r c : (4 <= n <= 177)%nat -> (r <= n)%nat -> (c <= n)%nat ->
  fin t T -> apx dx DX (2 * u24) -> apx ddx DD (5 * u24) -> apx dy DY (2 * u24) -> fin ddy 0 ->
  (forall r c, (r <= n)%nat -> (c <= n)%nat -> Rabs (grid T DX DD DY r c) <= 67108864) ->
  apx (sample t dx ddx dy ddy r c) (grid T DX DD DY r c) slack.
Proof.
  intros Hn Hr Hc FT AX AD AY FZ HB.
  assert (U : 0 < u24 /\ 1024 * u24 <= 1) by (unfold u24; lra). destruct U as (U0 & U1).
  assert (BT : Rabs T <= 67108864) by (generalize (HB 3%nat 3%nat ltac:(lia) ltac:(lia)); unfold grid; simpl INR; intros G; match type of G with Rabs ?e <= _ => replace e with T in G by lra end; exact G).
  assert (B1 : forall i, (i <= n)%nat -> Rabs (T - 3 * DY + INR i * DY) <= 67108864).
  { intros i Hi. generalize (HB i 3%nat Hi ltac:(lia)). unfold grid. intros G. change (INR 3) with (1 + 1 + 1) in G. eapply Rle_trans; [|exact G]. right. f_equal. lra. }
  assert (BY : Rabs DY <= 134217728).
  { pose proof (B1 1%nat ltac:(lia)) as G1. pose proof (B1 0%nat ltac:(lia)) as G0. simpl INR in *. apply Rabs_le_inv in G1, G0. apply Rabs_le. lra. }
  assert (B2 : forall i, (i <= n)%nat -> Rabs (DX - 3 * DD + INR i * DD) <= 134217728).
  { intros i Hi. pose proof (HB i 4%nat Hi ltac:(lia)) as G1. pose proof (HB i 3%nat Hi ltac:(lia)) as G0. unfold grid in *.
    change (INR 4) with (1 + 1 + 1 + 1) in G1. change (INR 3) with (1 + 1 + 1) in G0. apply Rabs_le_inv in G1, G0. apply Rabs_le. lra. }
  assert (BX : Rabs DX <= 134217728) by (generalize (B2 3%nat ltac:(lia)); intros G; change (INR 3) with (1 + 1 + 1) in G; eapply Rle_trans; [|exact G]; right; f_equal; lra).
  assert (BD : Rabs DD <= 134217728).
  { generalize (HB 4%nat 4%nat ltac:(lia) ltac:(lia)) (HB 4%nat 3%nat ltac:(lia) ltac:(lia)) (HB 3%nat 4%nat ltac:(lia) ltac:(lia)) (HB 3%nat 3%nat ltac:(lia) ltac:(lia)).
    unfold grid. change (INR 4) with (1 + 1 + 1 + 1). change (INR 3) with (1 + 1 + 1). intros G1 G2 G3 G4.
    apply Rabs_le_inv in G1, G2, G3, G4.
    generalize (HB 0%nat 4%nat ltac:(lia) ltac:(lia)) (HB 0%nat 3%nat ltac:(lia) ltac:(lia)). unfold grid. change (INR 4) with (1 + 1 + 1 + 1). change (INR 3) with (1 + 1 + 1).
    simpl INR. intros G5 G6. apply Rabs_le_inv in G5, G6. apply Rabs_le. lra. }
  destruct AY as (v & FY & HY).
  assert (BV : Rabs v <= 134217729).
  { replace v with (DY + (v - DY)) by lra. eapply Rle_trans; [apply Rabs_triang|]. lra. }
  unfold sample. rewrite <- exact_grid.
  pose proof (fmul_zero ddy 3 FZ ltac:(lia)) as FZ3.
  apply coord_apx with (v := v) (n := n); auto; try lia.
  - (* the start *)
    assert (A : apx (fsub t (fmul dy (of_Z 3))) (T - 3 * DY) (20 * u24)).
    { apply apx_eq with (T - DY * 3); [|lra].
      apply apx_weaken with (0 + (3 * (2 * u24) + u24) + u24); [|lra].
      apply sub29; [now apply fin_apx|apply mul29; [now exists v|lia|]|].
      - rewrite Rabs_mult, (Rabs_pos_eq 3) by lra. unfold big29. lra.
      - specialize (B1 0%nat ltac:(lia)). simpl INR in B1. replace (T - DY * 3) with (T - 3 * DY + 0 * DY) by lra. unfold big29. lra. }
    destruct A as (q & FQ & HQ). exists q. split; [|exact HQ]. apply fsub_zero; auto.
    specialize (B1 0%nat ltac:(lia)). simpl INR in B1. replace q with ((T - 3 * DY + 0 * DY) + (q - (T - 3 * DY))) by lra.
    eapply Rle_trans; [apply Rabs_triang|]. unfold big29. lra.
  - apply apx_eq with (DX - DD * 3); [|lra]. apply apx_weaken with (2 * u24 + (3 * (5 * u24) + u24) + u24); [|lra].
    apply sub29; auto; [apply mul29; [auto|lia|]|].
    + rewrite Rabs_mult, (Rabs_pos_eq 3) by lra. unfold big29. lra.
    + specialize (B2 0%nat ltac:(lia)). simpl INR in B2. replace (DX - DD * 3) with (DX - 3 * DD + 0 * DD) by lra. unfold big29. lra.
  - apply fsub_zero; auto. unfold big29. lra.
  - intros i Hi. rewrite exact_grid. now apply HB.
Qed.

(** *** versions without alignment pattern *)
Lemma step_apx a b A B d : fin a A -> fin b B -> Rabs A <= 67108864 -> Rabs B <= 67108864 -> (1 <= d <= 170)%Z ->
  apx (fdiv (fsub a b) (of_Z d)) ((A - B) / IZR d) (2 * u24).
Proof.
  intros FA FB HA HB Hd. assert (U : 0 < u24 /\ 1024 * u24 <= 1) by (unfold u24; lra). destruct U as (U0 & U1).
  assert (D1 : 1 <= IZR d) by (apply IZR_le; lia).
  assert (AB : Rabs (A - B) <= 134217728) by (eapply Rle_trans; [apply Rabs_triang|]; rewrite Rabs_Ropp; lra).
  apply apx_weaken with ((0 + 0 + u24) / Rabs (IZR d) + bpow radix2 (29 - 53)).
  - apply apx_fdiv; [lia| | |lra|].
    + apply sub29; try (now apply fin_apx). unfold big29. lra.
    + apply fin_of_Z. lia.
    + rewrite (Rabs_pos_eq (IZR d)) by lra. unfold Rdiv. rewrite Rabs_mult, (Rabs_pos_eq (/ IZR d)) by (apply Rlt_le, Rinv_0_lt_compat; lra).
      rewrite <- Rmult_plus_distr_r. apply Rle_trans with ((Rabs (A - B) + (0 + 0 + u24)) * 1).
      * apply Rmult_le_compat_l; [pose proof (Rabs_pos (A - B)); lra|]. rewrite <- Rinv_1. apply Rinv_le; lra.
      * change (bpow radix2 29) with big29. unfold big29. lra.
  - rewrite (Rabs_pos_eq (IZR d)) by lra. change (bpow radix2 (29 - 53)) with u24.
    assert ((0 + 0 + u24) / IZR d <= (0 + 0 + u24) * 1); [|lra].
    apply Rmult_le_compat_l; [lra|]. rewrite <- Rinv_1. apply Rinv_le; lra.
Qed.

(** the pixel a point falls into, as `round() as u32` does *)
Definition pixel_of (q : R) : Z := Z.min u32_max (Z.max 0 (away q)).

Lemma round_pixel x r d : apx x r d -> exists q, Rabs (q - r) <= d /\ round_u32 x = pixel_of q.
Proof. intros (q & F & H). exists q. split; [exact H|]. now apply round_u32_R. Qed.

Definition rows (f : nat -> nat -> N) (n : nat) : list N := flat_map (fun r => map (f r) (seq 0 n)) (seq 0 n).

(** all points close to (x, y) lie in a pixel of value [v] *)
Definition value_around (g : gray) (x y : R) (v : N) : Prop :=
  forall a b, Rabs (a - x) <= slack -> Rabs (b - y) <= slack -> get_pixel g (pixel_of a) (pixel_of b) = Ok v.

Theorem extract_1 g loc f xl yl xr yr xb yb : version loc = 1%Z ->
  fin (px (top_left loc)) xl -> fin (py (top_left loc)) yl -> fin (px (top_right loc)) xr -> fin (py (top_right loc)) yr ->
  fin (px (bottom_left loc)) xb -> fin (py (bottom_left loc)) yb ->
  (forall r c, (r < 21)%nat -> (c < 21)%nat ->
     let x := grid xl ((xr - xl) / 14) 0 ((xb - xl) / 14) r c in let y := grid yl ((yr - yl) / 14) 0 ((yb - yl) / 14) r c in
     Rabs x <= 67108864 /\ Rabs y <= 67108864 /\ value_around g x y (f r c)) ->
  extract g loc = Ok (mkQRData (rows f 21) 1 21).
Proof.
  intros HV F1 F2 F3 F4 F5 F6 H. unfold extract. rewrite HV. change (1 * 4)%Z with 4%Z. cbn [bind chk_u32].
  change (chk_u32 4) with (Ok 4%Z). cbn [bind]. change (chk_u32 (17 + 4)) with (Ok 21%Z). cbn [bind].
  unfold determine_perspective. change (sub_Z 21 7) with (Ok 14%Z). cbn [bind]. change (1 =? 1)%Z with true. cbv beta iota. cbn [bind].
  cbn [pdx pddx pdy pddy]. change (Z.to_nat 21) with 21%nat.
  assert (BP : forall r c, (r <= 20)%nat -> (c <= 20)%nat -> Rabs (grid xl ((xr - xl) / 14) 0 ((xb - xl) / 14) r c) <= 67108864 /\ Rabs (grid yl ((yr - yl) / 14) 0 ((yb - yl) / 14) r c) <= 67108864).
  { intros r c Hr Hc. destruct (H r c ltac:(lia) ltac:(lia)) as (A & B & _). auto. }
  assert (C3 : forall t a b, grid t a 0 b 3 3 = t) by (intros; unfold grid; change (INR 3) with (1 + 1 + 1); lra).
  assert (CR : forall t q b, grid t ((q - t) / 14) 0 b 3 17 = q).
  { intros. unfold grid. replace (INR 17) with 17 by (simpl; lra). change (INR 3) with (1 + 1 + 1). field. }
  assert (CB : forall t q b, grid t b 0 ((q - t) / 14) 17 3 = q).
  { intros. unfold grid. replace (INR 17) with 17 by (simpl; lra). change (INR 3) with (1 + 1 + 1). field. }
  pose proof (BP 3 3 ltac:(lia) ltac:(lia))%nat as B33. rewrite !C3 in B33.
  pose proof (BP 3 17 ltac:(lia) ltac:(lia))%nat as B3r. rewrite !CR in B3r.
  pose proof (BP 17 3 ltac:(lia) ltac:(lia))%nat as Br3. rewrite !CB in Br3.
  assert (Z0 : fin (of_Z 0) 0) by (apply fin_of_Z; lia).
  assert (Z5 : apx (of_Z 0) 0 (5 * u24)) by (apply apx_weaken with 0; [now apply fin_apx|unfold u24; lra]).
  rewrite (sample_rows_ok g _ f 21 21).
  - cbn [bind app]. reflexivity.
  - intros r c Hr Hc. cbn [pddx pddy]. unfold psub, dsub, dmul, ddiv, pdiff, no_delta. cbn [px py dlx dly].
    destruct (H r c Hr Hc) as (_ & _ & SH).
    destruct (round_pixel _ _ _ (sample_apx (px (top_left loc)) (fdiv (fsub (px (top_right loc)) (px (top_left loc))) (of_Z 14)) (of_Z 0)
      (fdiv (fsub (px (bottom_left loc)) (px (top_left loc))) (of_Z 14)) (of_Z 0) xl ((xr - xl) / 14) 0 ((xb - xl) / 14) 20 r c
      ltac:(lia) ltac:(lia) ltac:(lia) F1 (step_apx _ _ _ _ 14 F3 F1 (proj1 B3r) (proj1 B33) ltac:(lia)) Z5
      (step_apx _ _ _ _ 14 F5 F1 (proj1 Br3) (proj1 B33) ltac:(lia)) Z0 (fun r c h1 h2 => proj1 (BP r c h1 h2)))) as (a & HA & EA).
    destruct (round_pixel _ _ _ (sample_apx (py (top_left loc)) (fdiv (fsub (py (top_right loc)) (py (top_left loc))) (of_Z 14)) (of_Z 0)
      (fdiv (fsub (py (bottom_left loc)) (py (top_left loc))) (of_Z 14)) (of_Z 0) yl ((yr - yl) / 14) 0 ((yb - yl) / 14) 20 r c
      ltac:(lia) ltac:(lia) ltac:(lia) F2 (step_apx _ _ _ _ 14 F4 F2 (proj2 B3r) (proj2 B33) ltac:(lia)) Z5
      (step_apx _ _ _ _ 14 F6 F2 (proj2 Br3) (proj2 B33) ltac:(lia)) Z0 (fun r c h1 h2 => proj2 (BP r c h1 h2)))) as (b & HB & EB).
    unfold sample in EA, EB. rewrite EA, EB. apply SH; assumption.
Qed.
