(** Refinement: lines through a finder pattern. *)
From Coq Require Import NArith ZArith Reals List Lia Lra Bool Arith Psatz.
From Verif.Model Require Import Prepare Detect.
From Flocq Require Import Core.
From Verif.Spec Require Import Window Finder Drawing.
From Verif.Proofs Require Import BaseP PrepareP FloatP ApproxP DetectP ExtractP AlignP.
Import ListNotations.
Local Open Scope Z_scope.

(** *** sliding without swallowing a run *)
Lemma slide_shift p : 0 <= p5 p <= u32_max -> 0 <= p6 p <= u32_max -> p5 p <= 10 * p6 p \/ p4 p = 0 ->
  slide p = Ok (Pat (p1 p) (p2 p) (p3 p) (p4 p) (p5 p) (p6 p) 1).
Proof.
  intros H5 H6 H. unfold slide. destruct H as [H|H].
  - replace (flt (of_Z (p6 p)) (fdiv (of_Z (p5 p)) (of_Z 10))) with false; [reflexivity|]. symmetry.
    unfold u32_max in *. rewrite (flt_R _ _ (IZR (p6 p)) (rnd (IZR (p5 p) / 10))).
    + apply Rlt_bool_false. rewrite <- (rnd_int (p6 p)) by lia. apply rnd_le. apply IZR_le in H. rewrite mult_IZR in H. lra.
    + apply fin_of_Z. lia.
    + apply fin_fdiv; try (apply fin_of_Z; lia); [lra|]. apply small_big with 32; [lia|]. change (bpow radix2 32) with 4294967296%R.
      pose proof (IZR_32 (p5 p) ltac:(unfold u32_max; lia)). rewrite Rabs_pos_eq; lra.
  - rewrite H. cbn [Z.eqb negb]. rewrite andb_false_r. reflexivity.
Qed.

(** *** runs that are no finder *)
Lemma not_finder_0 b c d e : 0 <= b -> 0 <= c -> 0 <= d -> 0 <= e -> ~ finder_runs 0 b c d e.
Proof. unfold finder_runs, stands_for. cbv zeta. lia. Qed.
Lemma not_finder_c a b c d e : 3 * c < a + b + c + d + e -> ~ finder_runs a b c d e.
Proof. unfold finder_runs, stands_for. cbv zeta. lia. Qed.

Lemma confirm_none ms p x y diag n : pat_ok n p -> n <= u32_max -> ~ finder_runs (p2 p) (p3 p) (p4 p) (p5 p) (p6 p) ->
  confirm ms p x y diag = Ok None.
Proof.
  intros H L F. unfold confirm. destruct (looks_like_finder_exact n p H L) as (b & -> & B & _). cbn [bind].
  destruct b; [|reflexivity]. contradiction F. now apply B.
Qed.

Lemma pat_small p n : 0 <= p0 p -> 0 <= p1 p -> 0 <= p2 p -> 0 <= p3 p -> 0 <= p4 p -> 0 <= p5 p -> 0 <= p6 p -> pat_sum p <= n -> pat_ok n p.
Proof. unfold pat_ok. tauto. Qed.

(** *** walking along a line *)
Section Line.
Context (g : gray) (ms : f64) (diag : bool) (h : Z -> Z * Z) (e : Z).
Definition walk (t : Z) (last : N) (p : pattern) : res (option finder_pos) :=
  refine_loop g ms diag (map h (zrange t e)) last p (fst (h (t - 1))) (snd (h (t - 1))).
Definition shows_at (a b : Z) (v : N) : Prop := forall t, a <= t < b -> get_pixel g (fst (h t)) (snd (h t)) = Ok v.

Lemma refine_loop_step t lx ly last p : t < e -> refine_loop g ms diag (map h (zrange t e)) last p lx ly =
  (v <- get_pixel g (fst (h t)) (snd (h t)) ;;
   if N.eqb v last then p <- pattern_inc p ;; walk (t + 1) last p
   else r <- confirm ms p (fst (h t)) (snd (h t)) diag ;;
        match r with Some f => Ok (Some f) | None => p <- slide p ;; walk (t + 1) v p end).
Proof.
  intros H. rewrite zrange_cons by lia. cbn [map]. destruct (h t) as [x y] eqn:E. cbn [refine_loop fst snd].
  unfold walk. replace (t + 1 - 1) with t by lia. rewrite E. reflexivity.
Qed.
Lemma walk_step t last p : t < e -> walk t last p =
  (v <- get_pixel g (fst (h t)) (snd (h t)) ;;
   if N.eqb v last then p <- pattern_inc p ;; walk (t + 1) last p
   else r <- confirm ms p (fst (h t)) (snd (h t)) diag ;;
        match r with Some f => Ok (Some f) | None => p <- slide p ;; walk (t + 1) v p end).
Proof. apply refine_loop_step. Qed.

Lemma walk_same n : forall t v q0 q1 q2 q3 q4 q5 k, 0 <= k -> k + Z.of_nat n <= u32_max -> t + Z.of_nat n <= e -> shows_at t (t + Z.of_nat n) v ->
  walk t v (Pat q0 q1 q2 q3 q4 q5 k) = walk (t + Z.of_nat n) v (Pat q0 q1 q2 q3 q4 q5 (k + Z.of_nat n)).
Proof.
  induction n as [|n IH]; intros t v q0 q1 q2 q3 q4 q5 k Hk HM He HS.
  - now rewrite !Z.add_0_r.
  - rewrite walk_step by lia. rewrite HS by lia. cbn [bind]. rewrite N.eqb_refl. unfold pattern_inc. cbn [p0 p1 p2 p3 p4 p5 p6].
    rewrite chk_u32_ok by lia. cbn [bind]. rewrite IH; try lia.
    + f_equal; [lia|]. f_equal. lia.
    + intros t' Ht'. apply HS. lia.
Qed.

(** one run, entered with a change *)
Lemma walk_run a b v last p q0 q1 q2 q3 q4 q5 : a < b -> b <= e -> b - a <= u32_max -> shows_at a b v -> v <> last ->
  confirm ms p (fst (h a)) (snd (h a)) diag = Ok None -> slide p = Ok (Pat q0 q1 q2 q3 q4 q5 1) ->
  walk a last p = walk b v (Pat q0 q1 q2 q3 q4 q5 (b - a)).
Proof.
  intros AB BE BM HS NV HC HL. rewrite walk_step by lia. rewrite HS by lia. cbn [bind]. destruct (N.eqb_spec v last); [congruence|].
  rewrite HC. cbn [bind]. rewrite HL. cbn [bind]. rewrite (walk_same (Z.to_nat (b - a - 1))); try lia.
  - f_equal; [lia|]. f_equal. lia.
  - intros t Ht. apply HS. lia.
Qed.

(** *** what comes before a finder *)
Definition before_ok (m : Z) (p : pattern) : Prop :=
  p0 p = 0 /\ p1 p = 0 /\ p2 p = 0 /\ p3 p = 0 /\ 0 <= p4 p <= 40000000 /\ 0 <= p5 p <= 40000000 /\ 0 <= p6 p <= 40000000 /\
  (p4 p = 0 \/ p6 p = m /\ 1 <= p5 p <= 10 * m) /\ (p5 p = 0 \/ p6 p <= 10 * m).

Lemma first_run s v : v <> 127%N -> s < e -> get_pixel g (fst (h s)) (snd (h s)) = Ok v -> forall lx ly,
  refine_loop g ms diag (map h (zrange s e)) 127%N pattern_new lx ly = walk (s + 1) v (Pat 0 0 0 0 0 0 1).
Proof.
  intros NV SE HS lx ly. rewrite refine_loop_step by lia. rewrite HS. cbn [bind]. destruct (N.eqb_spec v 127); [contradiction|].
  reflexivity.
Qed.
Lemma first_runs s b v : v <> 127%N -> s < b -> b <= e -> b - s <= u32_max -> shows_at s b v -> forall lx ly,
  refine_loop g ms diag (map h (zrange s e)) 127%N pattern_new lx ly = walk b v (Pat 0 0 0 0 0 0 (b - s)).
Proof.
  intros NV SB BE BM HS lx ly. rewrite (first_run s v NV) by (try lia; apply HS; lia).
  rewrite (walk_same (Z.to_nat (b - s - 1))); try lia.
  - f_equal; [lia|]. f_equal. lia.
  - intros t Ht. apply HS. lia.
Qed.


Lemma walk_next a b v last q0 q1 q2 q3 q4 q5 q6 : a < b -> b <= e -> b - a <= 100000000 -> shows_at a b v -> v <> last ->
  0 <= q0 -> 0 <= q1 -> 0 <= q2 -> 0 <= q3 -> 0 <= q4 -> 0 <= q5 -> 0 <= q6 -> q0 + q1 + q2 + q3 + q4 + q5 + q6 <= 4000000000 ->
  ~ finder_runs q2 q3 q4 q5 q6 -> q5 <= 10 * q6 \/ q4 = 0 ->
  walk a last (Pat q0 q1 q2 q3 q4 q5 q6) = walk b v (Pat q1 q2 q3 q4 q5 q6 (b - a)).
Proof.
  intros AB BE BM HS NV H0 H1 H2 H3 H4 H5 H6 HT HF HQ. unfold u32_max. apply walk_run; auto; try (unfold u32_max; lia).
  - apply confirm_none with (n := 4000000000); [apply pat_small; unfold pat_sum; cbn [p0 p1 p2 p3 p4 p5 p6]; lia|unfold u32_max; lia|exact HF].
  - apply slide_shift; cbn [p0 p1 p2 p3 p4 p5 p6]; unfold u32_max; lia.
Qed.

(** up to three modules before it: white next to it, then [c1] as far as [b], then [c2] *)
Lemma before s t0 m b c1 c2 : 1 <= m <= 10000000 -> t0 - 3 * m <= s <= t0 -> t0 < e -> t0 - 2 * m <= b < t0 - m ->
  c1 = 0%N \/ c1 = 255%N -> c2 = 0%N \/ c2 = 255%N ->
  shows_at (Z.max s (t0 - m)) t0 255 -> shows_at (Z.max s b) (t0 - m) c1 -> shows_at s b c2 ->
  forall lx ly, exists last p, last <> 0%N /\ before_ok m p /\ refine_loop g ms diag (map h (zrange s e)) 127%N pattern_new lx ly = walk t0 last p.
Proof.
  intros Hm Hs He HB H1 H2 S0 S1 S2 lx ly.
  assert (JOIN : forall a b c v, shows_at a b v -> shows_at b c v -> shows_at a c v).
  { intros a b' c v A B t Ht. destruct (Z_lt_le_dec t b'); [apply A|apply B]; lia. }
  assert (ONE : s < t0 -> shows_at s t0 255 -> exists last p, last <> 0%N /\ before_ok m p /\ refine_loop g ms diag (map h (zrange s e)) 127%N pattern_new lx ly = walk t0 last p).
  { intros L S. rewrite (first_runs s t0 255) by (try discriminate; unfold u32_max; try lia; exact S).
    eexists. eexists. split; [|split; [|reflexivity]]; [discriminate|]. unfold before_ok. cbn [p0 p1 p2 p3 p4 p5 p6]. lia. }
  assert (TWO : forall b, s < b < t0 -> t0 - b <= 2 * m -> shows_at s b 0 -> shows_at b t0 255 -> exists last p, last <> 0%N /\ before_ok m p /\ refine_loop g ms diag (map h (zrange s e)) 127%N pattern_new lx ly = walk t0 last p).
  { intros b' Hb LB SA SB. rewrite (first_runs s b' 0) by (try discriminate; unfold u32_max; try lia; exact SA).
    rewrite (walk_next b' t0 255); try lia; [|exact SB|apply not_finder_0; lia].
    eexists. eexists. split; [|split; [|reflexivity]]; [discriminate|]. unfold before_ok. cbn [p0 p1 p2 p3 p4 p5 p6]. lia. }
  destruct (Z.eq_dec s t0) as [-> | NS].
  { exists 127%N, pattern_new. split; [discriminate|]. split; [unfold before_ok; cbn [pattern_new p0 p1 p2 p3 p4 p5 p6]; lia|].
    rewrite refine_loop_step, walk_step by lia. reflexivity. }
  destruct (Z_le_gt_dec (t0 - m) s) as [L1|L1].
  { rewrite Z.max_l in S0 by lia. apply ONE; [lia|exact S0]. }
  rewrite Z.max_r in S0 by lia.
  destruct (Z_le_gt_dec b s) as [L2|L2].
  { rewrite Z.max_l in S1 by lia. destruct H1 as [-> | ->].
    - apply (TWO (t0 - m)); [lia|lia|exact S1|exact S0].
    - apply ONE; [lia|]. now apply JOIN with (t0 - m). }
  rewrite Z.max_r in S1 by lia.
  destruct H1 as [-> | ->].
  - destruct H2 as [-> | ->].
    + apply (TWO (t0 - m)); [lia|lia| |exact S0]. now apply JOIN with b.
    + rewrite (first_runs s b 255) by (try discriminate; unfold u32_max; try lia; exact S2).
      rewrite (walk_next b (t0 - m) 0); try lia; [|exact S1|apply not_finder_0; lia].
      rewrite (walk_next (t0 - m) t0 255); try lia; [|exact S0|apply not_finder_0; lia].
      eexists. eexists. split; [|split; [|reflexivity]]; [discriminate|]. unfold before_ok. cbn [p0 p1 p2 p3 p4 p5 p6]. lia.
  - destruct H2 as [-> | ->].
    + apply (TWO b); [lia|lia|exact S2|]. now apply JOIN with (t0 - m).
    + apply ONE; [lia|]. apply JOIN with (t0 - m); [|exact S0]. now apply JOIN with b.
Qed.

(** *** through the finder: runs of m, m, k, m, m pixels *)
Definition crosses (t0 m k : Z) : Prop :=
  shows_at t0 (t0 + m) 0 /\ shows_at (t0 + m) (t0 + 2 * m) 255 /\ shows_at (t0 + 2 * m) (t0 + 2 * m + k) 0 /\
  shows_at (t0 + 2 * m + k) (t0 + 3 * m + k) 255 /\ shows_at (t0 + 3 * m + k) (t0 + 4 * m + k) 0.

Lemma through t0 m k last p : 2 <= m <= 10000000 -> (k = 3 * m \/ k = 3 * m - 1) -> last <> 0%N -> before_ok m p -> crosses t0 m k -> t0 + 4 * m + k <= e ->
  walk t0 last p = walk (t0 + 4 * m + k) 0 (Pat (p5 p) (p6 p) m m k m m).
Proof.
  intros Hm Hk NL (B0 & B1 & B2 & B3 & B4 & B5 & B6 & C1 & C2) (S1 & S2 & S3 & S4 & S5) He.
  destruct p as [q0 q1 q2 q3 q4 q5 q6]. cbn [p0 p1 p2 p3 p4 p5 p6] in *. subst q0 q1 q2 q3.
  assert (U : u32_max = 4294967295) by reflexivity.
  rewrite (walk_next t0 (t0 + m) 0); try lia; [|exact S1|apply not_finder_0; lia].
  rewrite (walk_next (t0 + m) (t0 + 2 * m) 255); try lia; [|exact S2|apply not_finder_0; lia].
  rewrite (walk_next (t0 + 2 * m) (t0 + 2 * m + k) 0); try lia; [|exact S3|].
  2:{ destruct (Z.eq_dec q4 0) as [-> | Q4]; [apply not_finder_0; lia|apply not_finder_c; lia]. }
  rewrite (walk_next (t0 + 2 * m + k) (t0 + 3 * m + k) 255); try lia; [|exact S4|apply not_finder_c; lia].
  rewrite (walk_next (t0 + 3 * m + k) (t0 + 4 * m + k) 0); try lia; [|exact S5|apply not_finder_c; lia].
  cbn [p0 p1 p2 p3 p4 p5 p6]. f_equal. f_equal; lia.
Qed.

(** and out of it: at the end of the path or at the first white pixel *)
Definition leaves (t1 : Z) : Z := if t1 <? e then t1 else t1 - 1.
Lemma out t1 m k q0 q1 : 2 <= m <= 10000000 -> (k = 3 * m \/ k = 3 * m - 1) -> 0 <= q0 <= 100000000 -> 0 <= q1 <= 100000000 -> t1 <= e -> (t1 < e -> shows_at t1 (t1 + 1) 255) ->
  let est := est_of (4 * m + k) in
  flt (diff ms est) (lit 2 10) || diag = true ->
  walk t1 0 (Pat q0 q1 m m k m m) = Ok (Some (FP (Pt (of_Z (fst (h (leaves t1)))) (of_Z (snd (h (leaves t1))))) (fdiv (fadd ms est) (of_Z 2)) est)).
Proof.
  intros Hm Hk H0 H1 He HS est HD. assert (U : u32_max = 4294967295) by reflexivity.
  assert (P : pat_ok 400000000 (Pat q0 q1 m m k m m)) by (apply pat_small; unfold pat_sum; cbn [p0 p1 p2 p3 p4 p5 p6]; lia).
  assert (C : forall x y, confirm ms (Pat q0 q1 m m k m m) x y diag = Ok (Some (FP (Pt (of_Z x) (of_Z y)) (fdiv (fadd ms est) (of_Z 2)) est))).
  { intros x y. unfold confirm. destruct (looks_like_finder_exact _ _ P ltac:(lia)) as (b & -> & _ & B). cbn [bind]. rewrite B.
    - rewrite (est_ok _ _ P) by lia. cbn [bind]. unfold pat_total. cbn [p0 p1 p2 p3 p4 p5 p6]. replace (m + m + k + m + m) with (4 * m + k) by lia.
      fold est. now rewrite HD.
    - cbn [p2 p3 p4 p5 p6]. unfold finder_runs, stands_for. cbv zeta. lia.
    - unfold pat_total. cbn [p2 p3 p4 p5 p6]. lia. }
  unfold leaves. destruct (Z.ltb_spec t1 e) as [L|L].
  - rewrite walk_step by lia. rewrite (HS L) by lia. cbn [bind N.eqb]. rewrite C. reflexivity.
  - unfold walk. rewrite zrange_nil by lia. cbn [map refine_loop]. apply C.
Qed.

(** the whole line *)
Lemma line s t0 m k b c1 c2 : 2 <= m <= 10000000 -> (k = 3 * m \/ k = 3 * m - 1) -> t0 - 3 * m <= s <= t0 -> t0 - 2 * m <= b < t0 - m ->
  c1 = 0%N \/ c1 = 255%N -> c2 = 0%N \/ c2 = 255%N ->
  shows_at (Z.max s (t0 - m)) t0 255 -> shows_at (Z.max s b) (t0 - m) c1 -> shows_at s b c2 ->
  crosses t0 m k -> let t1 := t0 + 4 * m + k in t1 <= e -> (t1 < e -> shows_at t1 (t1 + 1) 255) ->
  let est := est_of (4 * m + k) in flt (diff ms est) (lit 2 10) || diag = true ->
  refine g ms (map h (zrange s e)) diag =
    Ok (Some (FP (Pt (of_Z (fst (h (leaves t1)))) (of_Z (snd (h (leaves t1))))) (fdiv (fadd ms est) (of_Z 2)) est)).
Proof.
  intros Hm Hk Hs HB H1 H2 S0 S1 S2 HC t1 He HS est HD. unfold refine.
  destruct (before s t0 m b c1 c2 ltac:(lia) Hs ltac:(lia) HB H1 H2 S0 S1 S2 0 0) as (last & p & NL & B & ->).
  rewrite (through t0 m k) by assumption. fold t1. pose proof B as (_ & _ & _ & _ & _ & B5 & B6 & _).
  apply out; auto; lia.
Qed.
End Line.

(** *** multiples of one half are exact *)
Definition hf (x : f64) (n : Z) : Prop := fin x (IZR n / 2).
Definition hb (n : Z) : Prop := Z.abs n <= 2 ^ 40.
Lemma IZR_40 n : hb n -> (Rabs (IZR n) <= 1099511627776)%R.
Proof. intros H. rewrite <- abs_IZR. apply IZR_le in H. exact H. Qed.
Lemma rnd_half n : hb n -> rnd (IZR n / 2) = (IZR n / 2)%R.
Proof.
  intros H. replace (IZR n / 2)%R with (IZR n * bpow radix2 (-1))%R by (simpl; lra). apply rnd_dyadic; [unfold hb in H; lia|lia].
Qed.
Lemma half_big r : (Rabs r <= 2199023255552)%R -> (Rabs r <= big)%R.
Proof. intros H. apply small_big with 41; [lia|]. change (bpow radix2 41) with 2199023255552%R. exact H. Qed.
Lemma hf_Z z : hb (2 * z) -> hf (of_Z z) (2 * z).
Proof. intros H. unfold hf. rewrite mult_IZR. replace (2 * IZR z / 2)%R with (IZR z) by lra. apply fin_of_Z. unfold hb in H. lia. Qed.
Lemma hf_add x y a b : hf x a -> hf y b -> hb (a + b) -> hf (fadd x y) (a + b).
Proof.
  intros X Y H. unfold hf. rewrite <- rnd_half by exact H. rewrite plus_IZR. replace ((IZR a + IZR b) / 2)%R with (IZR a / 2 + IZR b / 2)%R by lra.
  apply fin_fadd; [exact X|exact Y|]. apply half_big. pose proof (IZR_40 _ H) as B. rewrite plus_IZR in B.
  replace (IZR a / 2 + IZR b / 2)%R with ((IZR a + IZR b) * / 2)%R by lra. rewrite Rabs_mult, (Rabs_pos_eq (/ 2)) by lra. lra.
Qed.
Lemma hf_sub x y a b : hf x a -> hf y b -> hb (a - b) -> hf (fsub x y) (a - b).
Proof.
  intros X Y H. unfold hf. rewrite <- rnd_half by exact H. rewrite minus_IZR. replace ((IZR a - IZR b) / 2)%R with (IZR a / 2 - IZR b / 2)%R by lra.
  apply fin_fsub; [exact X|exact Y|]. apply half_big. pose proof (IZR_40 _ H) as B. rewrite minus_IZR in B.
  replace (IZR a / 2 - IZR b / 2)%R with ((IZR a - IZR b) * / 2)%R by lra. rewrite Rabs_mult, (Rabs_pos_eq (/ 2)) by lra. lra.
Qed.
Lemma hf_mul x y k a : fin x (IZR k) -> hf y a -> hb (k * a) -> hf (fmul x y) (k * a).
Proof.
  intros X Y H. unfold hf. rewrite <- rnd_half by exact H. rewrite mult_IZR. replace (IZR k * IZR a / 2)%R with (IZR k * (IZR a / 2))%R by lra.
  apply fin_fmul; [exact X|exact Y|]. apply half_big. pose proof (IZR_40 _ H) as B. rewrite mult_IZR in B.
  replace (IZR k * (IZR a / 2))%R with ((IZR k * IZR a) * / 2)%R by lra. rewrite Rabs_mult, (Rabs_pos_eq (/ 2)) by lra. lra.
Qed.
Lemma hf_round x n : hf x n -> hb n -> 0 <= n -> n <= 4294967296 -> round_u32 x = (n + 1) / 2.
Proof.
  intros X H P L. unfold round_u32. rewrite (to_u32_R _ _ (fin_fround _ _ X)). rewrite Zfloor_IZR.
  assert (0 <= IZR n)%R by (apply IZR_le; lia). rewrite away_pos by lra.
  replace (IZR n / 2 + / 2)%R with (IZR (n + 1) / IZR 2)%R by (rewrite plus_IZR; lra).
  rewrite Zfloor_div by lia. pose proof (Z.div_pos (n + 1) 2). assert ((n + 1) / 2 <= u32_max) by (apply Z.div_le_upper_bound; unfold u32_max; lia). lia.
Qed.
Lemma hf_lt x y a b : hf x a -> hf y b -> flt x y = (a <? b).
Proof.
  intros X Y. rewrite (flt_R _ _ _ _ X Y). destruct (Z.ltb_spec a b) as [L|L].
  - apply Rlt_bool_true. apply IZR_lt in L. lra.
  - apply Rlt_bool_false. apply IZR_le in L. lra.
Qed.
Lemma hf_max0 x n : hf x n -> hf (fmax0 x) (Z.max n 0).
Proof.
  intros X. pose proof (fin_fmax0 _ _ X) as F. unfold hf. replace (IZR (Z.max n 0) / 2)%R with (Rmax (IZR n / 2) 0); [exact F|].
  destruct (Z.max_spec n 0) as [[L ->]|[L ->]].
  - apply IZR_lt in L. rewrite Rmax_right; lra.
  - apply IZR_le in L. rewrite Rmax_left; lra.
Qed.

(** *** module sizes that come out exactly *)
Lemma est_exact m : 1 <= m <= 10000000 -> fin (est_of (7 * m)) (IZR m).
Proof.
  intros H. pose proof (est_fin (7 * m) ltac:(unfold u32_max; lia)) as F. rewrite mult_IZR in F.
  replace (7 * IZR m / 7)%R with (IZR m) in F by lra. now rewrite rnd_int in F by lia.
Qed.
Lemma fin_hf x z : fin x (IZR z) <-> hf x (2 * z).
Proof. unfold hf. rewrite mult_IZR. replace (2 * IZR z / 2)%R with (IZR z) by lra. tauto. Qed.
Lemma avg_exact x y m : 1 <= m <= 10000000 -> fin x (IZR m) -> fin y (IZR m) -> fin (fdiv (fadd x y) (of_Z 2)) (IZR m).
Proof.
  intros H X Y. assert (R : (1 <= IZR m <= 10000000)%R) by (split; apply IZR_le; lia).
  assert (A : fin (fadd x y) (IZR (2 * m))).
  { rewrite <- (rnd_int (2 * m)) by lia. replace (IZR (2 * m)) with (IZR m + IZR m)%R by (rewrite mult_IZR; lra).
    apply fin_fadd; [exact X|exact Y|]. apply half_big. rewrite Rabs_pos_eq; lra. }
  rewrite <- (rnd_int m) by lia. replace (IZR m) with (IZR (2 * m) / IZR 2)%R by (rewrite mult_IZR; lra).
  apply fin_fdiv; [exact A|apply fin_of_Z; lia|lra|]. apply half_big. rewrite mult_IZR, Rabs_pos_eq; lra.
Qed.
Lemma diff_same x y m : 1 <= m <= 10000000 -> fin x (IZR m) -> fin y (IZR m) -> flt (diff x y) (lit 2 10) = true.
Proof.
  intros H X Y. assert (R : (1 <= IZR m <= 10000000)%R) by (split; apply IZR_le; lia).
  unfold diff. rewrite (fgt_R _ _ _ _ X Y). rewrite Rlt_bool_false by lra.
  assert (S : fin (fsub y x) 0%R).
  { rewrite <- rnd_0. rewrite <- (Rminus_diag_eq (IZR m) (IZR m) eq_refl). apply fin_fsub; [exact Y|exact X|]. apply half_big. rewrite Rminus_diag_eq, Rabs_R0; lra. }
  assert (D : fin (fdiv (fsub y x) y) 0%R).
  { rewrite <- rnd_0. replace (rnd 0) with (rnd (0 / IZR m)) by (f_equal; unfold Rdiv; ring). apply fin_fdiv; [exact S|exact Y|lra|].
    apply half_big. unfold Rdiv. rewrite Rmult_0_l, Rabs_R0. lra. }
  assert (L : fin (lit 2 10) (rnd (2 / 10))).
  { apply fin_fdiv; try (apply fin_of_Z; lia); [lra|]. apply half_big. rewrite Rabs_pos_eq; lra. }
  rewrite (flt_R _ _ _ _ D L). apply Rlt_bool_true.
  assert (rnd (IZR 1 * bpow radix2 (-3)) <= rnd (2 / 10))%R by (apply rnd_le; simpl; lra).
  rewrite rnd_dyadic in H0 by lia. simpl in H0. lra.
Qed.
