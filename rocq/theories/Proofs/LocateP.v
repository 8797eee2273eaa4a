(** Three finder centres at a right angle, along the axes, are located exactly. *)
From Coq Require Import NArith ZArith Reals List Lia Lra Bool Arith Psatz.
From Verif.Model Require Import Prepare Detect.
From Flocq Require Import Core.
From Verif.Spec Require Import Plane Layout.
From Verif.Proofs Require Import BaseP PrepareP FloatP ApproxP DetectP GeometryP RefineP.
Import ListNotations.
Local Open Scope Z_scope.

(** *** integers are exact *)
Definition fi (x : f64) (a : Z) : Prop := fin x (IZR a).
Definition ib (a : Z) : Prop := Z.abs a <= 2 ^ 53.
Lemma ib_big a : ib a -> (Rabs (IZR a) <= big)%R.
Proof. intros H. apply small_big with 53; [lia|]. rewrite <- abs_IZR. change (bpow radix2 53) with (IZR (2 ^ 53)). now apply IZR_le. Qed.
Lemma fi_Z a : ib a -> fi (of_Z a) a.
Proof. apply fin_of_Z. Qed.
Lemma fi_add x y a b : fi x a -> fi y b -> ib (a + b) -> fi (fadd x y) (a + b).
Proof.
  intros X Y H. unfold fi. rewrite <- (rnd_int (a + b)) by exact H. pose proof (ib_big _ H) as B. rewrite plus_IZR in *. now apply fin_fadd.
Qed.
Lemma fi_sub x y a b : fi x a -> fi y b -> ib (a - b) -> fi (fsub x y) (a - b).
Proof.
  intros X Y H. unfold fi. rewrite <- (rnd_int (a - b)) by exact H. pose proof (ib_big _ H) as B. rewrite minus_IZR in *. now apply fin_fsub.
Qed.
Lemma fi_mul x y a b : fi x a -> fi y b -> ib (a * b) -> fi (fmul x y) (a * b).
Proof.
  intros X Y H. unfold fi. rewrite <- (rnd_int (a * b)) by exact H. pose proof (ib_big _ H) as B. rewrite mult_IZR in *. now apply fin_fmul.
Qed.
Lemma fi_div x y a b : fi x (a * b) -> fi y b -> b <> 0 -> ib a -> fi (fdiv x y) a.
Proof.
  intros X Y N H. unfold fi. rewrite <- (rnd_int a) by exact H. pose proof (ib_big _ H) as B.
  assert (IZR b <> 0%R) by now apply IZR_neq.
  replace (IZR a) with (IZR (a * b) / IZR b)%R in * by (rewrite mult_IZR; now field). now apply fin_fdiv.
Qed.
Lemma fi_sqrt x a : fi x (a * a) -> 0 <= a -> ib a -> fi (fsqrt x) a.
Proof.
  intros X P H. unfold fi. rewrite <- (rnd_int a) by exact H. assert (0 <= IZR a)%R by now apply IZR_le.
  replace (IZR a) with (sqrt (IZR (a * a))) by (rewrite mult_IZR; now apply sqrt_square).
  apply fin_fsqrt; [exact X|]. rewrite mult_IZR. now apply Rmult_le_pos.
Qed.
Lemma fi_opp x a : fi x a -> fi (fopp x) (- a).
Proof. intros X. unfold fi. rewrite opp_IZR. now apply fin_fopp. Qed.
Lemma fi_abs x a : fi x a -> fi (fabs x) (Z.abs a).
Proof. intros X. unfold fi. rewrite abs_IZR. now apply fin_fabs. Qed.
Lemma fi_gt x y a b : fi x a -> fi y b -> fgt x y = (b <? a).
Proof.
  intros X Y. rewrite (fgt_R _ _ _ _ X Y). destruct (Z.ltb_spec b a) as [L|L].
  - apply Rlt_bool_true. now apply IZR_lt.
  - apply Rlt_bool_false. now apply IZR_le.
Qed.
Lemma fi_round x n : fi x n -> 0 <= n <= 2147483648 -> round_u32 x = n.
Proof.
  intros X H. apply fin_hf in X. rewrite (hf_round _ _ X) by (unfold hb; lia).
  replace (2 * n + 1) with (1 + n * 2) by lia. rewrite Z.div_add by lia. reflexivity.
Qed.
Lemma hf_diff x y a b d : hf x a -> hf y b -> a - b = 2 * d -> ib (2 * d) -> hb (2 * d) -> fi (fsub x y) d.
Proof. intros X Y E H H'. apply fin_hf. rewrite <- E in *. now apply hf_sub. Qed.

(** *** the corner *)
Definition apart (p q : point) (dx dy : Z) : Prop := fi (fsub (px p) (px q)) dx /\ fi (fsub (py p) (py q)) dy.

Lemma small_gt0 n d : 0 < n <= d -> d <= 2 ^ 20 -> forall x, fi x 0 -> fgt x (lit n d) = false.
Proof.
  intros H1 H2 x X. assert (D : (1 <= IZR d)%R) by (apply IZR_le; lia). assert (N : (1 <= IZR n)%R) by (apply IZR_le; lia).
  assert (Q : (0 <= IZR n / IZR d <= 1)%R).
  { split; [apply Rmult_le_pos; [lra|apply Rlt_le, Rinv_0_lt_compat; lra]|]. apply Rmult_le_reg_r with (IZR d); [lra|].
    unfold Rdiv. rewrite Rmult_assoc, Rinv_l by lra. assert (IZR n <= IZR d)%R by (apply IZR_le; lia). lra. }
  assert (L : fin (lit n d) (rnd (IZR n / IZR d))).
  { apply fin_fdiv; try (apply fin_of_Z; lia); [lra|]. apply half_big. rewrite Rabs_pos_eq; lra. }
  rewrite (fgt_R _ _ _ _ X L). apply Rlt_bool_false. rewrite <- rnd_0. apply rnd_le. lra.
Qed.

Section Corner.
Context (m v L : Z) (Hm : 1 <= m) (Hv : 1 <= v <= 100000) (HL : L = (4 * v + 10) * m) (LB : L <= 2 ^ 26).

Lemma internal_corner one two three ms (turn : bool) ax ay bx by_ : fin ms (IZR m) ->
  apart two one ax ay -> apart three one bx by_ -> apart one three (- bx) (- by_) ->
  ax * ax + ay * ay = L * L -> bx * bx + by_ * by_ = L * L -> ax * by_ - ay * bx = (if turn then - (L * L) else L * L) ->
  Z.abs ax <= L -> Z.abs ay <= L -> Z.abs bx <= L -> Z.abs by_ <= L ->
  find_qr_internal one two three ms = Ok (Some (if turn then mkQRLoc one three two ms v else mkQRLoc one two three ms v)).
Proof.
  intros FM (AX & AY) (BX & BY) (DX & DY) EA EB EC K1 K2 K3 K4.
  assert (LP : 1 <= L) by nia. assert (LL : L * L <= 2 ^ 52) by nia.
  assert (ED : - bx * - bx + - by_ * - by_ = L * L) by (rewrite <- EB; ring). assert (K5 : Z.abs (- bx) <= L) by lia. assert (K6 : Z.abs (- by_) <= L) by lia.
  assert (IB : forall a b, Z.abs a <= L -> Z.abs b <= L -> ib (a * b)).
  { intros a b A B. unfold ib. rewrite Z.abs_mul. assert (Z.abs a * Z.abs b <= L * L) by (apply Z.mul_le_mono_nonneg; lia). lia. }
  assert (LEN : forall x y a b, fi x a -> fi y b -> Z.abs a <= L -> Z.abs b <= L -> a * a + b * b = L * L -> fi (fsqrt (fadd (fmul x x) (fmul y y))) L).
  { intros x y a b X Y A B E. apply fi_sqrt; [|lia|unfold ib; lia]. rewrite <- E.
    apply fi_add; [apply fi_mul; auto|apply fi_mul; auto|]. rewrite E. unfold ib. lia. }
  unfold find_qr_internal. pose proof (LEN _ _ _ _ AX AY K1 K2 EA) as LA. pose proof (LEN _ _ _ _ BX BY K3 K4 EB) as LB'.
  pose proof (LEN _ _ _ _ DX DY K5 K6 ED) as LD. fold (dist one three) in LD.
  assert (CR : fi (fopp (fsub (fmul (fsub (px two) (px one)) (fsub (py three) (py one))) (fmul (fsub (py two) (py one)) (fsub (px three) (px one)))))
     (if turn then L * L else - (L * L))).
  { replace (if turn then L * L else - (L * L)) with (- (ax * by_ - ay * bx)) by (rewrite EC; destruct turn; lia).
    apply fi_opp, fi_sub; [apply fi_mul; auto|apply fi_mul; auto|]. rewrite EC. unfold ib. destruct turn; lia. }
  set (la := fsqrt (fadd (fmul (fsub (px two) (px one)) _) _)) in *. set (lb := fsqrt (fadd (fmul (fsub (px three) (px one)) _) _)) in *.
  set (cp := fopp _) in *.
  assert (DF : fi (diff la lb) 0).
  { unfold diff. rewrite (fi_gt _ _ _ _ LA LB'), Z.ltb_irrefl. apply fi_div with L; [|exact LB'|lia|unfold ib; lia].
    replace (0 * L) with (L - L) by lia. apply fi_sub; auto. unfold ib. lia. }
  rewrite (small_gt0 15 100) by (try lia; exact DF).
  assert (PP : fi (fdiv (fdiv cp la) lb) (if turn then 1 else -1)).
  { apply fi_div with L; [|exact LB'|lia|destruct turn; unfold ib; lia]. apply fi_div with L; [|exact LA|lia|destruct turn; unfold ib; lia].
    replace ((if turn then 1 else -1) * L * L) with (if turn then L * L else - (L * L)) by (destruct turn; lia). exact CR. }
  set (perp := fdiv (fdiv cp la) lb) in *.
  rewrite (small_gt0 5 100); [|lia|lia|].
  2:{ change 0 with (Z.abs (1 - 1)). apply fi_abs, fi_sub; [|apply fi_Z; unfold ib; lia|unfold ib; lia].
      replace 1 with (Z.abs (if turn then 1 else -1)) by (destruct turn; reflexivity). now apply fi_abs. }
  assert (ES : fi (fdiv (fsub (fadd (fdiv (dist one three) ms) (of_Z 7)) (of_Z 1)) (of_Z 4)) (v + 4)).
  { apply fi_div with 4; [|apply fi_Z; unfold ib; lia|lia|unfold ib; lia]. replace ((v + 4) * 4) with (4 * v + 10 + 7 - 1) by lia.
    apply fi_sub; [|apply fi_Z; unfold ib; lia|unfold ib; lia]. apply fi_add; [|apply fi_Z; unfold ib; lia|unfold ib; lia].
    apply fi_div with m; [|exact FM|lia|unfold ib; lia]. now rewrite <- HL. }
  rewrite (fi_round _ _ ES) by lia. rewrite chk_u32_ok by (unfold u32_max; lia). cbn [bind]. rewrite chk_u32_ok by (unfold u32_max; lia). cbn [bind].
  destruct (Z.ltb_spec (4 * (v + 4) + 1) 20); [lia|]. replace ((4 * (v + 4) + 1 - 17) / 4) with v.
  2:{ replace (4 * (v + 4) + 1 - 17) with (v * 4) by lia. now rewrite Z.div_mul by lia. }
  rewrite (fi_gt _ _ _ _ PP (fi_Z 0 ltac:(unfold ib; lia))). destruct turn; reflexivity.
Qed.

Lemma internal_reject one two three ms ax ay bx by_ : apart two one ax ay -> apart three one bx by_ ->
  ax * ax + ay * ay = L * L /\ bx * bx + by_ * by_ = 2 * (L * L) \/ ax * ax + ay * ay = 2 * (L * L) /\ bx * bx + by_ * by_ = L * L ->
  Z.abs ax <= L -> Z.abs ay <= L -> Z.abs bx <= L -> Z.abs by_ <= L ->
  find_qr_internal one two three ms = Ok None.
Proof.
  intros (AX & AY) (BX & BY) E K1 K2 K3 K4. assert (LP : 14 <= L) by nia. assert (LL : L * L <= 2 ^ 52) by nia.
  assert (IB : forall a b, Z.abs a <= L -> Z.abs b <= L -> ib (a * b)).
  { intros a b A B. unfold ib. rewrite Z.abs_mul. assert (Z.abs a * Z.abs b <= L * L) by (apply Z.mul_le_mono_nonneg; lia). lia. }
  assert (LR : (14 <= IZR L <= 67108864)%R) by (split; apply IZR_le; lia).
  assert (LEN1 : forall x y a b, fi x a -> fi y b -> Z.abs a <= L -> Z.abs b <= L -> a * a + b * b = L * L -> fin (fsqrt (fadd (fmul x x) (fmul y y))) (IZR L)).
  { intros x y a b X Y A B E'. apply fi_sqrt; [|lia|unfold ib; lia]. rewrite <- E'.
    apply fi_add; [apply fi_mul; auto|apply fi_mul; auto|]. rewrite E'. unfold ib. lia. }
  assert (LEN2 : forall x y a b, fi x a -> fi y b -> Z.abs a <= L -> Z.abs b <= L -> a * a + b * b = 2 * (L * L) ->
     exists l, fin (fsqrt (fadd (fmul x x) (fmul y y))) l /\ (1.41 * IZR L <= l <= 1.42 * IZR L)%R).
  { intros x y a b X Y A B E'.
    assert (S : fi (fadd (fmul x x) (fmul y y)) (2 * (L * L))).
    { rewrite <- E'. apply fi_add; [apply fi_mul; auto|apply fi_mul; auto|]. rewrite E'. unfold ib. lia. }
    unfold fi in S. rewrite !mult_IZR in S. assert (0 <= 2 * (IZR L * IZR L))%R by nra.
    eexists. split; [apply (fin_fsqrt _ _ S); assumption|]. set (r := sqrt (2 * (IZR L * IZR L))).
    assert (RR : (r * r = 2 * (IZR L * IZR L))%R) by (now apply sqrt_sqrt). assert (R0 : (0 <= r)%R) by apply sqrt_pos.
    assert (R1 : (1.414 * IZR L <= r)%R) by (apply Rnot_lt_le; intros C; assert (r * r < 1.414 * IZR L * (1.414 * IZR L))%R by (apply Rmult_le_0_lt_compat; lra); nra).
    assert (R2 : (r <= 1.415 * IZR L)%R) by (apply Rnot_lt_le; intros C; assert (1.415 * IZR L * (1.415 * IZR L) < r * r)%R by (apply Rmult_le_0_lt_compat; lra); nra).
    pose proof (rnd_err r 30 ltac:(lia) ltac:(change (bpow radix2 30) with 1073741824%R; rewrite Rabs_pos_eq; lra)) as ER.
    pows. apply Rabs_le_inv in ER. lra. }
  assert (GT : forall x y a b, fin x a -> fin y b -> (a = IZR L /\ 1.41 * IZR L <= b <= 1.42 * IZR L \/ b = IZR L /\ 1.41 * IZR L <= a <= 1.42 * IZR L)%R -> fgt (diff x y) (lit 15 100) = true).
  { intros x y a b X Y C.
    assert (MX : (Rmax a b <= 1.42 * IZR L /\ 0.4 * IZR L <= Rabs (a - b) /\ 1.41 * IZR L <= Rmax a b)%R).
    { destruct C as [[-> C]|[-> C]]; [rewrite Rmax_right by lra; rewrite Rabs_minus_sym|rewrite Rmax_left by lra]; rewrite Rabs_pos_eq by lra; lra. }
    eapply apx_fgt_true; [apply diff_apx; [exact X|exact Y|lra..]|apply (lit_apx 15 100); lia|].
    assert (0.28 <= rel_diff a b)%R.
    { unfold rel_diff. apply div_le; lra. }
    unfold u53. lra. }
  unfold find_qr_internal. destruct E as [[EA EB]|[EA EB]].
  - pose proof (LEN1 _ _ _ _ AX AY K1 K2 EA) as F1. destruct (LEN2 _ _ _ _ BX BY K3 K4 EB) as (l & F2 & B2).
    rewrite (GT _ _ _ _ F1 F2); [reflexivity|lra].
  - destruct (LEN2 _ _ _ _ AX AY K1 K2 EA) as (l & F2 & B2). pose proof (LEN1 _ _ _ _ BX BY K3 K4 EB) as F1.
    rewrite (GT _ _ _ _ F2 F1); [reflexivity|lra].
Qed.
End Corner.

(** *** three centres *)
Definition centre (p : point) (x y : Z) : Prop := hf (px p) x /\ hf (py p) y.
Lemma centre_apart p q x y x' y' dx dy : centre p x y -> centre q x' y' -> x - x' = 2 * dx -> y - y' = 2 * dy -> Z.abs dx <= 2 ^ 26 -> Z.abs dy <= 2 ^ 26 ->
  apart p q dx dy.
Proof. intros [P1 P2] [Q1 Q2] E1 E2 H1 H2. split; [apply (hf_diff _ _ x x')|apply (hf_diff _ _ y y')]; auto; unfold ib, hb; lia. Qed.

(** where the columns (ux, uy) and the rows (wx, wy) of a symbol go that has been turned by quarter turns *)
Definition heading (ux uy wx wy : Z) : Prop :=
  ux = 1 /\ uy = 0 /\ wx = 0 /\ wy = 1 \/ ux = 0 /\ uy = 1 /\ wx = -1 /\ wy = 0 \/
  ux = -1 /\ uy = 0 /\ wx = 0 /\ wy = -1 \/ ux = 0 /\ uy = -1 /\ wx = 1 /\ wy = 0.

Section Triple.
Context (m v L : Z) (Hm : 1 <= m) (Hv : 1 <= v <= 100000) (HL : L = (4 * v + 10) * m) (LB : L <= 2 ^ 26).
Context (ux uy wx wy : Z) (HQ : heading ux uy wx wy).
Context (tl tr bl : point) (X Y : Z) (TL : centre tl X Y) (TR : centre tr (X + 2 * (L * ux)) (Y + 2 * (L * uy))) (BL : centre bl (X + 2 * (L * wx)) (Y + 2 * (L * wy))).

(** the sides are as long as each other and at right angles *)
Lemma sides : exists ax ay bx by_, ax = L * ux /\ ay = L * uy /\ bx = L * wx /\ by_ = L * wy /\
  ax * ax + ay * ay = L * L /\ bx * bx + by_ * by_ = L * L /\ ax * by_ - ay * bx = L * L /\ (bx - ax) * (bx - ax) + (by_ - ay) * (by_ - ay) = 2 * (L * L) /\
  (Z.abs ax <= L /\ Z.abs ay <= L /\ Z.abs bx <= L /\ Z.abs by_ <= L /\ Z.abs (bx - ax) <= L /\ Z.abs (by_ - ay) <= L).
Proof.
  assert (1 <= L) by nia. exists (L * ux), (L * uy), (L * wx), (L * wy). do 4 (split; [reflexivity|]).
  destruct HQ as [(-> & -> & -> & ->)|[(-> & -> & -> & ->)|[(-> & -> & -> & ->)|(-> & -> & -> & ->)]]]; repeat split; try ring; lia.
Qed.

Lemma corner_a ms : fin ms (IZR m) -> find_qr_internal tl tr bl ms = Ok (Some (mkQRLoc tl tr bl ms v)).
Proof.
  intros F. assert (1 <= L) by nia. destruct sides as (ax & ay & bx & by_ & E1 & E2 & E3 & E4 & EA & EB & EC & _ & K1 & K2 & K3 & K4 & _).
  rewrite <- E1, <- E2 in TR. rewrite <- E3, <- E4 in BL.
  apply (internal_corner m v L Hm Hv HL LB tl tr bl ms false ax ay bx by_ F); auto; eapply centre_apart; eauto; lia.
Qed.
Lemma corner_b ms : fin ms (IZR m) -> find_qr_internal tl bl tr ms = Ok (Some (mkQRLoc tl tr bl ms v)).
Proof.
  intros F. assert (1 <= L) by nia. destruct sides as (ax & ay & bx & by_ & E1 & E2 & E3 & E4 & EA & EB & EC & _ & K1 & K2 & K3 & K4 & _).
  rewrite <- E1, <- E2 in TR. rewrite <- E3, <- E4 in BL.
  apply (internal_corner m v L Hm Hv HL LB tl bl tr ms true bx by_ ax ay F); auto; try (eapply centre_apart; eauto; lia). rewrite <- EC. ring.
Qed.
Lemma no_corner one two three ms ax ay bx by_ : apart two one ax ay -> apart three one bx by_ ->
  ax * ax + ay * ay = L * L /\ bx * bx + by_ * by_ = 2 * (L * L) \/ ax * ax + ay * ay = 2 * (L * L) /\ bx * bx + by_ * by_ = L * L ->
  Z.abs ax <= L -> Z.abs ay <= L -> Z.abs bx <= L -> Z.abs by_ <= L -> find_qr_internal one two three ms = Ok None.
Proof. intros. eapply (internal_reject m v L); eauto. Qed.

Lemma reject_tr ms : find_qr_internal tr tl bl ms = Ok None /\ find_qr_internal tr bl tl ms = Ok None.
Proof.
  assert (1 <= L) by nia. destruct sides as (ax & ay & bx & by_ & E1 & E2 & E3 & E4 & EA & EB & _ & EC & K1 & K2 & K3 & K4 & K5 & K6).
  rewrite <- E1, <- E2 in TR. rewrite <- E3, <- E4 in BL.
  assert (A : apart tl tr (- ax) (- ay)) by (eapply centre_apart; eauto; lia). assert (B : apart bl tr (bx - ax) (by_ - ay)) by (eapply centre_apart; eauto; lia).
  split; [eapply no_corner; [exact A|exact B|left; split; [rewrite <- EA; ring|exact EC]|lia..]|eapply no_corner; [exact B|exact A|right; split; [exact EC|rewrite <- EA; ring]|lia..]].
Qed.
Lemma reject_bl ms : find_qr_internal bl tl tr ms = Ok None /\ find_qr_internal bl tr tl ms = Ok None.
Proof.
  assert (1 <= L) by nia. destruct sides as (ax & ay & bx & by_ & E1 & E2 & E3 & E4 & EA & EB & _ & EC & K1 & K2 & K3 & K4 & K5 & K6).
  rewrite <- E1, <- E2 in TR. rewrite <- E3, <- E4 in BL.
  assert (A : apart tl bl (- bx) (- by_)) by (eapply centre_apart; eauto; lia). assert (B : apart tr bl (ax - bx) (ay - by_)) by (eapply centre_apart; eauto; lia).
  split; [eapply no_corner; [exact A|exact B|left; split; [rewrite <- EB; ring|rewrite <- EC; ring]|lia..]|
          eapply no_corner; [exact B|exact A|right; split; [rewrite <- EC; ring|rewrite <- EB; ring]|lia..]].
Qed.

Inductive shuffled : point -> point -> point -> Prop :=
| sh1 : shuffled tl tr bl | sh2 : shuffled tl bl tr | sh3 : shuffled tr tl bl | sh4 : shuffled tr bl tl | sh5 : shuffled bl tl tr | sh6 : shuffled bl tr tl.

Lemma find_qr_any a b c ms : fin ms (IZR m) -> shuffled a b c -> find_qr a b c ms = Ok (Some (mkQRLoc tl tr bl ms v)).
Proof.
  intros F H. destruct (reject_tr ms) as [R1 R2]. destruct (reject_bl ms) as [R3 R4]. pose proof (corner_a ms F) as CA. pose proof (corner_b ms F) as CB.
  unfold find_qr. destruct H; rewrite ?R1, ?R2, ?R3, ?R4, ?CA, ?CB; cbn [bind]; rewrite ?R1, ?R2, ?R3, ?R4, ?CA, ?CB; reflexivity.
Qed.
End Triple.

(** *** all triples are tried *)
Lemma foldM_grows {A S T} (get : S -> list T) (f : S -> A -> res S) l : (forall s a s', f s a = Ok s' -> incl (get s) (get s')) ->
  forall s s', foldM f l s = Ok s' -> incl (get s) (get s').
Proof.
  intros HF. induction l as [|a l IH]; intros s s' H; cbn [foldM] in H.
  - injection H as <-. apply incl_refl.
  - apply bind_ok in H as (s1 & E & H). eapply incl_tran; [eapply HF, E|]. now apply IH.
Qed.
Lemma foldM_reaches {A T} (f : list T -> A -> res (list T)) x y l : (forall s a s', f s a = Ok s' -> incl s s') -> In x l ->
  (forall s s', f s x = Ok s' -> In y s') -> forall s s', foldM f l s = Ok s' -> In y s'.
Proof.
  intros HF HI HX s s' H. apply in_split in HI as (l1 & l2 & ->). rewrite foldM_app in H. apply bind_ok in H as (s1 & _ & H). cbn [foldM] in H.
  apply bind_ok in H as (s2 & E & H). apply (foldM_grows (fun s => s) f l2 HF) in H. apply H. now apply (HX s1).
Qed.

Lemma locations_in cs i j k a b c loc locs : (i < j < k)%nat -> nth_error cs i = Some a -> nth_error cs j = Some b -> nth_error cs k = Some c ->
  fgt (diff (fp_module_size a) (fp_module_size b)) (lit 1 10) = false -> fgt (diff (fp_module_size a) (fp_module_size c)) (lit 1 10) = false ->
  find_qr (fp_location a) (fp_location b) (fp_location c) (fp_module_size a) = Ok (Some loc) -> find_locations cs = Ok locs -> In loc locs.
Proof.
  intros IJK NA NB NC D1 D2 FQ H. assert (LK : (k < length cs)%nat) by (apply nth_error_Some; congruence).
  assert (GA : get cs i = Ok a) by (unfold get; now rewrite NA). assert (GB : get cs j = Ok b) by (unfold get; now rewrite NB).
  assert (GC : get cs k = Ok c) by (unfold get; now rewrite NC).
  assert (G3' : forall a b s c3 s', (c <- get cs c3 ;;
          if fgt (diff (fp_module_size a) (fp_module_size c)) (lit 1 10) then Ok s
          else r <- find_qr (fp_location a) (fp_location b) (fp_location c) (fp_module_size a) ;;
               match r with Some qr => Ok (s ++ [qr]) | None => Ok s end) = Ok s' -> incl s s').
  { intros a0 b0 s c3 s' E. apply bind_ok in E as (c0 & _ & E). destruct (fgt (diff (fp_module_size a0) _) _); [injection E as <-; apply incl_refl|].
    apply bind_ok in E as (r & _ & E). destruct r; injection E as <-; [apply incl_appl|]; apply incl_refl. }
  unfold find_locations in H. revert H. apply foldM_reaches with (x := i).
  - intros s c1 s'. apply (foldM_grows (fun s => s)). intros s0 c2 s0' E. apply bind_ok in E as (a0 & _ & E). apply bind_ok in E as (b0 & _ & E).
    destruct (fgt (diff (fp_module_size a0) _) _); [injection E as <-; apply incl_refl|]. revert E. apply (foldM_grows (fun s => s)). intros s1 c3 s1'. apply G3'.
  - unfold range. apply in_seq. lia.
  - intros s s'. apply foldM_reaches with (x := j).
    + intros s0 c2 s0' E. apply bind_ok in E as (a0 & _ & E). apply bind_ok in E as (b0 & _ & E).
      destruct (fgt (diff (fp_module_size a0) _) _); [injection E as <-; apply incl_refl|]. revert E. apply (foldM_grows (fun s => s)). intros s1 c3 s1'. apply G3'.
    + unfold range. apply in_seq. lia.
    + intros s0 s0' E. rewrite GA, GB in E. cbn [bind] in E. rewrite D1 in E. revert E. apply foldM_reaches with (x := k).
      * intros s1 c3 s1'. apply G3'.
      * unfold range. apply in_seq. lia.
      * intros s1 s1' E. rewrite GC in E. cbn [bind] in E. rewrite D2, FQ in E. cbn [bind] in E. injection E as <-. apply in_or_app. right. now left.
Qed.
