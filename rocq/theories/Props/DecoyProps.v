(** Symbols on white paper without decoys are read: C89. *)
From Coq Require Import NArith ZArith Reals List Lia Lra Bool Arith Psatz.
From Verif.Model Require Import Prepare Detect Extract Pipeline.
From Flocq Require Import Core.
From Verif.Spec Require Import Bits Segments Symbol Layout Bridge Message Encoder Plane Finder Drawing Slant Cross Margin Decoy.
From Verif.Proofs Require Import BaseP CountP DrawP FormatP EncodeP EncoderP PrepareP FloatP ApproxP DetectP GeometryP ExtractP AlignP RefineP RefineF ScanP SoundP SoundF RowP ColumnF MosaicP DecoyP LocateP CornersP WholeP MarginP.
From Verif.Props Require Import PrepareProps DetectProps DecoderProps PipelineProps ExtractProps CleanProps FinderProps WholeProps TurnProps MarginProps.
Import ListNotations.
Local Open Scope Z_scope.

Lemma Forall2_in_right {A B} (R : A -> B -> Prop) la lb b : Forall2 R la lb -> In b lb -> exists a, In a la /\ R a b.
Proof.
  intros F. induction F as [|x y la lb H F IH]; [intros []|intros [->|HI]].
  - exists x. split; [now left|exact H].
  - destruct (IH HI) as (a & Ha & HR). exists a. split; [now right|exact HR].
Qed.
Lemma Forall2_same_length {A B} (R : A -> B -> Prop) la lb : Forall2 R la lb -> length la = length lb.
Proof. intros F. induction F; cbn; congruence. Qed.
Lemma NoDup_app_last {A} (l : list A) a : NoDup l -> ~ In a l -> NoDup (l ++ [a]).
Proof.
  intros H. induction H as [|x l Hx H IH]; cbn; intros N; [constructor; [intros []|constructor]|].
  constructor; [|apply IH; tauto]. intros K. apply in_app_or in K as [K|[K|[]]]; [auto|]. subst. tauto.
Qed.

Lemma close_yes m fx fy y c : 2 <= m <= 10000000 -> 0 <= fx -> 0 <= fy -> fy + 2 * m <= y < fy + 5 * m -> y <= 2 ^ 26 -> fx + 7 * m <= 2 ^ 26 -> fy + 7 * m <= 2 ^ 26 ->
  at_centre m fx fy c -> flt (dist (scan_point m fx (y - 2 * m)) (fp_location c)) (fmul (of_Z 7) (est_of (7 * m))) = true.
Proof.
  intros Hm Hx Hy HY Y26 X26 F26 (_ & X & Y).
  assert (M : (2 <= IZR m <= 10000000)%R) by (split; apply IZR_le; lia).
  assert (RX : (0 <= IZR fx <= 67108864)%R) by (split; apply IZR_le; lia). assert (RY : (0 <= IZR y <= 67108864)%R) by (split; apply IZR_le; lia).
  assert (X7 : (IZR fx + 7 * IZR m <= 67108864)%R) by (rewrite <- mult_IZR, <- plus_IZR; apply IZR_le; lia).
  set (cy := fy + (7 * m - 1) / 2) in *. assert (HC : -2 * m < y - cy < 2 * m) by (unfold cy; pose proof (halves (7 * m - 1)); lia).
  assert (RC : (0 <= IZR cy <= 67108864)%R) by (split; apply IZR_le; unfold cy in *; lia).
  assert (DY : (- 2 * IZR m < IZR y - IZR cy < 2 * IZR m)%R) by (rewrite <- minus_IZR, <- !mult_IZR; split; apply IZR_lt; lia).
  assert (EX : (IZR (2 * fx + 7 * m) / 2 = IZR fx + 7 / 2 * IZR m)%R) by (rewrite plus_IZR, !mult_IZR; lra).
  pose proof (scan_point_at m fx (y - 2 * m) ltac:(lia) ltac:(lia) ltac:(lia)) as SP. replace (y - 2 * m + 2 * m) with y in SP by lia.
  set (v := Vec (IZR fx + 7 / 2 * IZR m) (IZR y)) in *. set (w := Vec (IZR fx + 7 / 2 * IZR m) (IZR cy)).
  destruct (dist_ok (scan_point m fx (y - 2 * m)) (fp_location c) v w) as (l & F & L & L1 & L2).
  { exact SP. } { split; cbn [vx vy w]; [rewrite <- EX; exact X|now apply fin_hf]. }
  { unfold box, v; cbn [vx vy]; lra. } { unfold box, w; cbn [vx vy]; lra. }
  assert (G : fi (fmul (of_Z 7) (est_of (7 * m))) (7 * m)).
  { apply fi_mul; [apply fi_Z; unfold ib; lia|apply est_exact; lia|unfold ib; lia]. }
  rewrite (flt_R _ _ _ _ F G). apply Rlt_bool_true. rewrite mult_IZR.
  pose proof (norm_pos (minus v w)) as NP. pose proof (norm_sq (minus v w)) as NS. cbn [minus vx vy v w] in NS. fold v w in NS.
  set (n := norm (minus v w)) in *. assert (NB : (n < 2 * IZR m)%R) by nra.
  destruct (Rlt_or_le n 1) as [N1|N1]; [specialize (L2 N1); lra|]. specialize (L1 N1). unfold u53 in L1. rabs; lra.
Qed.

Lemma close_near m fx fy fx' fy' c : 2 <= m <= 10000000 -> 0 <= fx -> 0 <= fy -> 0 <= fx' -> 0 <= fy' -> fx + 7 * m <= 2 ^ 26 -> fy + 7 * m <= 2 ^ 26 -> fx' + 7 * m <= 2 ^ 26 -> fy' + 7 * m <= 2 ^ 26 ->
  at_centre m fx' fy' c -> flt (dist (scan_point m fx fy) (fp_location c)) (fmul (of_Z 7) (est_of (7 * m))) = true ->
  Z.abs (fx' - fx) < 9 * m /\ Z.abs (fy' - fy) < 9 * m.
Proof.
  intros Hm Hx Hy Hx' Hy' X26 Y26 X26' Y26' A B. apply (in_the_way_near m fx' fy' fx fy c); [lia|now apply at_centre_found|].
  destruct A as (_ & X & Y). set (cy := fy' + (7 * m - 1) / 2) in *. assert (HC : 0 <= cy <= 67108864) by (unfold cy; pose proof (halves (7 * m - 1)); lia).
  exists (Vec (IZR (2 * fx' + 7 * m) / 2) (IZR cy)). apply fin_hf in Y. split; [split; now apply fin_value|].
  set (w := Vec (IZR (2 * fx' + 7 * m) / 2) (IZR cy)). set (v := Vec (IZR fx + 7 / 2 * IZR m) (IZR (fy + 2 * m))).
  assert (M : (2 <= IZR m <= 10000000)%R) by (split; apply IZR_le; lia).
  assert (RX : (0 <= IZR fx <= 67108864)%R) by (split; apply IZR_le; lia). assert (RY : (0 <= IZR (fy + 2 * m) <= 67108864)%R) by (split; apply IZR_le; lia).
  assert (RX' : (0 <= IZR (2 * fx' + 7 * m) <= 134217728)%R) by (split; apply IZR_le; lia). assert (RY' : (0 <= IZR cy <= 67108864)%R) by (split; apply IZR_le; lia).
  destruct (dist_ok (scan_point m fx fy) (fp_location c) v w) as (l & F & L & L1 & _).
  { apply scan_point_at; lia. } { split; assumption. }
  { unfold box, v; cbn [vx vy]; lra. } { unfold box, w; cbn [vx vy]; lra. }
  assert (G : fi (fmul (of_Z 7) (est_of (7 * m))) (7 * m)).
  { apply fi_mul; [apply fi_Z; unfold ib; lia|apply est_exact; lia|unfold ib; lia]. }
  rewrite (flt_R _ _ _ _ F G) in B. destruct (Rlt_bool_spec l (IZR (7 * m))) as [B'|B']; [|discriminate]. rewrite mult_IZR in B'.
  apply Rnot_le_lt. intros N. set (n := norm (minus v w)) in *. specialize (L1 ltac:(lra)). unfold u53 in L1. rabs; lra.
Qed.

Section Page.
Context (g : gray) (m ox oy n : Z) (dark : Z -> Z -> bool) (corners : list (Z * Z)).
Let M := on_white n dark.
Context (HW : wf_gray g) (Hm : 2 <= m) (WX : gw g <= 2 ^ 26) (WY : gh g <= 2 ^ 26) (Hn : 0 <= n).
Context (HM : mosaic (pixel g) (gw g) (gh g) m ox oy M) (OX : 4 * m <= ox) (OY : 4 * m <= oy) (RX : ox + (n + 4) * m <= gw g) (RY : oy + (n + 4) * m <= gh g).
Context (SR : forall r, 0 <= r < n -> steady_modules (M r)) (SC : forall c, 0 <= c < n -> steady_modules (fun r => M r c)).
Context (HF : forall r c, In (r, c) corners -> ringed_at M r c) (HN : NoDup corners).
Context (HA : forall r c r' c', In (r, c) corners -> In (r', c') corners -> (r, c) = (r', c') \/ 9 <= Z.abs (r - r') \/ 9 <= Z.abs (c - c')).
Context (HO : only_finders m n M corners).

Let X (c : Z) : Z := ox + c * m.
Let Y (r : Z) : Z := oy + r * m.

Lemma page_pix x y : 0 <= x < gw g -> 0 <= y < gh g -> pix g x y = tone (M ((y - oy) / m) ((x - ox) / m)).
Proof.
  intros Hx Hy. pose proof (HM x y Hx Hy) as P. apply pixel_get in P. rewrite (get_pixel_pix g x y HW Hx Hy) in P. injection P as ->. reflexivity.
Qed.
Lemma M_out r c : ~ (0 <= r < n /\ 0 <= c < n) -> M r c = false.
Proof.
  intros H. unfold M, on_white. destruct (Z.leb_spec 0 r); [|reflexivity]. destruct (Z.ltb_spec r n); [|reflexivity]. destruct (Z.leb_spec 0 c); [|reflexivity].
  destruct (Z.ltb_spec c n); [lia|reflexivity].
Qed.
Lemma M_in r c : M r c = true -> 0 <= r < n /\ 0 <= c < n.
Proof.
  intros H. destruct (Z_lt_le_dec r 0); [rewrite M_out in H by lia; discriminate|]. destruct (Z_lt_le_dec r n); [|rewrite M_out in H by lia; discriminate].
  destruct (Z_lt_le_dec c 0); [rewrite M_out in H by lia; discriminate|]. destruct (Z_lt_le_dec c n); [lia|rewrite M_out in H by lia; discriminate].
Qed.

Lemma still f : (forall t, f t = false) -> steady_modules f.
Proof. intros H a b c _ _ K. rewrite !H in K. congruence. Qed.
Lemma rows_steady y : 0 <= y < gh g -> steady (fun x => pix g x y) (gw g - 1).
Proof.
  intros Hy. apply (steady_line (fun x => pix g x y) (M ((y - oy) / m)) m ox n (gw g)); try lia; try (intros; apply M_out; lia).
  - intros t Ht. now apply page_pix.
  - set (r := (y - oy) / m). destruct (Z_lt_le_dec r 0); [apply still; intros; apply M_out; lia|]. destruct (Z_lt_le_dec r n); [apply SR; lia|apply still; intros; apply M_out; lia].
Qed.
Lemma columns_steady x : 0 <= x < gw g -> steady (fun y => pix g x y) (gh g - 1).
Proof.
  intros Hx. apply (steady_line (fun y => pix g x y) (fun r => M r ((x - ox) / m)) m oy n (gh g)); try lia; try (intros; apply M_out; lia).
  - intros t Ht. now apply page_pix.
  - set (c := (x - ox) / m). destruct (Z_lt_le_dec c 0); [apply still; intros; apply M_out; lia|]. destruct (Z_lt_le_dec c n); [apply SC; lia|apply still; intros; apply M_out; lia].
Qed.

Lemma corner_in r c : In (r, c) corners -> 0 <= r /\ r + 7 <= n /\ 0 <= c /\ c + 7 <= n.
Proof.
  intros H. pose proof (HF r c H 0 0 ltac:(lia) ltac:(lia)) as P. pose proof (HF r c H 6 6 ltac:(lia) ltac:(lia)) as Q.
  change (M (r + 0) (c + 0) = true) in P. change (M (r + 6) (c + 6) = true) in Q. apply M_in in P, Q. lia.
Qed.
Lemma corner_scaled r c : In (r, c) corners -> 4 * m <= X c /\ X c + 11 * m <= gw g /\ 4 * m <= Y r /\ Y r + 11 * m <= gh g.
Proof. intros H. pose proof (corner_in r c H). unfold X, Y. nia. Qed.
Lemma m_small r c : In (r, c) corners -> m <= 4473925.
Proof. intros H. pose proof (corner_scaled r c H). lia. Qed.

Lemma corner_apart r c : In (r, c) corners -> finder_apart (pixel g) m (X c) (Y r).
Proof.
  intros H. pose proof (corner_scaled r c H) as S. apply ringed_apart; [lia|lia|lia|]. intros r' c' i j Hr Hc Hi Hj.
  assert (-1 * m <= c' * m <= 7 * m) by nia. assert (-1 * m <= r' * m <= 7 * m) by nia. rewrite (HM (X c + c' * m + i) (Y r + r' * m + j)) by lia.
  replace ((X c + c' * m + i - ox) / m) with (c + c') by (apply Z.div_unique with i; unfold X; lia).
  replace ((Y r + r' * m + j - oy) / m) with (r + r') by (apply Z.div_unique with j; unfold Y; lia). now rewrite (HF r c H r' c' Hr Hc).
Qed.

(** the trial of a row is one of a decoy *)
Lemma trial y x a b c d e z loc ms : 0 <= y < gh g -> whole_runs (fun x => pix g x y) (gw g) x a b c d e z ->
  refine_all g (Pt (fsub (of_Z x) (fmul (est_of (z - a)) (lit 7 2))) (of_Z y)) (est_of (z - a)) = Ok (Some (loc, ms)) ->
  exists row column, In (row, column) corners /\ Y row + 2 * m <= y < Y row + 5 * m /\ x = X column + 7 * m /\ z - a = 7 * m.
Proof.
  intros Hy HR HQ. set (r := (y - oy) / m).
  assert (YR : y = oy + m * r + (y - oy) mod m /\ 0 <= (y - oy) mod m < m).
  { unfold r. pose proof (Z.div_mod (y - oy) m ltac:(lia)). pose proof (Z.mod_pos_bound (y - oy) m ltac:(lia)). lia. }
  pose proof HR as (A0 & ZL & _ & _ & _ & _ & _ & FR & _ & ZX). assert (T7 : 7 <= z - a) by (destruct FR as (T & _); lia).
  destruct (runs_modules (fun x => pix g x y) (M r) m ox n (gw g) ltac:(lia) ltac:(intros; now apply page_pix) OX RX Hn ltac:(intros; apply M_out; lia) ltac:(intros; apply M_out; lia) x a b c d e z HR)
    as (a' & b' & c' & d' & p & q & TR & RB & RA & IP & EA & EZ & XZ & FA & FZ).
  destruct (refine_column g x y (z - a) loc ms HW WX WY columns_steady ltac:(lia) Hy ltac:(lia) HQ) as (u & b2 & w & UX & UB & B0 & W0 & FS & BT & BB & S1 & S2).
  set (uc := (u - ox) / m) in *.
  assert (UR : u = ox + m * uc + (u - ox) mod m /\ 0 <= (u - ox) mod m < m).
  { unfold uc. pose proof (Z.div_mod (u - ox) m ltac:(lia)). pose proof (Z.mod_pos_bound (u - ox) m ltac:(lia)). lia. }
  destruct (stretches_modules (fun y => pix g u y) (fun r => M r uc) m oy n (gh g) ltac:(lia) ltac:(intros; now apply page_pix) OY RY Hn b2 w B0 W0 FS)
    as (a2 & bb2 & c2 & d2 & s & t & TC & S0 & T0 & IP2 & EB & EW).
  assert (DC : decoy m n M r a' b' c' d').
  { exists p, q, uc, a2, bb2, c2, d2, s, t. cbv zeta. splits; auto; try (clear - EA EZ EB EW YR UR UX XZ BT BB S1 S2 S0 T0; lia). }
  destruct (HO r a' b' c' d' DC) as (row & column & HI & HRow & HAc & HDc). exists row, column. split; [exact HI|].
  pose proof (HF row column HI) as FA0. assert (R3 : r = row + 2 \/ r = row + 3 \/ r = row + 4) by lia.
  assert (V : M r (column - 1) = false /\ M r column = true /\ M r (column + 6) = true /\ M r (column + 7) = false).
  { replace (column - 1) with (column + -1) by lia. replace (M r column) with (M r (column + 0)) by (f_equal; lia).
    destruct R3 as [-> |[-> | ->]]; rewrite !FA0 by lia; now cbn. }
  destruct V as (V1 & V2 & V3 & V4). pose proof (corner_in row column HI) as CI.
  assert (KA : a = ox + column * m).
  { apply FA; [|lia|congruence]. split; [lia|]. intros t' Ht. f_equal. lia. }
  assert (KZ : z = ox + (column + 7) * m /\ x = z).
  { apply FZ; [|lia|subst d'; congruence]. split; [lia|]. intros t' Ht. f_equal. lia. }
  unfold X, Y. split; [|lia]. clear - YR R3. destruct R3 as [-> |[-> | ->]]; lia.
Qed.

Lemma row_in y cs cs' x : 0 <= y < gh g -> starts g y cs cs' x -> cs' = cs \/ exists row column c, In (row, column) corners /\
  Y row + 2 * m <= y < Y row + 5 * m /\ existsb (fun c => flt (dist (scan_point m (X column) (y - 2 * m)) (fp_location c)) (fmul (of_Z 7) (est_of (7 * m)))) cs = false /\
  cs' = cs ++ [c] /\ refine_all g (scan_point m (X column) (y - 2 * m)) (est_of (7 * m)) = Ok (Some (fp_location c, fp_module_size c)).
Proof.
  intros Hy (p & a & b & c & d & e & z & HR & HT & HS). unfold scan_found, est_mod_size in HS. rewrite HT in HS. cbn [bind] in HS. fold (est_of (z - a)) in HS.
  destruct (existsb _ cs) eqn:EE in HS; [left; congruence|]. apply bind_ok in HS as (o & EO & HS). destruct o as [[loc ms]|]; [|left; congruence]. right.
  destruct (trial y x a b c d e z loc ms Hy HR EO) as (row & column & HI & HY & -> & ET). rewrite ET in *. exists row, column, (FP loc ms (of_Z 0)).
  unfold scan_point. replace (y - 2 * m + 2 * m) with y by lia. split; [exact HI|]. split; [exact HY|]. split; [exact EE|]. split; [congruence|exact EO].
Qed.

Definition J (y : Z) (cs : list finder_pos) : Prop := exists l, Forall2 (fun rc c => at_centre m (X (snd rc)) (Y (fst rc)) c) l cs /\ NoDup l /\ incl l corners /\
  forall r c, In (r, c) corners -> Y r + 2 * m < y -> In (r, c) l.

Lemma near_one r c cs l : Forall2 (fun rc c => at_centre m (X (snd rc)) (Y (fst rc)) c) l cs -> In (r, c) l -> exists k, In k cs /\ at_centre m (X c) (Y r) k.
Proof. intros F H. destruct (Forall2_in_left _ _ _ _ F H) as (k & K & A). exists k. auto. Qed.

Theorem C89_page cs : 1 < gw g -> find_candidates g = Ok cs -> exists l, Forall2 (fun rc c => at_centre m (X (snd rc)) (Y (fst rc)) c) l cs /\ NoDup l /\ incl l corners /\ incl corners l.
Proof.
  intros W1 E. assert (H : J (gh g) cs).
  { refine (picture_scanned g J cs HW WX W1 ltac:(lia) rows_steady _ _ _ E).
    - exists []. split; [constructor|]. split; [constructor|]. split; [intros k []|]. intros r c HI K. pose proof (corner_scaled r c HI). lia.
    - intros y k k' x Hy (l & F & ND & IC & AB) HS. apply row_in in HS as [-> |(row & column & c & HI & HY & EX & -> & ER)]; [exists l; auto| |exact Hy].
      pose proof (corner_scaled row column HI) as S. pose proof (m_small row column HI) as MS.
      assert (NI : ~ In (row, column) l).
      { intros K. destruct (near_one _ _ _ _ F K) as (c0 & K0 & A0). rewrite <- not_true_iff_false in EX. apply EX. apply existsb_exists. exists c0. split; [exact K0|].
        apply (close_yes m (X column) (Y row) y c0); auto; lia. }
      assert (y = Y row + 2 * m).
      { destruct (Z.eq_dec y (Y row + 2 * m)) as [Q|Q]; [exact Q|]. exfalso. apply NI, AB; [exact HI|lia]. }
      subst y. replace (Y row + 2 * m - 2 * m) with (Y row) in * by lia.
      destruct (apart_refined g m (X column) (Y row) HW (corner_apart row column HI) Hm WX WY (scan_point m (X column) (Y row)) (est_of (7 * m))) as (q & ms' & EQ & F1 & F2 & F3).
      { apply est_exact; lia. }
      { unfold scan_point. cbn [px]. replace (2 * X column + 7 * m) with (2 * (X column + 7 * m) - 7 * m) by lia. apply hf_sub; [apply hf_Z|apply half_exact'; lia|]; unfold hb; lia. }
      { reflexivity. }
      rewrite ER in EQ. apply ok_pair in EQ as [<- <-].
      exists (l ++ [(row, column)]). split; [|split; [|split]].
      + apply Forall2_app; [exact F|]. constructor; [|constructor]. cbn [fst snd]. split; [exact F1|]. split; assumption.
      + apply NoDup_app_last; assumption.
      + apply incl_app; [exact IC|]. intros k0 [<-|[]]. exact HI.
      + intros r c' HI' K. apply in_or_app. left. now apply AB.
    - intros y s s' Hy HR (l & F & ND & IC & AB). exists l. split; [exact F|]. split; [exact ND|]. split; [exact IC|]. intros r c HI K.
      destruct (Z.eq_dec (Y r + 2 * m) y) as [Q|Q]; [|apply AB; [exact HI|lia]]. subst y.
      pose proof (corner_scaled r c HI) as S. pose proof (m_small r c HI) as MS.
      destruct (apart_row g m (X c) (Y r) HW (corner_apart r c HI) Hm WX WY s s') as (k & Hk & HC); [|exact HR|].
      { intros a b d Ha Hb. apply (rows_steady (Y r + 2 * m) Hy); lia. }
      destruct (Forall2_in_right _ _ _ _ F Hk) as ([r' c'] & Hl & A). cbn [fst snd] in A.
      destruct (HA r c r' c' HI (IC _ Hl)) as [QE|FAR]; [now rewrite QE|]. exfalso.
      pose proof (corner_scaled r' c' (IC _ Hl)) as S'.
      assert (NR : Z.abs (X c' - X c) < 9 * m /\ Z.abs (Y r' - Y r) < 9 * m).
      { apply (close_near m (X c) (Y r) (X c') (Y r') k); try lia; [exact A|]. destruct HC as [B|B]; [|exact B].
        pose proof (close_yes m (X c) (Y r) (Y r + 2 * m) k) as Q. replace (Y r + 2 * m - 2 * m) with (Y r) in Q by lia. apply Q; auto; lia. }
      unfold X, Y in NR. assert (NA : Z.abs ((c' - c) * m) < 9 * m /\ Z.abs ((r' - r) * m) < 9 * m) by lia. rewrite !Z.abs_mul, (Z.abs_eq m) in NA by lia.
      assert (Z.abs (c' - c) < 9 /\ Z.abs (r' - r) < 9) by (split; apply (Zmult_lt_reg_r _ _ m); lia). lia. }
  destruct H as (l & F & ND & IC & AB). exists l. split; [exact F|]. split; [exact ND|]. split; [exact IC|].
  intros [r c] HI. apply AB; [exact HI|]. pose proof (corner_scaled r c HI). lia.
Qed.
End Page.

(** *** one symbol
    [d column row], turned [k] times and drawn on white paper, four modules of it on every side at least *)
Definition module_corners (k : nat) (v : Z) : list (Z * Z) := map (fun p => (snd p, fst p)) (turned_corners k 1 0 0 v).

(** nothing about these modules gets in the way of the scan *)
Definition undisturbed (m n : Z) (dark : Z -> Z -> bool) (corners : list (Z * Z)) : Prop :=
  (forall r, 0 <= r < n -> steady_modules (dark r)) /\ (forall c, 0 <= c < n -> steady_modules (fun r => dark r c)) /\ only_finders m n dark corners.

Definition symbol_on_white (g : gray) (k : nat) (m ox oy v : Z) (d : matrix) : Prop :=
  let n := side_of v in let dark := on_white n (turned k n (fun r c => d c r)) in
  mosaic (pixel g) (gw g) (gh g) m ox oy dark /\ gw g <= 2 ^ 26 /\ gh g <= 2 ^ 26 /\
  4 * m <= ox /\ 4 * m <= oy /\ ox + (n + 4) * m <= gw g /\ oy + (n + 4) * m <= gh g /\
  finder_corners n (fun r c => d c r) /\ undisturbed m n dark (module_corners k v).

Section Symbol.
Context (g : gray) (k : nat) (m ox oy v : Z) (d : matrix) (HW : wf_gray g) (Hk : (k < 4)%nat) (Hv : 1 <= v <= 40) (Hm : 2 <= m) (HS : symbol_on_white g k m ox oy v d).
Let n := side_of v.
Let M := on_white n (turned k n (fun r c => d c r)).

Lemma white_side : 21 <= n.
Proof. unfold n, side_of. lia. Qed.

Lemma scaled_corners : turned_corners k m ox oy v = map (fun p => (ox + snd p * m, oy + fst p * m)) (module_corners k v).
Proof.
  unfold module_corners, turned_corners. rewrite !map_map. apply map_ext. intros [r c]. cbn [fst snd]. unfold corner_x, corner_y. f_equal; ring.
Qed.

Lemma modules_inked : inked (fun x y => Some (if M y x then 0%N else 255%N)) 0 255 1 0 0 n (turned k n (fun r c => d c r)).
Proof.
  split; [lia|]. intros r c i j Hr Hc Hi Hj. replace (0 + c * 1 + i) with c by lia. replace (0 + r * 1 + j) with r by lia. reflexivity.
Qed.

Lemma corners_ringed r c : In (r, c) (module_corners k v) -> ringed_at M r c.
Proof.
  intros HI. unfold module_corners in HI. apply in_map_iff in HI as ((x & y) & E & HI). cbn [fst snd] in E. injection E as -> ->.
  destruct HS as (_ & _ & _ & _ & _ & _ & _ & HFC & _).
  destruct (inked_block _ 0 255 k 1 0 0 v d Hk Hv modules_inked HFC c r HI) as (_ & _ & Q).
  intros r' c' Hr Hc. specialize (Q r' c' 0 0 Hr Hc ltac:(lia) ltac:(lia)). replace (c + c' * 1 + 0) with (c + c') in Q by lia. replace (r + r' * 1 + 0) with (r + r') in Q by lia.
  destruct (M (r + r') (c + c')), ((0 <=? r') && (r' <? 7) && (0 <=? c') && (c' <? 7) && finder_dark r' c'); congruence.
Qed.

Lemma corners_far r c r' c' : In (r, c) (module_corners k v) -> In (r', c') (module_corners k v) -> (r, c) = (r', c') \/ 9 <= Z.abs (r - r') \/ 9 <= Z.abs (c - c').
Proof.
  pose proof white_side as N. unfold module_corners, turned_corners, corner_x, corner_y. fold n. clearbody n.
  destruct k as [|[|[|[|]]]]; [..|lia]; cbn [finder_centres map In fst snd place_of Nat.iter nat_rect turn_module];
    (intros [E|[E|[E|[]]]] [E'|[E'|[E'|[]]]]; injection E as <- <-; injection E' as <- <-; (now left) || (right; lia)).
Qed.

Lemma corners_three : NoDup (module_corners k v) /\ length (module_corners k v) = 3%nat.
Proof.
  pose proof white_side as N. split; [|unfold module_corners, turned_corners; now rewrite !map_length]. unfold module_corners, turned_corners, corner_x, corner_y. fold n. clearbody n.
  destruct k as [|[|[|[|]]]]; [..|lia]; cbn [finder_centres map In fst snd place_of Nat.iter nat_rect turn_module];
    (repeat constructor; cbn [In]; intros H; repeat destruct H as [H|H]; try injection H as H; try lia; auto).
Qed.

Theorem C89_candidates cs : find_candidates g = Ok cs ->
  length cs = 3%nat /\ Forall (fun c => exists fx fy, In (fx, fy) (turned_corners k m ox oy v) /\ centre_found m fx fy c) cs.
Proof.
  intros E. pose proof HS as (HM & WX & WY & OX & OY & RX & RY & HFC & SR & SC & HO). pose proof white_side as N. pose proof corners_three as (ND & L3).
  destruct (C89_page g m ox oy n (turned k n (fun r c => d c r)) (module_corners k v) HW Hm WX WY ltac:(lia) HM OX OY RX RY SR SC corners_ringed corners_far HO cs ltac:(nia) E)
    as (l & F & NL & I1 & I2).
  split.
  - rewrite <- (Forall2_same_length _ _ _ F), <- L3. apply Nat.le_antisymm; apply NoDup_incl_length; assumption.
  - apply Forall_forall. intros c Hc. destruct (Forall2_in_right _ _ _ _ F Hc) as ([r c'] & Hl & A). cbn [fst snd] in A. exists (ox + c' * m), (oy + r * m). split; [|now apply at_centre_found].
    rewrite scaled_corners. apply in_map_iff. exists (r, c'). split; [reflexivity|now apply I1].
Qed.

Lemma white_near : symbol_near g k m ox oy v d.
Proof.
  pose proof HS as (HM & WX & WY & OX & OY & RX & RY & HFC & SR & SC & HO). pose proof white_side as N.
  apply C85_framed; auto; try lia.
  - split; [lia|]. intros r c i j Hr Hc Hi Hj. fold n in Hr, Hc. assert (-1 * m <= c * m <= n * m) by nia. assert (-1 * m <= r * m <= n * m) by nia.
    rewrite (HM (ox + c * m + i) (oy + r * m + j)) by (fold n in RX, RY; lia).
    replace ((ox + c * m + i - ox) / m) with c by (apply Z.div_unique with i; lia). replace ((oy + r * m + j - oy) / m) with r by (apply Z.div_unique with j; lia). reflexivity.
  - intros fx fy HI. rewrite scaled_corners in HI. apply in_map_iff in HI as ((r & c) & EQ & HI). cbn [fst snd] in EQ. injection EQ as <- <-.
    pose proof (corner_scaled g m ox oy n (turned k n (fun r c => d c r)) (module_corners k v) Hm WY ltac:(lia) OX OY RX RY corners_ringed r c HI) as S. cbv beta in S.
    intros a b e Ha Hb. assert (K : steady (fun x => pix g x (oy + r * m + 2 * m)) (gw g - 1)) by (eapply rows_steady; eauto; lia). apply K; lia.
Qed.

Lemma white_clear cs : find_candidates g = Ok cs -> none_in_the_way m (turned_corners k m ox oy v) cs /\ length cs = 3%nat.
Proof.
  intros E. destruct (C89_candidates cs E) as [L F]. split; [|exact L]. apply C63_not_in_the_way; [lia| |exact F].
  rewrite scaled_corners. intros fx fy fx' fy' H H'. apply in_map_iff in H as ((r & c) & EQ & HI). apply in_map_iff in H' as ((r' & c') & EQ' & HI'). cbn [fst snd] in EQ, EQ'.
  injection EQ as <- <-. injection EQ' as <- <-. destruct (corners_far r c r' c' HI HI') as [Q|[Q|Q]]; [left; injection Q as -> ->; reflexivity|right..].
  - right. replace (oy + r * m - (oy + r' * m)) with ((r - r') * m) by ring. rewrite Z.abs_mul, (Z.abs_eq m) by lia. apply Z.mul_le_mono_nonneg_r; lia.
  - left. replace (ox + c * m - (ox + c' * m)) with ((c - c') * m) by ring. rewrite Z.abs_mul, (Z.abs_eq m) by lia. apply Z.mul_le_mono_nonneg_r; lia.
Qed.
End Symbol.

(** it is found, located and read, and nothing else is *)
Theorem C89_read {D : Type} (dec : decoder D gray (list N)) (img : D) g k m ox oy v d t : usual dec -> wf_gray g -> d_prepare dec img = Ok g ->
  (k < 4)%nat -> 1 <= v <= 40 -> 2 <= m -> symbol_on_white g k m ox oy v d -> (v = 1 \/ bottom_right_alignment (side_of v) (fun r c => d c r)) -> holds_text v d t ->
  decode dec img = Ok [inl t].
Proof.
  intros HU HW HP Hk Hv Hm HS HA HT. destruct (find_candidates_ok g HW) as (cs & E & _). destruct (white_clear g k m ox oy v d HW Hk Hv Hm HS cs E) as [ND L].
  apply (C85_one dec img g HU HW HP k m ox oy v d t) with (cs := cs); auto. split; [exact Hk|]. split; [exact Hv|]. split; [exact Hm|]. split; [now apply white_near|]. auto.
Qed.

(** the default decoder: at least five pixels per module *)
Theorem C89_painted {D : Type} (to_gray : D -> gray) (img : D) dec w h m ox oy v d t : default_decoder to_gray = Ok dec -> to_gray img = painted w h m ox oy v d ->
  5 <= m -> 1 <= v <= 40 -> 4 * m <= ox -> 4 * m <= oy -> ox + (side_of v + 4) * m <= w -> oy + (side_of v + 4) * m <= h -> w <= 2 ^ 26 -> h <= 2 ^ 26 -> w * h <= 2 ^ 36 ->
  finder_corners (side_of v) (fun r c => d c r) -> undisturbed m (side_of v) (on_white (side_of v) (fun r c => d c r)) (module_corners 0 v) ->
  (v = 1 \/ bottom_right_alignment (side_of v) (fun r c => d c r)) -> holds_text v d t -> decode dec img = Ok [inl t].
Proof.
  intros HD EI Hm Hv OX OY WX WY W2 H2 WH HFC HU HA HT. assert (N : 21 <= side_of v) by (unfold side_of; lia). assert (21 * m <= side_of v * m) by nia.
  assert (HW : wf_gray (painted w h m ox oy v d)) by (apply painted_wf; unfold u32_max; lia).
  assert (HP : prepare default_prepare (to_gray img) = Ok (painted w h m ox oy v d)) by (rewrite EI; apply C57_symbol; unfold u32_max; lia).
  injection HD as <-. apply (C89_read _ img (painted w h m ox oy v d) 0 m ox oy v d t); auto; try lia.
  - split; [reflexivity|]. split; reflexivity.
  - split; [|cbn [painted image_of gw gh]; repeat (split; [lia || assumption|]); assumption].
    intros x y Hx Hy. unfold pixel, painted. cbn [painted image_of gw gh] in Hx, Hy. rewrite image_of_pixel by lia. cbv zeta. f_equal.
    unfold on_white. cbn [turned]. destruct (0 <=? (x - ox) / m), ((x - ox) / m <? side_of v), (0 <=? (y - oy) / m), ((y - oy) / m <? side_of v); reflexivity.
Qed.

(** *** "HELLO" once more, at level Q and with mask 6: whatever the size of the modules and the paper, the default decoder reads it *)
Definition bits_6 : list bool := Eval vm_compute in
  map (fun p => xorb (snd p) (mask_bit 6 (fst (fst p)) (snd (fst p))))
      (combine order_1 (bits (interleave (encode_blocks 1 Symbol.Q hello)) ++ repeat false (Z.to_nat (data_module_count 1 mod 8)))).
Definition word_6 : N := Eval vm_compute in format_word Symbol.Q 6.
Definition symbol_6 : list (list bool) := Eval vm_compute in
  let d := place order_1 bits_6 (draw_on 1 word_6 word_6 base_1) in
  map (fun y => map (fun x => d (Z.of_nat x) (Z.of_nat y)) (seq 0 21)) (seq 0 21).
Definition modules_6 : matrix := fun x y => nth (Z.to_nat x) (nth (Z.to_nat y) symbol_6 []) false.

Lemma modules_6_encoded : (forall x y, data_module 1 x y -> modules_6 x y = encode_symbol 1 Symbol.Q 6 hello base_1 x y) /\ carries modules_6 copy1 (format_word Symbol.Q 6).
Proof. apply (table_encodes 1 Symbol.Q 6 hello base_1 modules_6 order_1 bits_6 word_6); [lia|vm_compute; reflexivity..]. Qed.

Lemma modules_6_free : decoy_free 21 (on_white 21 (fun r c => modules_6 c r)) (module_corners 0 1) = true.
Proof. rewrite <- decoy_free_same. vm_compute. reflexivity. Qed.

Lemma modules_6_text : holds_text 1 modules_6 [72; 69; 76; 76; 79]%N.
Proof.
  exists Symbol.Q, 6%N, hello, [[72; 69; 76; 76; 79]%N], base_1. split; [reflexivity|]. split; [|split; [|split; [|split; [exact (proj1 modules_6_encoded)|split; [exact (proj2 modules_6_encoded)|reflexivity]]]]].
  - constructor; [|constructor]. apply encode_alnum_wf; [|vm_compute; reflexivity]. repeat (constructor; [vm_compute; tauto|]). constructor.
  - constructor; [|constructor]. split; [|vm_compute; reflexivity]. vm_compute. repeat constructor.
  - vm_compute. lia.
Qed.

Lemma modules_6_undisturbed m : 2 <= m -> undisturbed m 21 (on_white 21 (fun r c => modules_6 c r)) (module_corners 0 1).
Proof. intros Hm. apply decoy_free_ok; [exact Hm|lia| |exact modules_6_free]. intros r c H. apply M_out. exact H. Qed.

Example C89_example {D : Type} (to_gray : D -> gray) (img : D) dec w h m ox oy : default_decoder to_gray = Ok dec -> to_gray img = painted w h m ox oy 1 modules_6 ->
  5 <= m -> 4 * m <= ox -> 4 * m <= oy -> ox + 25 * m <= w -> oy + 25 * m <= h -> w <= 2 ^ 26 -> h <= 2 ^ 26 -> w * h <= 2 ^ 36 ->
  decode dec img = Ok [inl [72; 69; 76; 76; 79]%N].
Proof.
  intros HD EI Hm OX OY WX WY W2 H2 WH. assert (S : side_of 1 = 21) by reflexivity.
  apply (C89_painted to_gray img dec w h m ox oy 1 modules_6); auto; try lia.
  - rewrite S. apply check_corners_ok. vm_compute. reflexivity.
  - rewrite S. apply modules_6_undisturbed. lia.
  - exact modules_6_text.
Qed.
