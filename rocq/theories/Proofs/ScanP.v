(** The scan comes across every finder pattern. *)
From Coq Require Import NArith ZArith Reals List Lia Lra Bool Arith Psatz.
From Verif.Model Require Import Prepare Detect.
From Flocq Require Import Core.
From Verif.Spec Require Import Window Finder Drawing.
From Verif.Proofs Require Import BaseP PrepareP FloatP ApproxP BlocksP DetectP ExtractP AlignP RefineP RefineF.
Import ListNotations.
Local Open Scope Z_scope.

(** *** candidates stay *)
Lemma scan_found_incl g cs p x y cs' : scan_found g cs p x y = Ok cs' -> incl cs cs'.
Proof.
  unfold scan_found. intros H. apply bind_ok in H as (ms & _ & H). destruct (existsb _ cs).
  - injection H as <-. apply incl_refl.
  - apply bind_ok in H as (r & _ & H). destruct r as [[p' ms']|]; injection H as <-; [apply incl_appl|]; apply incl_refl.
Qed.
Lemma scan_pixel_incl g s xyv s' : scan_pixel g s xyv = Ok s' -> incl (sc_candidates s) (sc_candidates s').
Proof.
  destruct xyv as [[x y] v]. unfold scan_pixel. destruct (if x =? 0 then _ else _) as [last p]. intros H.
  apply bind_ok in H as (p' & _ & H). apply bind_ok in H as (w1 & _ & H). destruct (_ && _).
  - injection H as <-. apply incl_refl.
  - apply bind_ok in H as (l & _ & H). apply bind_ok in H as (cs & E & H). apply bind_ok in H as (p'' & _ & H). injection H as <-.
    cbn [sc_candidates]. destruct l; [now apply scan_found_incl in E|]. injection E as <-. apply incl_refl.
Qed.
Lemma foldM_incl {A} (f : scan_state -> A -> res scan_state) l : (forall s a s', f s a = Ok s' -> incl (sc_candidates s) (sc_candidates s')) ->
  forall s s', foldM f l s = Ok s' -> incl (sc_candidates s) (sc_candidates s').
Proof.
  intros HF. induction l as [|a l IH]; intros s s' H; cbn [foldM] in H.
  - injection H as <-. apply incl_refl.
  - apply bind_ok in H as (s1 & E & H). eapply incl_tran; [eapply HF, E|]. now apply IH.
Qed.

(** *** one row *)
Section Row.
Context (g : gray) (y : Z).
Let f (x : Z) : N := pix g x y.
Definition row (a b : Z) (s : scan_state) : res scan_state := foldM (fun s x => scan_pixel g s (x, y, f x)) (zrange a b) s.

Lemma row_split a b c s s' : a <= b <= c -> row a c s = Ok s' -> exists s1, row a b s = Ok s1 /\ row b c s1 = Ok s'.
Proof. intros H. unfold row. rewrite (zrange_app a b c) by lia. rewrite foldM_app. apply bind_ok. Qed.
Lemma row_one a s s' : row a (a + 1) s = Ok s' -> scan_pixel g s (a, y, f a) = Ok s'.
Proof.
  unfold row. rewrite zrange_cons by lia. rewrite zrange_nil by lia. cbn [foldM]. intros H. apply bind_ok in H as (s1 & -> & H). exact H.
Qed.
Lemma row_incl a b s s' : row a b s = Ok s' -> incl (sc_candidates s) (sc_candidates s').
Proof. apply foldM_incl. intros s0 x s1 H. eapply scan_pixel_incl, H. Qed.

Lemma scan_same x s s' q0 q1 q2 q3 q4 q5 k : 0 < x < gw g - 1 -> 0 <= k -> k + 1 <= u32_max -> sc_last s = f x -> sc_pattern s = Pat q0 q1 q2 q3 q4 q5 k ->
  scan_pixel g s (x, y, f x) = Ok s' -> s' = Scan (sc_candidates s) (f x) (Pat q0 q1 q2 q3 q4 q5 (k + 1)).
Proof.
  intros Hx Hk HM HL HP. unfold scan_pixel. destruct (Z.eqb_spec x 0); [lia|]. rewrite HL, HP, N.eqb_refl.
  unfold pattern_inc. cbn [p0 p1 p2 p3 p4 p5 p6]. rewrite chk_u32_ok by lia. cbn [bind]. rewrite sub_Z_ok by lia. cbn [bind].
  destruct (Z.eqb_spec x (gw g - 1)); [lia|]. cbn [negb andb]. congruence.
Qed.
Lemma scan_change x s s' p' : 0 < x -> sc_last s <> f x -> slide (sc_pattern s) = Ok p' ->
  scan_pixel g s (x, y, f x) = Ok s' -> exists cs, s' = Scan cs (f x) p'.
Proof.
  intros Hx HL HS. unfold scan_pixel. destruct (Z.eqb_spec x 0); [lia|]. destruct (N.eqb_spec (f x) (sc_last s)); [congruence|].
  cbn [bind andb]. intros H. apply bind_ok in H as (l & _ & H). apply bind_ok in H as (cs & _ & H). rewrite HS in H. cbn [bind] in H. 
  injection H as <-. now exists cs.
Qed.
Lemma scan_first s s' : 1 < gw g -> scan_pixel g s (0, y, f 0) = Ok s' -> exists cs, s' = Scan cs (f 0) (Pat 0 0 0 0 0 0 1).
Proof.
  intros Hg. unfold scan_pixel. rewrite Z.eqb_refl. destruct (N.eqb_spec (f 0) 127) as [E|E].
  - unfold pattern_inc. cbn [pattern_new p0 p1 p2 p3 p4 p5 p6]. rewrite chk_u32_ok by (unfold u32_max; lia). cbn [bind]. rewrite sub_Z_ok by lia. cbn [bind].
    destruct (Z.eqb_spec 0 (gw g - 1)); [lia|]. cbn [negb andb]. intros [= <-]. rewrite E. eexists. reflexivity.
  - cbn [bind andb]. intros H. apply bind_ok in H as (l & _ & H). apply bind_ok in H as (cs & _ & H). cbn in H. injection H as <-. now exists cs.
Qed.

(** the rest of a run *)
Lemma scan_on n : forall x s s' q0 q1 q2 q3 q4 q5 k v, 0 < x -> x + Z.of_nat n < gw g -> 0 <= k -> k + Z.of_nat n <= u32_max -> (forall t, x <= t < x + Z.of_nat n -> f t = v) ->
  sc_last s = v -> sc_pattern s = Pat q0 q1 q2 q3 q4 q5 k -> row x (x + Z.of_nat n) s = Ok s' ->
  s' = Scan (sc_candidates s) v (Pat q0 q1 q2 q3 q4 q5 (k + Z.of_nat n)).
Proof.
  induction n as [|n IH]; intros x s s' q0 q1 q2 q3 q4 q5 k v Hx Hg Hk HM HV HL HP H.
  - unfold row in H. rewrite zrange_nil in H by lia. cbn [foldM] in H. injection H as <-. rewrite Z.add_0_r. destruct s. cbn in *. congruence.
  - apply (row_split x (x + 1)) in H as (s1 & E1 & H); [|lia]. apply row_one in E1.
    rewrite <- (HV x) in HL by lia. pose proof (scan_same x s s1 q0 q1 q2 q3 q4 q5 k ltac:(lia) Hk ltac:(lia) HL HP E1) as ->. rewrite (HV x) in H by lia.
    replace (x + Z.of_nat (S n)) with (x + 1 + Z.of_nat n) in H by lia.
    apply (IH _ _ _ q0 q1 q2 q3 q4 q5 (k + 1) v) in H; cbn [sc_candidates sc_last sc_pattern]; try lia; try reflexivity.
    + subst s'. cbn [sc_candidates]. f_equal. f_equal. lia.
    + intros t Ht. apply HV. lia.
Qed.

(** a run, entered with a change *)
Lemma scan_run a b v s s' q0 q1 q2 q3 q4 q5 q6 : 0 < a < b -> b < gw g -> gw g <= u32_max -> (forall t, a <= t < b -> f t = v) -> sc_last s <> v ->
  sc_pattern s = Pat q0 q1 q2 q3 q4 q5 q6 -> 0 <= q5 <= u32_max -> 0 <= q6 <= u32_max -> q5 <= 10 * q6 \/ q4 = 0 ->
  row a b s = Ok s' -> exists cs, s' = Scan cs v (Pat q1 q2 q3 q4 q5 q6 (b - a)).
Proof.
  intros Hab Hb HG HV HL HP H5 H6 HQ H. apply (row_split a (a + 1)) in H as (s1 & E1 & H); [|lia]. apply row_one in E1.
  rewrite <- (HV a) in HL by lia.
  pose proof (slide_shift (Pat q0 q1 q2 q3 q4 q5 q6) H5 H6 HQ) as SL. cbn [p0 p1 p2 p3 p4 p5 p6] in SL. rewrite <- HP in SL.
  destruct (scan_change a s s1 _ ltac:(lia) HL SL E1) as (cs & ->). rewrite (HV a) in H by lia. exists cs.
  replace b with (a + 1 + Z.of_nat (Z.to_nat (b - a - 1))) in H by lia.
  apply (scan_on _ _ _ _ q1 q2 q3 q4 q5 q6 1 v) in H; try lia; cbn [sc_last sc_pattern sc_candidates]; try reflexivity.
  - subst s'. cbn [sc_candidates]. f_equal. f_equal. lia.
  - intros t Ht. apply HV. lia.
Qed.

Lemma scan_next a b v s' cs last q0 q1 q2 q3 q4 q5 q6 : row a b (Scan cs last (Pat q0 q1 q2 q3 q4 q5 q6)) = Ok s' -> (forall t, a <= t < b -> f t = v) ->
  0 < a < b -> b < gw g -> gw g <= u32_max -> last <> v -> 0 <= q5 <= u32_max -> 0 <= q6 <= u32_max -> q5 <= 10 * q6 \/ q4 = 0 ->
  exists cs', s' = Scan cs' v (Pat q1 q2 q3 q4 q5 q6 (b - a)).
Proof. intros E D H1 H2 H3 H4 H5 H6 H7. exact (scan_run a b v (Scan cs last (Pat q0 q1 q2 q3 q4 q5 q6)) s' q0 q1 q2 q3 q4 q5 q6 H1 H2 H3 D H4 eq_refl H5 H6 H7 E). Qed.

(** *** the row before the finder *)
Definition quiet_before (m x : Z) (s : scan_state) : Prop := exists a q0 q1 q2 q3 q4 q5,
  0 <= a < x /\ (forall t, a <= t < x -> f t = f a) /\ (a = 0 \/ f (a - 1) <> f a) /\ sc_last s = f a /\
  sc_pattern s = Pat q0 q1 q2 q3 q4 q5 (x - a) /\ 0 <= q5 <= x /\ (a = 0 -> q4 = 0 /\ q5 = 0) /\ (0 < a -> q5 <= 10 * m \/ q4 = 0).

Lemma quiet_step m e x s s' : 1 <= m -> runs_fit f m e -> 0 < x < e -> e < gw g -> gw g <= u32_max -> quiet_before m x s ->
  scan_pixel g s (x, y, f x) = Ok s' -> quiet_before m (x + 1) s'.
Proof.
  intros Hm HF Hx He HG (a & q0 & q1 & q2 & q3 & q4 & q5 & Ha & HC & HA & HL & HP & H5 & H0 & H1) H.
  destruct (N.eq_dec (f x) (f a)) as [E|N].
  - rewrite <- E in HL. pose proof (scan_same x s s' q0 q1 q2 q3 q4 q5 (x - a) ltac:(lia) ltac:(lia) ltac:(lia) HL HP H) as ->.
    exists a, q0, q1, q2, q3, q4, q5. cbn [sc_last sc_pattern]. rewrite E. repeat split; try lia; try tauto.
    + intros t Ht. destruct (Z.eq_dec t x) as [-> | NT]; [exact E|apply HC; lia].
    + f_equal. lia.
  - assert (HQ : q5 <= 10 * (x - a) \/ q4 = 0).
    { destruct (Z.eq_dec a 0) as [A0|A0]; [right; now apply H0|]. destruct (H1 ltac:(lia)) as [L|L]; [left|now right].
      specialize (HF a x ltac:(lia) ltac:(lia) HC ltac:(destruct HA; [lia|assumption]) N). lia. }
    pose proof (slide_shift (Pat q0 q1 q2 q3 q4 q5 (x - a)) ltac:(cbn [p5]; lia) ltac:(cbn [p6]; lia) HQ) as SL. cbn [p0 p1 p2 p3 p4 p5 p6] in SL. rewrite <- HP in SL.
    destruct (scan_change x s s' _ ltac:(lia) ltac:(congruence) SL H) as (cs & ->).
    exists x, q1, q2, q3, q4, q5, (x - a). cbn [sc_last sc_pattern]. repeat split; try lia.
    + intros t Ht. now replace t with x by lia.
    + right. rewrite (HC (x - 1)) by lia. congruence.
    + f_equal. lia.
    + intros _. destruct (Z.eq_dec a 0) as [A0|A0]; [right; now apply H0|]. left.
      specialize (HF a x ltac:(lia) ltac:(lia) HC ltac:(destruct HA; [lia|assumption]) N). lia.
Qed.

Lemma quiet_row m e n : 1 <= m -> runs_fit f m e -> e < gw g -> gw g <= u32_max -> forall x s s', 0 < x -> x + Z.of_nat n <= e -> quiet_before m x s ->
  row x (x + Z.of_nat n) s = Ok s' -> quiet_before m (x + Z.of_nat n) s'.
Proof.
  intros Hm HF He HG. induction n as [|n IH]; intros x s s' Hx Hn HQ H.
  - rewrite Z.add_0_r in *. unfold row in H. rewrite zrange_nil in H by lia. cbn [foldM] in H. now injection H as <-.
  - apply (row_split x (x + 1)) in H as (s1 & E1 & H); [|lia]. apply row_one in E1.
    replace (x + Z.of_nat (S n)) with (x + 1 + Z.of_nat n) in * by lia.
    apply (IH (x + 1) s1); try lia; try assumption. apply (quiet_step m e x s); auto; lia.
Qed.

Lemma quiet_first m s s' : 1 < gw g -> scan_pixel g s (0, y, f 0) = Ok s' -> quiet_before m 1 s'.
Proof.
  intros Hg H. destruct (scan_first s s' Hg H) as (cs & ->). exists 0, 0, 0, 0, 0, 0, 0. cbn [sc_last sc_pattern]. repeat split; try lia.
  intros t Ht. now replace t with 0 by lia.
Qed.

(** *** the row through the finder *)
Lemma scan_finder m fx s s' : 2 <= m -> 0 <= fx -> fx + 7 * m < gw g -> gw g <= 2 ^ 26 -> runs_fit f m fx ->
  (0 < fx -> f (fx - 1) = 255%N) -> (forall t, fx <= t < fx + m -> f t = 0%N) -> (forall t, fx + m <= t < fx + 2 * m -> f t = 255%N) ->
  (forall t, fx + 2 * m <= t < fx + 5 * m -> f t = 0%N) -> (forall t, fx + 5 * m <= t < fx + 6 * m -> f t = 255%N) ->
  (forall t, fx + 6 * m <= t < fx + 7 * m -> f t = 0%N) -> row 0 (fx + 7 * m) s = Ok s' ->
  exists cs q0 q1, s' = Scan cs 0%N (Pat q0 q1 m m (3 * m) m m) /\ 0 <= q0 <= 2 ^ 26 /\ 0 <= q1 <= 2 ^ 26.
Proof.
  intros Hm Hfx Hg HG HF HB D1 D2 D3 D4 D5 H. assert (U : u32_max = 4294967295) by reflexivity.
  (* up to the end of the first dark run *)
  apply (row_split 0 (fx + m)) in H as (s1 & E1 & H); [|lia].
  assert (S1 : exists cs q0 q1 q2 q3 q4 q5, s1 = Scan cs 0%N (Pat q0 q1 q2 q3 q4 q5 m) /\ 0 <= q4 <= 2 ^ 26 /\ 0 <= q5 <= 2 ^ 26 /\ (q5 <= 10 * m \/ q4 = 0)).
  { apply (row_split 0 (0 + 1)) in E1 as (sa & E0 & E1); [|lia]. apply row_one in E0. change (0 + 1) with 1 in E1. destruct (Z.eq_dec fx 0) as [-> | NF].
    - destruct (scan_first s sa ltac:(lia) E0) as (cs & ->). rewrite (D1 0) in E1 by lia.
      replace (0 + m) with (1 + Z.of_nat (Z.to_nat (m - 1))) in E1 by lia.
      apply (scan_on _ _ _ _ 0 0 0 0 0 0 1 0%N) in E1; cbn [sc_last sc_pattern]; try lia; try reflexivity; [|intros t Ht; apply D1; lia].
      subst s1. exists cs, 0, 0, 0, 0, 0, 0. cbn [sc_candidates]. split; [f_equal; f_equal; lia|lia].
    - apply (row_split 1 fx) in E1 as (sb & EB & E1); [|lia]. pose proof (quiet_first m s sa ltac:(lia) E0) as Q.
      replace fx with (1 + Z.of_nat (Z.to_nat (fx - 1))) in EB at 1 by lia.
      apply (quiet_row m fx _ ltac:(lia) HF) in EB; try lia; [|exact Q]. replace (1 + Z.of_nat (Z.to_nat (fx - 1))) with fx in EB by lia.
      destruct EB as (a & q0 & q1 & q2 & q3 & q4 & q5 & Ha & HC & HA & HL & HP & H5 & Q0 & Q1).
      assert (W : f a = 255%N) by (rewrite <- (HC (fx - 1)) by lia; apply HB; lia).
      assert (HQ : q5 <= 10 * (fx - a) \/ q4 = 0).
      { destruct (Z.eq_dec a 0) as [A0|A0]; [right; now apply Q0|]. destruct (Q1 ltac:(lia)) as [L|L]; [left|now right].
        specialize (HF a fx ltac:(lia) ltac:(lia) HC ltac:(destruct HA; [lia|assumption])). rewrite (D1 fx), W in HF by lia. specialize (HF ltac:(discriminate)). lia. }
      destruct (scan_run fx (fx + m) 0%N sb s1 q0 q1 q2 q3 q4 q5 (fx - a) ltac:(lia) ltac:(lia) ltac:(lia) D1 ltac:(rewrite HL, W; discriminate) HP ltac:(lia) ltac:(lia) HQ E1) as (cs & ->).
      exists cs, q1, q2, q3, q4, q5, (fx - a). split; [f_equal; f_equal; lia|]. split; [lia|]. split; [lia|].
      destruct (Z.eq_dec a 0) as [A0|A0]; [right; now apply Q0|]. left.
      specialize (HF a fx ltac:(lia) ltac:(lia) HC ltac:(destruct HA; [lia|assumption])). rewrite (D1 fx), W in HF by lia. specialize (HF ltac:(discriminate)). lia. }
  clear E1. destruct S1 as (cs & q0 & q1 & q2 & q3 & q4 & q5 & -> & B4 & B5 & HQ).
  apply (row_split _ (fx + 2 * m)) in H as (s2 & E2 & H); [|lia].
  destruct (scan_next _ _ _ _ _ _ _ _ _ _ _ _ _ E2 D2 ltac:(lia) ltac:(lia) ltac:(lia) ltac:(lia) ltac:(lia) ltac:(lia) ltac:(lia)) as (c2 & ->).
  apply (row_split _ (fx + 5 * m)) in H as (s3 & E3 & H); [|lia].
  destruct (scan_next _ _ _ _ _ _ _ _ _ _ _ _ _ E3 D3 ltac:(lia) ltac:(lia) ltac:(lia) ltac:(lia) ltac:(lia) ltac:(lia) ltac:(lia)) as (c3 & ->).
  apply (row_split _ (fx + 6 * m)) in H as (s4 & E4 & H); [|lia].
  destruct (scan_next _ _ _ _ _ _ _ _ _ _ _ _ _ E4 D4 ltac:(lia) ltac:(lia) ltac:(lia) ltac:(lia) ltac:(lia) ltac:(lia) ltac:(lia)) as (c4 & ->).
  destruct (scan_next _ _ _ _ _ _ _ _ _ _ _ _ _ H D5 ltac:(lia) ltac:(lia) ltac:(lia) ltac:(lia) ltac:(lia) ltac:(lia) ltac:(lia)) as (c5 & ->).
  exists c5, q4, q5. split; [f_equal; f_equal; lia|lia].
Qed.
End Row.

(** *** the whole scan *)
Definition scan_point (m fx fy : Z) : point := Pt (fsub (of_Z (fx + 7 * m)) (fmul (est_of (7 * m)) (lit 7 2))) (of_Z (fy + 2 * m)).

Definition at_centre (m fx fy : Z) (c : finder_pos) : Prop :=
  fin (fp_module_size c) (IZR m) /\ hf (px (fp_location c)) (2 * fx + 7 * m) /\ hf (py (fp_location c)) (2 * (fy + (7 * m - 1) / 2)).

Lemma half_exact' m : 1 <= m <= 10000000 -> hf (fmul (est_of (7 * m)) (lit 7 2)) (7 * m).
Proof.
  intros H. unfold hf. rewrite <- rnd_half by (unfold hb; lia). replace (IZR (7 * m) / 2)%R with (IZR m * (7 / 2))%R by (rewrite mult_IZR; lra).
  assert (R : (1 <= IZR m <= 10000000)%R) by (split; apply IZR_le; lia).
  apply fin_fmul; [apply est_exact; lia|apply fin_7_2|]. apply half_big. rewrite Rabs_pos_eq; lra.
Qed.

Theorem scanned g m fx fy cs : wf_gray g -> finder_drawn (pixel g) m fx fy -> 2 <= m -> gw g <= 2 ^ 26 -> gh g <= 2 ^ 26 ->
  runs_fit (fun x => pix g x (fy + 2 * m)) m fx -> find_candidates g = Ok cs ->
  exists c, In c cs /\ (at_centre m fx fy c \/
    flt (dist (scan_point m fx fy) (fp_location c)) (fmul (of_Z 7) (est_of (7 * m))) = true).
Proof.
  intros WF HD Hm WX WY HR. pose proof (bounds g m fx fy WF HD Hm) as B. pose proof (corner g m fx fy HD) as C. pose proof (m_top g m fx fy WF HD Hm WX) as T.
  set (y := fy + 2 * m) in *.
  unfold find_candidates. rewrite enumerate_pix by exact WF. rewrite foldM_map. unfold coords. rewrite foldM_flat_map.
  rewrite (zrange_app 0 y (gh g)) by (unfold y; lia). rewrite (zrange_cons y (gh g)) by (unfold y; lia). rewrite foldM_app.
  intros H. apply bind_ok in H as (sf & H & HC). injection HC as <-. apply bind_ok in H as (s0 & _ & H). cbn [foldM] in H.
  apply bind_ok in H as (s3 & H & HREST). rewrite foldM_map in H.
  assert (INC : incl (sc_candidates s3) (sc_candidates sf)).
  { revert HREST. apply foldM_incl. intros s x s'. apply foldM_incl. intros ? ? ? E. eapply scan_pixel_incl, E. }
  clear HREST.
  apply (row_split g y 0 (fx + 7 * m)) in H as (s1 & E1 & H); [|lia].
  apply (row_split g y _ (fx + 7 * m + 1)) in H as (s2 & E2 & H); [|lia]. apply row_incl in H. apply row_one in E2.
  assert (PX : forall u v, 0 <= u <= 7 * m -> get_pixel g (fx + u) y = Ok v -> pix g (fx + u) y = v).
  { intros u v Hu E. rewrite get_pixel_pix in E by (try exact WF; unfold y; lia). now injection E. }
  assert (FA := fun u Hu => finder_at g m fx fy HD Hm u (2 * m) Hu ltac:(lia)). fold y in FA. unfold inner, middling in FA.
  assert (LEFT : 0 < fx -> pix g (fx - 1) y = 255%N).
  { intros Hf. pose proof (ring g m fx fy WF HD (fx - 1) y ltac:(lia) ltac:(unfold y; lia) ltac:(lia) ltac:(lia) ltac:(unfold y; lia)) as E.
    rewrite get_pixel_pix in E by (try exact WF; unfold y; lia). now injection E. }
  assert (exists cs q0 q1, s1 = Scan cs 0%N (Pat q0 q1 m m (3 * m) m m) /\ 0 <= q0 <= 2 ^ 26 /\ 0 <= q1 <= 2 ^ 26) as (cs1 & q0 & q1 & -> & Q0 & Q1).
  { apply (scan_finder g y m fx s0 s1 Hm ltac:(lia) ltac:(lia) WX HR LEFT); [..|exact E1];
      intros t Ht; replace t with (fx + (t - fx)) by lia; apply PX; [lia| |lia| |lia| |lia| |lia|]; apply FA; lia. }
  (* the pixel after the finder *)
  assert (W : pix g (fx + 7 * m) y = 255%N).
  { apply PX; [lia|]. apply (ring g m fx fy); try assumption; unfold y; lia. }
  rewrite W in E2. unfold scan_pixel in E2. destruct (Z.eqb_spec (fx + 7 * m) 0); [lia|]. cbn [sc_last sc_pattern] in E2. change (255 =? 0)%N with false in E2. cbn [bind andb sc_candidates] in E2.
  assert (PO : pat_ok 300000000 (Pat q0 q1 m m (3 * m) m m)).
  { apply pat_small; cbn [p0 p1 p2 p3 p4 p5 p6]; try lia. unfold pat_sum. cbn [p0 p1 p2 p3 p4 p5 p6]. lia. }
  assert (U : 300000000 <= u32_max) by (unfold u32_max; lia).
  destruct (looks_like_finder_exact _ _ PO U) as (b & EB & _ & B1). rewrite EB in E2. cbn [bind] in E2. rewrite B1 in E2.
  2:{ cbn [p2 p3 p4 p5 p6]. unfold finder_runs, stands_for. cbv zeta. lia. }
  2:{ unfold pat_total. cbn [p2 p3 p4 p5 p6]. lia. }
  apply bind_ok in E2 as (cs2 & E2 & ES). apply bind_ok in ES as (p' & _ & ES). injection ES as <-. cbn [sc_candidates] in H.
  assert (IN : forall c, In c cs2 -> In c (sc_candidates sf)) by (intros c Hc; apply INC, H, Hc).
  unfold scan_found in E2. rewrite (est_ok _ _ PO U) in E2. cbn [bind] in E2. unfold pat_total in E2. cbn [p2 p3 p4 p5 p6] in E2.
  replace (m + m + 3 * m + m + m) with (7 * m) in E2 by lia. fold y in E2.
  change (Pt (fsub (of_Z (fx + 7 * m)) (fmul (est_of (7 * m)) (lit 7 2))) (of_Z y)) with (scan_point m fx fy) in E2.
  destruct (existsb _ cs1) eqn:EX.
  - injection E2 as <-. apply existsb_exists in EX as (c & Hc & N). exists c. auto.
  - destruct (refined g m fx fy WF HD Hm WX WY (scan_point m fx fy) (est_of (7 * m))) as (p & ms' & R & F1 & F2 & F3).
    { apply est_exact. lia. }
    { cbn [scan_point px]. replace (2 * fx + 7 * m) with (2 * (fx + 7 * m) - 7 * m) by lia.
      apply hf_sub; [apply hf_Z|apply half_exact'; lia|]; unfold hb; lia. }
    { reflexivity. }
    rewrite R in E2. cbn [bind] in E2. injection E2 as <-. exists (FP p ms' (of_Z 0)). split.
    + apply IN, in_or_app. right. now left.
    + left. unfold at_centre. cbn [fp_module_size fp_location]. auto.
Qed.
