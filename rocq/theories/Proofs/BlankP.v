(** Rows with few changes of colour contain no finder. *)
From Coq Require Import NArith ZArith List Lia Bool.
From Verif.Model Require Import Prepare Detect.
From Verif.Spec Require Import Window Finder.
From Verif.Proofs Require Import BaseP PrepareP DetectP.
Import ListNotations.
Local Open Scope Z_scope.

Definition nz (n : Z) : Z := if n =? 0 then 0 else 1.
(** the number of runs seen *)
Definition runs (p : pattern) : Z := nz (p0 p) + nz (p1 p) + nz (p2 p) + nz (p3 p) + nz (p4 p) + nz (p5 p) + nz (p6 p).

Lemma nz_range n : 0 <= nz n <= 1.
Proof. unfold nz. destruct (n =? 0); lia. Qed.
Lemma nz_pos n : n <> 0 -> nz n = 1.
Proof. intros H. unfold nz. destruct (Z.eqb_spec n 0); [contradiction|reflexivity]. Qed.

Lemma few_runs p n b : pat_ok n p -> n <= u32_max -> runs p <= 4 -> looks_like_finder p = Ok b -> b = false.
Proof.
  intros H L HR E. destruct (looks_like_finder_exact n p H L) as (b' & E' & B & _). rewrite E in E'. injection E' as <-.
  destruct b; [|reflexivity]. destruct (B eq_refl) as (T & R2 & R3 & R4 & R5 & R6). unfold stands_for, pat_ok in *.
  assert (p2 p <> 0) by lia. assert (p3 p <> 0) by lia. assert (p4 p <> 0) by lia. assert (p5 p <> 0) by lia. assert (p6 p <> 0) by lia.
  unfold runs in HR.
  pose proof (nz_range (p0 p)). pose proof (nz_range (p1 p)). rewrite (nz_pos (p2 p)), (nz_pos (p3 p)), (nz_pos (p4 p)), (nz_pos (p5 p)), (nz_pos (p6 p)) in HR by assumption. lia.
Qed.

Lemma runs_slide n p p' : pat_ok n p -> slide p = Ok p' -> runs p' <= runs p + 1.
Proof.
  intros H E. unfold slide in E. unfold runs.
  pose proof (nz_range (p0 p)). pose proof (nz_range (p1 p)). pose proof (nz_range (p5 p)). pose proof (nz_range (p6 p)).
  destruct (flt _ _ && _).
  - apply bind_ok in E. destruct E as (m & E & [= <-]). cbn [p0 p1 p2 p3 p4 p5 p6]. pose proof (nz_range m). change (nz 0) with 0. lia.
  - injection E as <-. cbn [p0 p1 p2 p3 p4 p5 p6]. change (nz 1) with 1. lia.
Qed.

Lemma runs_inc p p' : p6 p <> 0 -> pattern_inc p = Ok p' -> p6 p' = p6 p + 1 /\ runs p' <= runs p.
Proof.
  intros H E. unfold pattern_inc in E. apply bind_ok in E. destruct E as (m & E & [= <-]). unfold chk_u32 in E.
  destruct (_ && _); [|discriminate]. injection E as <-. unfold runs. cbn [p0 p1 p2 p3 p4 p5 p6].
  split; [reflexivity|]. rewrite (nz_pos (p6 p)) by exact H. pose proof (nz_range (p6 p + 1)). lia.
Qed.

Lemma changes_1 f : changes f 1 = 0.
Proof. reflexivity. Qed.
Lemma changes_succ f x : 1 <= x -> changes f (x + 1) = changes f x + (if N.eqb (f x) (f (x - 1)) then 0 else 1).
Proof.
  intros H. unfold changes. rewrite !sum_between_zsum, (zrange_app 1 x (x + 1)), (zrange_cons x (x + 1)), (zrange_nil (x + 1)) by lia.
  rewrite zsum_app. cbn [zsum]. lia.
Qed.

(** the state after pixel [x - 1] of row [y]: nothing found, and no more runs than changes *)
Definition quiet (g : gray) (y x : Z) (s : scan_state) : Prop :=
  sc_candidates s = [] /\
  (0 < x < gw g -> pat_ok x (sc_pattern s) /\ 1 <= p6 (sc_pattern s) /\ sc_last s = pix g (x - 1) y /\
                   runs (sc_pattern s) <= 1 + changes (fun x => pix g x y) x).

Lemma slide_p6 n p p' : pat_ok n p -> (p6 p = 0 -> p = pattern_new) -> slide p = Ok p' -> 1 <= p6 p'.
Proof.
  intros H Z0 E. unfold slide in E. destruct (_ && _) eqn:C.
  - apply bind_ok in E. destruct E as (m & E & [= <-]). cbn [p6]. unfold chk_u32 in E.
    destruct ((0 <=? p6 p + p5 p) && (p6 p + p5 p <=? u32_max)); [|discriminate].
    injection E as <-. unfold pat_ok in H. destruct (Z.eq_dec (p6 p) 0) as [Z1|]; [|lia].
    rewrite (Z0 Z1) in C. cbn [p4 pattern_new] in C. change (0 =? 0) with true in C. rewrite andb_false_r in C. discriminate.
  - injection E as <-. cbn [p6]. lia.
Qed.

Lemma changes_nonneg f n : 0 <= changes f n.
Proof.
  unfold changes. rewrite sum_between_zsum. induction (zrange 1 n) as [|a l IH]; cbn [zsum]; [lia|].
  destruct (N.eqb _ _); lia.
Qed.

Lemma changes_mono f x n : 1 <= x <= n -> changes f x <= changes f n.
Proof.
  intros H. replace n with (x + Z.of_nat (Z.to_nat (n - x))) by lia. generalize (Z.to_nat (n - x)). clear n H.
  assert (1 <= x -> forall k, changes f x <= changes f (x + Z.of_nat k)) as K.
  { intros H. induction k as [|k IH]; [rewrite Z.add_0_r; lia|].
    rewrite Nat2Z.inj_succ, <- Z.add_1_r, Z.add_assoc, changes_succ by lia. destruct (N.eqb _ _); lia. }
  intros k. destruct (Z.leb_spec 1 x); [auto|].
  unfold changes. rewrite !sum_between_zsum, (zrange_nil 1 x) by lia. cbn [zsum]. rewrite <- sum_between_zsum. apply changes_nonneg.
Qed.

Lemma quiet_pixel g s x y : wf_gray g -> 0 <= x < gw g -> 0 <= y < gh g -> changes (fun x => pix g x y) (gw g) < 4 -> quiet g y x s ->
  exists s', scan_pixel g s (x, y, pix g x y) = Ok s' /\ quiet g y (x + 1) s'.
Proof.
  intros HW Hx Hy HC [C0 HQ]. pose proof HW as (W1 & W2 & _). unfold scan_pixel. set (row := fun x => pix g x y) in *.
  change (pix g x y) with (row x).
  assert (exists last p, (if x =? 0 then (127%N, pattern_new) else (sc_last s, sc_pattern s)) = (last, p) /\ pat_ok x p /\
    (p6 p = 0 -> p = pattern_new) /\ (0 < x -> last = row (x - 1) /\ 1 <= p6 p /\ runs p <= 1 + changes row x) /\ (x = 0 -> p = pattern_new)) as (last & p & -> & HP & H6 & HR & HN).
  { destruct (Z.eqb_spec x 0) as [-> | N].
    - exists 127%N, pattern_new. split; [reflexivity|]. split; [apply pat_new; lia|]. split; [auto|]. split; [lia|auto].
    - destruct HQ as (A & B & C & D); [lia|]. exists (sc_last s), (sc_pattern s).
      split; [reflexivity|]. split; [exact A|]. split; [lia|]. split; [auto|lia]. }
  assert (HR0 : runs p <= 4 /\ (0 < x -> runs p <= 1 + changes row x)).
  { destruct (Z.eq_dec x 0) as [E0|N]; [rewrite (HN E0); change (runs pattern_new) with 0; split; lia|].
    destruct HR as (_ & _ & R); [lia|]. pose proof (changes_mono row x (gw g) ltac:(lia)). split; lia. }
  destruct HR0 as [HR4 HRx].
  assert (STEP : forall q q', pat_ok (x + 1) q -> runs q <= 4 -> slide q = Ok q' ->
     (l <- looks_like_finder q ;; candidates <- (if (l : bool) then scan_found g (sc_candidates s) q x y else Ok (sc_candidates s)) ;;
      p <- slide q ;; Ok (Scan candidates (row x) p)) = Ok (Scan [] (row x) q')).
  { intros q q' Q R S. destruct (looks_like_finder_exact (x + 1) q Q ltac:(lia)) as (b & E & _).
    rewrite E, (few_runs q (x + 1) b Q ltac:(lia) R E). cbn [bind]. rewrite S. cbn [bind]. now rewrite C0. }
  destruct (N.eqb_spec (row x) last) as [EQ|NE].
  - destruct (pattern_inc_ok x p HP ltac:(lia)) as (p' & E & HP2). rewrite E. cbn [bind].
    rewrite sub_Z_ok by lia. cbn [bind].
    assert (R' : runs p' <= 4 /\ 1 <= p6 p' /\ (1 <= x -> runs p' <= 1 + changes row x) /\ runs p' <= 1 + changes row x + 1).
    { destruct (Z.eq_dec x 0) as [E0|N].
      - rewrite (HN E0) in E. unfold pattern_inc in E. cbn in E. injection E as <-. pose proof (changes_nonneg row x).
        change (runs _) with 1. cbn [p6]. lia.
      - destruct HR as (_ & P6 & R); [lia|]. destruct (runs_inc p p' ltac:(lia) E) as [-> RI].
        lia. }
    destruct R' as (R4 & P6 & RX & _).
    destruct (Z.eqb_spec x (gw g - 1)) as [E1|N1]; cbn [andb negb].
    + destruct (slide_ok (x + 1) p' HP2 ltac:(lia)) as (q & EQ2 & _). rewrite (STEP p' q HP2 R4 EQ2).
      eexists. split; [reflexivity|]. split; [reflexivity|lia].
    + eexists. split; [reflexivity|]. split; [exact C0|]. cbn [sc_pattern sc_last]. intros _. 
      replace (x + 1 - 1) with x by lia. split; [exact HP2|]. split; [exact P6|]. split; [now symmetry|]. fold row.
      destruct (Z.eq_dec x 0) as [E0|N].
      * rewrite (HN E0) in E. unfold pattern_inc in E. cbn in E. injection E as <-. pose proof (changes_nonneg row (x + 1)).
        change (runs _) with 1. lia.
      * pose proof (changes_mono row x (x + 1) ltac:(lia)). lia.
  - cbn [bind andb]. destruct (slide_ok x p HP ltac:(lia)) as (q & EQ & HQ2).
    rewrite (STEP p q (pat_weaken x (x + 1) p HP ltac:(lia)) HR4 EQ).
    eexists. split; [reflexivity|]. split; [reflexivity|]. cbn [sc_pattern sc_last]. intros _.
    replace (x + 1 - 1) with x by lia. split; [exact HQ2|]. split; [exact (slide_p6 x p q HP H6 EQ)|]. split; [reflexivity|].
    pose proof (runs_slide x p q HP EQ).
    destruct (Z.eq_dec x 0) as [E0|N].
    + rewrite (HN E0) in *. change (runs pattern_new) with 0 in *. fold row. pose proof (changes_nonneg row (x + 1)). lia.
    + fold row. rewrite changes_succ by lia. destruct HR as (EL & _ & R); [lia|]. rewrite <- EL.
      destruct (N.eqb_spec (row x) last); [contradiction|]. lia.
Qed.

Theorem quiet_rows g : wf_gray g -> (forall y, 0 <= y < gh g -> changes (fun x => pix g x y) (gw g) < 4) ->
  find_candidates g = Ok [].
Proof.
  intros HW HC. pose proof HW as (W1 & W2 & _). unfold find_candidates. rewrite enumerate_pix by exact HW.
  rewrite foldM_map. unfold coords. rewrite <- foldM_flat_map.
  assert (exists s', foldM (fun s y => foldM (fun s xy => scan_pixel g s (let '(x, y) := xy in (x, y, pix g x y)))
      (map (fun x => (x, y)) (zrange 0 (gw g))) s) (zrange 0 (gh g)) (Scan [] 127%N pattern_new) = Ok s' /\ sc_candidates s' = []) as (s & E & S).
  { apply foldM_ok with (I := fun s => sc_candidates s = []); [reflexivity|].
    intros y s Hy HS. apply in_zrange in Hy. rewrite foldM_map.
    assert (K : forall n a s, 0 <= a -> a + Z.of_nat n = gw g -> quiet g y a s ->
      exists s', foldM (fun s x => scan_pixel g s (x, y, pix g x y)) (zrange a (gw g)) s = Ok s' /\ sc_candidates s' = []).
    { clear s HS. induction n as [|n IH]; intros a s Ha Hn HQ.
      - rewrite zrange_nil by lia. cbn [foldM]. exists s. split; [reflexivity|apply HQ].
      - rewrite zrange_cons by lia. cbn [foldM]. destruct (quiet_pixel g s a y HW ltac:(lia) Hy (HC y Hy) HQ) as (s1 & -> & H1).
        cbn [bind]. apply IH; auto; lia. }
    apply (K (Z.to_nat (gw g)) 0 s); [lia|lia|]. split; [exact HS|lia]. }
  cbv beta in E |- *. rewrite E. cbn [bind]. now rewrite S.
Qed.
