(** A test for decoys that works for modules of any size at once. *)
From Coq Require Import NArith ZArith List Lia Bool.
From Verif.Model Require Import Prepare.
From Verif.Spec Require Import Finder Decoy.
From Verif.Proofs Require Import BaseP PrepareP.
Import ListNotations.
Local Open Scope Z_scope.

(** the end of the run that starts at [a] *)
Fixpoint run_end (fuel : nat) (f : Z -> bool) (v : bool) (a : Z) : Z :=
  match fuel with O => a | S fuel => if Bool.eqb (f a) v then run_end fuel f v (a + 1) else a end.
Definition next (k : nat) (f : Z -> bool) (a : Z) : Z := run_end k f (f a) a.
Definition new (f : Z -> bool) (a : Z) : bool := negb (Bool.eqb (f (a - 1)) (f a)).

Definition stands (total k r : Z) : bool := 3 * Z.abs (k * total - 7 * r) <=? 2 * total.
Definition proportioned (a b c d e : Z) : bool :=
  let t := a + b + c + d + e in stands t 1 a && stands t 1 b && stands t 3 c && stands t 1 d && stands t 1 e.

(** three runs of a column can belong to a pattern about [K] modules high: as fractions, what its height is at least and at most *)
Definition lows (K i j l : Z) : list (Z * Z) := [(21 * j, 11); (21 * i, 5); (21 * l, 5); (79 * K, 100); (21 * (i + j + l), 19)].
Definition highs (K i j l : Z) : list (Z * Z) := [(3 * j, 1); (21 * i, 1); (21 * l, 1); (100 * K, 79); (21 * (i + j + l), 11)].
Definition fits (K i j l : Z) : bool := forallb (fun lo => forallb (fun hi => fst lo * snd hi <=? fst hi * snd lo) (highs K i j l)) (lows K i j l).

Definition column_fits (k : nat) (n : Z) (f : Z -> bool) (r K : Z) : bool :=
  existsb (fun a => new f a && (7 * r - 5 * K <=? 7 * a) &&
    let b := next k f a in let c := next k f b in let d := next k f c in (7 * d <=? 7 * (r + 1) + 5 * K) && fits K (b - a) (c - b) (d - c)) (zrange 0 (n + 1)).

Definition a_corner (corners : list (Z * Z)) (r a d : Z) : bool :=
  existsb (fun p => (fst p + 2 <=? r) && (r <? fst p + 5) && (a =? snd p + 1) && (d =? snd p + 6)) corners.

(** the paper is too wide for one of five runs *)
Definition paper_clear (k : nat) (n : Z) (f : Z -> bool) : bool :=
  forallb (fun a => negb (new f a) || let b := next k f a in let c := next k f b in let d := next k f c in
    (n <? d) || (5 * (c - b) <? 7 * (a + 4)) && (5 * (c - b) <? 7 * (n + 4 - d))) (zrange 0 (n + 1)).

(** five runs of modules *)
Definition row_clear (k : nat) (n : Z) (dark : Z -> Z -> bool) (corners : list (Z * Z)) (r : Z) : bool :=
  let f := dark r in
  forallb (fun a0 => negb (new f a0) ||
    let a := next k f a0 in let b := next k f a in let c := next k f b in let d := next k f c in let e := next k f d in
    (n <? e) || negb (proportioned (a - a0) (b - a) (c - b) (d - c) (e - d)) || a_corner corners r a d ||
    forallb (fun u => negb (column_fits k n (fun r => dark r u) r (e - a0))) (zrange ((a0 + e - 1) / 2) ((a0 + e) / 2 + 1))) (zrange 0 (n + 1)).

Definition steady_check (k : nat) (n : Z) (f : Z -> bool) : bool :=
  forallb (fun a => negb (new f a) || let b := next k f a in let c := next k f b in (n <? c) || (b - a <=? 10 * (c - b))) (zrange 0 (n + 1)).

Definition decoy_free (n : Z) (dark : Z -> Z -> bool) (corners : list (Z * Z)) : bool :=
  let k := Z.to_nat (n + 1) in
  forallb (fun r => steady_check k n (dark r) && steady_check k n (fun t => dark t r) && paper_clear k n (dark r) && row_clear k n dark corners r) (zrange 0 n).

(** the same test, which does not compute what it does not need *)
Local Notation "a ||? b" := (if a then true else b) (at level 50, left associativity).
Local Notation "a &&? b" := (if a then b else false) (at level 40, left associativity).
Definition column_fits_fast (k : nat) (n : Z) (f : Z -> bool) (r K : Z) : bool :=
  existsb (fun a => new f a &&? (7 * r - 5 * K <=? 7 * a) &&?
    let b := next k f a in let c := next k f b in let d := next k f c in (7 * d <=? 7 * (r + 1) + 5 * K) &&? fits K (b - a) (c - b) (d - c)) (zrange 0 (n + 1)).
Definition paper_clear_fast (k : nat) (n : Z) (f : Z -> bool) : bool :=
  forallb (fun a => negb (new f a) ||? let b := next k f a in let c := next k f b in let d := next k f c in
    (n <? d) || (5 * (c - b) <? 7 * (a + 4)) && (5 * (c - b) <? 7 * (n + 4 - d))) (zrange 0 (n + 1)).
Definition row_clear_fast (k : nat) (n : Z) (dark : Z -> Z -> bool) (corners : list (Z * Z)) (r : Z) : bool :=
  let f := dark r in
  forallb (fun a0 => negb (new f a0) ||?
    let a := next k f a0 in let b := next k f a in let c := next k f b in let d := next k f c in let e := next k f d in
    (n <? e) ||? negb (proportioned (a - a0) (b - a) (c - b) (d - c) (e - d)) ||? a_corner corners r a d ||?
    forallb (fun u => negb (column_fits_fast k n (fun r => dark r u) r (e - a0))) (zrange ((a0 + e - 1) / 2) ((a0 + e) / 2 + 1))) (zrange 0 (n + 1)).
Definition steady_check_fast (k : nat) (n : Z) (f : Z -> bool) : bool :=
  forallb (fun a => negb (new f a) ||? let b := next k f a in let c := next k f b in (n <? c) || (b - a <=? 10 * (c - b))) (zrange 0 (n + 1)).
Definition decoy_free_fast (n : Z) (dark : Z -> Z -> bool) (corners : list (Z * Z)) : bool :=
  let k := Z.to_nat (n + 1) in
  forallb (fun r => steady_check_fast k n (dark r) &&? steady_check_fast k n (fun t => dark t r) &&? paper_clear_fast k n (dark r) &&? row_clear_fast k n dark corners r) (zrange 0 n).
Lemma decoy_free_same n dark corners : decoy_free_fast n dark corners = decoy_free n dark corners.
Proof. reflexivity. Qed.

(** *** it is correct *)
Lemma in_zrange a b t : a <= t < b -> In t (zrange a b).
Proof. intros H. unfold zrange. apply in_map_iff. exists (Z.to_nat (t - a)). split; [lia|]. apply in_seq. lia. Qed.

Lemma run_end_ok k f a b v : a <= b -> b - a < Z.of_nat k -> (forall t, a <= t < b -> f t = v) -> f b <> v -> run_end k f v a = b.
Proof.
  revert a. induction k as [|k IH]; intros a HA HK HV HB; [lia|]. cbn [run_end]. destruct (Z.eq_dec a b) as [-> |N].
  - destruct (Bool.eqb (f b) v) eqn:E; [apply Bool.eqb_prop in E; congruence|reflexivity].
  - rewrite (HV a) by lia. rewrite Bool.eqb_reflx. apply IH; auto; [lia|lia|]. intros t Ht. apply HV. lia.
Qed.
Lemma next_ok k f a b : alike f a b -> f b <> f a -> b - a < Z.of_nat k -> next k f a = b.
Proof. intros (H & A) N HK. apply run_end_ok; auto. lia. Qed.
Lemma new_ok f a : f (a - 1) <> f a -> new f a = true.
Proof. intros H. unfold new. destruct (Bool.eqb (f (a - 1)) (f a)) eqn:E; [apply Bool.eqb_prop in E; congruence|reflexivity]. Qed.

Section Line.
Context (n : Z) (f : Z -> bool) (F0 : forall t, ~ 0 <= t < n -> f t = false) (Hn : 0 <= n).
Let k := Z.to_nat (n + 1).

Lemma new_in a : f (a - 1) <> f a -> 0 <= a <= n.
Proof.
  intros H. destruct (Z_lt_le_dec a 0); [rewrite !F0 in H by lia; congruence|]. destruct (Z_lt_le_dec n a); [rewrite !F0 in H by lia; congruence|lia].
Qed.
Lemma new_end a b : alike f a b -> f b <> f a -> f (b - 1) <> f b.
Proof. intros (H & A) N. rewrite (A (b - 1)) by lia. congruence. Qed.
Lemma next_in a b : alike f a b -> f b <> f a -> 0 <= a -> next k f a = b /\ b <= n.
Proof.
  intros A N H. pose proof (new_in b (new_end a b A N)) as B. split; [|lia]. apply next_ok; auto. pose proof (proj1 A). unfold k. lia.
Qed.

Lemma three_in a b c d : three_runs f a b c d -> 0 <= a /\ next k f a = b /\ next k f b = c /\ next k f c = d /\ d <= n /\ new f a = true.
Proof.
  intros (A & B & C & N0 & N1 & N2 & N3). pose proof (new_in a N0). pose proof (proj1 A). pose proof (proj1 B). pose proof (proj1 C).
  destruct (next_in a b A N1 ltac:(lia)). destruct (next_in b c B N2 ltac:(lia)). destruct (next_in c d C N3 ltac:(lia)).
  repeat (split; [lia|]). now apply new_ok.
Qed.

Lemma steady_ok : steady_check k n f = true -> steady_modules f.
Proof.
  intros H a b c A B N0 N1 N2. pose proof (new_in a N0) as IA. pose proof (proj1 A). unfold steady_check in H. rewrite forallb_forall in H.
  specialize (H a (in_zrange 0 (n + 1) a ltac:(lia))). rewrite (new_ok f a N0) in H. cbn [negb orb] in H.
  destruct (next_in a b A N1 ltac:(lia)) as [E1 ?]. destruct (next_in b c B N2 ltac:(lia)) as [E ?]. cbv zeta in H. rewrite E1, E in H.
  apply orb_true_iff in H as [H|H]; [apply Z.ltb_lt in H; lia|apply Z.leb_le in H; exact H].
Qed.
End Line.

Lemma stands_ok m total q r : 0 < m -> stands_for (m * total) q (m * r) -> stands total q r = true.
Proof.
  unfold stands_for, stands. intros Hm H. apply Z.leb_le. replace (q * (m * total) - 7 * (m * r)) with (m * (q * total - 7 * r)) in H by ring.
  rewrite Z.abs_mul, (Z.abs_eq m) in H by lia. apply (Zmult_lt_0_le_reg_r _ _ m); lia.
Qed.
Lemma proportioned_ok m a b c d e : 0 < m -> in_proportion (m * a) (m * b) (m * c) (m * d) (m * e) -> proportioned a b c d e = true.
Proof.
  unfold in_proportion, proportioned. cbv zeta. intros Hm. replace (m * a + m * b + m * c + m * d + m * e) with (m * (a + b + c + d + e)) by ring.
  intros (H1 & H2 & H3 & H4 & H5). rewrite (stands_ok m _ 1 a Hm H1), (stands_ok m _ 1 b Hm H2), (stands_ok m _ 3 c Hm H3), (stands_ok m _ 1 d Hm H4), (stands_ok m _ 1 e Hm H5). reflexivity.
Qed.

Lemma proportion_bounds a b c d e : let T := a + b + c + d + e in in_proportion a b c d e ->
  (T <= 21 * a /\ 21 * a <= 5 * T) /\ (T <= 21 * b /\ 21 * b <= 5 * T) /\ (T <= 3 * c /\ 21 * c <= 11 * T) /\ (T <= 21 * d /\ 21 * d <= 5 * T) /\ (T <= 21 * e /\ 21 * e <= 5 * T).
Proof. unfold in_proportion, stands_for. cbv zeta. intros. lia. Qed.

Lemma cross_mul m T lo dl hi dh : 0 < m -> 0 < dl -> 0 < dh -> lo * m <= T * dl -> T * dh <= hi * m -> lo * dh <= hi * dl.
Proof.
  intros Hm H1 H2 A B. apply (Zmult_lt_0_le_reg_r _ _ m Hm). apply Z.le_trans with (T * dl * dh).
  - replace (lo * dh * m) with (lo * m * dh) by ring. apply Z.mul_le_mono_nonneg_r; lia.
  - replace (T * dl * dh) with (T * dh * dl) by ring. replace (hi * dl * m) with (hi * m * dl) by ring. apply Z.mul_le_mono_nonneg_r; lia.
Qed.

Lemma fits_ok m K i j l s t : 0 < m -> in_proportion s (m * i) (m * j) (m * l) t -> let T := s + m * (i + j + l) + t in
  79 * (m * K) <= 100 * T -> 79 * T <= 100 * (m * K) -> fits K i j l = true.
Proof.
  intros Hm HP T H1 H2. apply proportion_bounds in HP. replace (s + m * i + m * j + m * l + t) with T in HP by (unfold T; ring).
  assert (ET : T = s + m * (i + j + l) + t) by reflexivity. clearbody T.
  assert (LO : forall lo, In lo (lows K i j l) -> 0 < snd lo /\ fst lo * m <= T * snd lo).
  { intros lo Hl. unfold lows in Hl. cbn [In] in Hl. decompose [or] Hl; try tauto; subst lo; cbn [fst snd]; split; lia. }
  assert (HI : forall hi, In hi (highs K i j l) -> 0 < snd hi /\ T * snd hi <= fst hi * m).
  { intros hi Hl. unfold highs in Hl. cbn [In] in Hl. decompose [or] Hl; try tauto; subst hi; cbn [fst snd]; split; lia. }
  unfold fits. apply forallb_forall. intros lo Hlo. apply forallb_forall. intros hi Hhi. apply Z.leb_le.
  destruct (LO lo Hlo), (HI hi Hhi). now apply (cross_mul m T).
Qed.

Theorem decoy_free_ok m n dark corners : 2 <= m -> 0 <= n -> (forall r c, ~ (0 <= r < n /\ 0 <= c < n) -> dark r c = false) -> decoy_free n dark corners = true ->
  (forall r, 0 <= r < n -> steady_modules (dark r)) /\ (forall c, 0 <= c < n -> steady_modules (fun r => dark r c)) /\ only_finders m n dark corners.
Proof.
  intros Hm Hn HD HC. unfold decoy_free in HC. cbv zeta in HC. rewrite forallb_forall in HC. set (k := Z.to_nat (n + 1)) in HC.
  assert (CK : forall r, 0 <= r < n -> steady_check k n (dark r) = true /\ steady_check k n (fun t => dark t r) = true /\ paper_clear k n (dark r) = true /\ row_clear k n dark corners r = true).
  { intros r Hr. specialize (HC r (in_zrange 0 n r Hr)). rewrite !andb_true_iff in HC. tauto. } clear HC.
  split; [|split].
  - intros r Hr. apply (steady_ok n); [intros; apply HD; lia|exact Hn|apply CK, Hr].
  - intros c Hc. apply (steady_ok n); [intros; apply HD; lia|exact Hn|apply CK, Hc].
  - intros r a b c d (p & q & u & a' & b' & c' & d' & s & t & TR & RB & RA & IP & U1 & U2 & TC & S0 & T0 & IP2 & B1 & B2 & S1 & S2).
    assert (F0 : forall t, ~ 0 <= t < n -> dark r t = false) by (intros; apply HD; lia).
    assert (Hr : 0 <= r < n).
    { destruct (Z_lt_le_dec r 0); [|destruct (Z_lt_le_dec r n); [lia|]]; destruct TR as (_ & _ & _ & N0 & _); rewrite !HD in N0 by lia; congruence. }
    destruct (CK r Hr) as (_ & _ & PC & RC). pose proof (three_in n (dark r) F0 Hn a b c d TR) as (A0 & NB & NC & ND & DN & NW). fold k in NB, NC, ND.
    pose proof TR as ((AB & _) & (BC & _) & (CD & _) & _ & _ & _ & ND3).
    unfold paper_clear in PC. rewrite forallb_forall in PC. specialize (PC a (in_zrange 0 (n + 1) a ltac:(lia))). rewrite NW in PC. cbn [negb orb] in PC. cbv zeta in PC. rewrite NB, NC, ND in PC.
    apply orb_true_iff in PC as [PC|PC]; [apply Z.ltb_lt in PC; lia|]. apply andb_true_iff in PC as [P1 P2]. apply Z.ltb_lt in P1, P2.
    pose proof (proportion_bounds _ _ _ _ _ IP) as PB. cbv zeta in PB.
    destruct RB as [(a0 & AL & NA & ->)|(_ & RB)].
    2: { exfalso. assert (7 * (m * (a + 4)) <= 5 * (m * (c - b))) by lia. assert (m * (5 * (c - b)) < m * (7 * (a + 4))) by (apply Z.mul_lt_mono_pos_l; lia). lia. }
    destruct RA as [(e & AE & NE & ->)|(_ & RA)].
    2: { exfalso. assert (7 * (m * (n + 4 - d)) <= 5 * (m * (c - b))) by lia. assert (m * (5 * (c - b)) < m * (7 * (n + 4 - d))) by (apply Z.mul_lt_mono_pos_l; lia). lia. }
    pose proof (new_in n (dark r) F0 a0 NA) as IA. assert (NA0 : dark r a <> dark r a0).
    { destruct TR as (_ & _ & _ & N0 & _). destruct AL as (LA & AL). rewrite (AL (a - 1)) in N0 by lia. congruence. }
    destruct (next_in n (dark r) F0 Hn a0 a AL NA0 ltac:(lia)) as [NX _]. destruct (next_in n (dark r) F0 Hn d e AE NE ltac:(lia)) as [NXE EN]. fold k in NX, NXE.
    pose proof (proj1 AL). pose proof (proj1 AE).
    unfold row_clear in RC. cbv zeta in RC. rewrite forallb_forall in RC. specialize (RC a0 (in_zrange 0 (n + 1) a0 ltac:(lia))). rewrite (new_ok _ _ NA) in RC. cbn [negb orb] in RC.
    rewrite NX, NB, NC, ND, NXE in RC. rewrite (proportioned_ok m (a - a0) (b - a) (c - b) (d - c) (e - d) ltac:(lia) IP) in RC. cbn [negb] in RC. rewrite orb_false_r in RC.
    rewrite !orb_true_iff in RC. destruct RC as [[RC|RC]|RC]; [apply Z.ltb_lt in RC; lia| |exfalso].
    + unfold a_corner in RC. apply existsb_exists in RC as ((row & column) & HI & RC). cbn [fst snd] in RC. rewrite !andb_true_iff, Z.leb_le, Z.ltb_lt, !Z.eqb_eq in RC. exists row, column. tauto.
    + set (K := e - a0) in *. replace (m * (a - a0) + m * (d - a) + m * (e - d)) with (m * K) in * by (unfold K; ring).
      rewrite forallb_forall in RC. assert (HU : (a0 + e - 1) / 2 <= u < (a0 + e) / 2 + 1).
      { replace (m * (a + d) + (m * (e - d) - m * (a - a0))) with (m * (a0 + e)) in U1, U2 by ring.
        assert (X1 : 2 * u <= a0 + e) by (clear - U1 Hm; nia). assert (X2 : a0 + e <= 2 * (u + 1)) by (clear - U2 Hm; nia).
        pose proof (Z.div_mod (a0 + e - 1) 2 ltac:(lia)). pose proof (Z.mod_pos_bound (a0 + e - 1) 2 ltac:(lia)).
        pose proof (Z.div_mod (a0 + e) 2 ltac:(lia)). pose proof (Z.mod_pos_bound (a0 + e) 2 ltac:(lia)). lia. }
      specialize (RC u (in_zrange _ _ u HU)). apply negb_true_iff in RC. rewrite <- not_true_iff_false in RC. apply RC. clear RC.
      assert (F1 : forall t, ~ 0 <= t < n -> dark t u = false) by (intros; apply HD; lia).
      pose proof (three_in n (fun t => dark t u) F1 Hn a' b' c' d' TC) as (A0' & NB' & NC' & ND' & DN' & NW'). fold k in NB', NC', ND'.
      pose proof TC as ((AB' & _) & (BC' & _) & (CD' & _) & _).
      unfold column_fits. apply existsb_exists. exists a'. split; [apply in_zrange; lia|]. cbv zeta. rewrite NW', NB', NC', ND'. cbn [andb]. rewrite !andb_true_iff, !Z.leb_le. split; [|split].
      * apply (Zmult_lt_0_le_reg_r _ _ m); lia.
      * apply (Zmult_lt_0_le_reg_r _ _ m); lia.
      * apply (fits_ok m K (b' - a') (c' - b') (d' - c') s t); [lia|exact IP2| |]; replace (b' - a' + (c' - b') + (d' - c')) with (d' - a') by ring; assumption.
Qed.
