(** correct.rs: every run, in terms of the field. *)
From Coq Require Import Lia Ring Field Arith Bool List NArith.
From Verif.Model Require Import Correct.
From Verif.Spec Require Import GF256 RS.
From Verif.Proofs Require Import BaseP GaloisP PolyP SolveP LinearP NewtonP HankelP.
Import ListNotations.
Local Open Scope nat_scope.

(** *** Bytes as field elements *)
Lemma lift_bytes (l : list N) : Forall (fun a => (a < 256)%N) l -> exists b, l = map gv b.
Proof.
  induction 1 as [|a l Ha _ [b ->]]; [now exists []|].
  exists (mk a Ha :: b). reflexivity.
Qed.

Lemma gv_g0 a : gv a = 0%N <-> a = g0.
Proof. split; [intros H; now apply gv_inj|intros ->; reflexivity]. Qed.

(** *** Syndromes *)
Lemma syndrome_loop base cs : forall s a,
  fst (fold_left (fun '(synd, alpha) codeword => (gf8_add synd (gf8_mul alpha codeword), gf8_mul alpha (gv base)))
        (map gv cs) (gv s, gv a)) = gv (s + a * peval cs base)%G.
Proof.
  induction cs as [|c cs IH]; intros s a; cbn [map fold_left].
  - cbn [fst peval]. f_equal. ring.
  - rewrite <- gv_mul, <- gv_add, <- gv_mul, IH. cbn [peval]. f_equal. ring.
Qed.

Lemma syndrome_gv b base : syndrome (map gv b) (gv base) = gv (peval (rev b) base).
Proof.
  unfold syndrome. rewrite <- map_rev. change 0%N with (gv g0). change 1%N with (gv g1).
  rewrite syndrome_loop. f_equal. ring.
Qed.

Lemma value_at_gv b x : value_at (map gv b) (gv x) = gv (peval (rev b) x).
Proof.
  unfold value_at.
  assert (H : forall b acc, fold_left (fun acc c => N.lxor (fmul acc (gv x)) c) (map gv b) (gv acc)
                            = gv (gpow x (length b) * acc + peval (rev b) x)%G).
  { clear. induction b as [|c b IH]; intros acc; cbn [map fold_left rev length].
    - cbn [peval gpow]. f_equal. ring.
    - rewrite fmul_gf8 by apply gv_lt. rewrite <- gv_mul. change N.lxor with gf8_add. rewrite <- gv_add, IH.
      f_equal. rewrite peval_app, rev_length. cbn [peval gpow]. ring. }
  change 0%N with (gv g0). rewrite H. f_equal. ring.
Qed.

Definition synd_at (b : list gf) (i : nat) : gf := peval (rev b) (alpha i).

Lemma codeword_gv r b : codeword r (map gv b) <-> forall i, i < r -> synd_at b i = g0.
Proof.
  unfold codeword, synd_at. split; intros H i Hi; specialize (H i Hi).
  - rewrite fpow_alpha, value_at_gv in H. now apply gv_g0.
  - now rewrite fpow_alpha, value_at_gv, H.
Qed.

Lemma calculate_syndromes_ok b bi : 2 * ec_cap bi <= 255 ->
  calculate_syndromes (map gv b) bi =
  Ok (forallb (fun i => (gv (synd_at b i) =? 0)%N) (seq 0 (2 * ec_cap bi)),
      map (fun i => gv (synd_at b i)) (seq 0 (2 * ec_cap bi))).
Proof.
  intros Hz. unfold calculate_syndromes. rewrite (Nat.mul_comm (ec_cap bi)). set (m := 2 * ec_cap bi) in *.
  unfold range. rewrite Nat.sub_0_r.
  set (f := fun '(all_fine, syndromes) i => _).
  assert (H : forall n k (pre : list N) fine, length pre = k -> k + n <= m ->
    foldM f (seq k n) (fine, pre ++ repeat 0%N n) =
    Ok (fine && forallb (fun i => (gv (synd_at b i) =? 0)%N) (seq k n),
        pre ++ map (fun i => gv (synd_at b i)) (seq k n))).
  { induction n as [|n IH]; intros k pre fine HL Hk; cbn [seq foldM repeat map forallb].
    - now rewrite andb_true_r.
    - unfold f at 1. rewrite get_EXP8 by lia. cbn [bind].
      rewrite syndrome_gv. fold (synd_at b k).
      rewrite set_ok by (rewrite app_length; cbn [length]; lia). cbn [bind].
      assert (EU : update (pre ++ 0%N :: repeat 0%N n) k (gv (synd_at b k))
                   = (pre ++ [gv (synd_at b k)]) ++ repeat 0%N n).
      { rewrite <- app_assoc. cbn [app]. rewrite <- HL at 1. generalize (gv (synd_at b k)). clear. intros w.
        induction pre as [|a pre IH]; cbn [app length update]; [reflexivity|]. now rewrite IH. }
      rewrite EU. rewrite (get_ok _ k (gv (synd_at b k))).
      2:{ rewrite <- app_assoc. rewrite nth_error_app2 by lia. rewrite HL, Nat.sub_diag. reflexivity. }
      cbn [bind]. rewrite IH.
      + f_equal. f_equal.
        * destruct (N.eqb (gv (synd_at b k)) 0), fine; reflexivity.
        * now rewrite <- app_assoc.
      + rewrite app_length. cbn [length]. lia.
      + lia. }
  apply (H m 0 [] true); auto.
Qed.

Lemma forallb_synd b m : forallb (fun i => (gv (synd_at b i) =? 0)%N) (seq 0 m) = true
  <-> forall i, i < m -> synd_at b i = g0.
Proof.
  rewrite forallb_forall. split; intros H i Hi.
  - specialize (H i ltac:(apply in_seq; lia)). apply N.eqb_eq in H. now apply gv_g0.
  - apply in_seq in Hi. apply N.eqb_eq, gv_g0, H. lia.
Qed.

(** *** Locations *)
Lemma firstn_seq_map {A} (f : nat -> A) a n m : a + n <= m ->
  firstn n (skipn a (map f (seq 0 m))) = map f (seq a n).
Proof.
  intros H. rewrite skipn_map, firstn_map. f_equal.
  replace m with (a + (n + (m - a - n))) by lia. rewrite seq_app, skipn_app, seq_length, Nat.sub_diag.
  rewrite skipn_all2 by (rewrite seq_length; lia). cbn [skipn app plus].
  rewrite seq_app, firstn_app, seq_length, Nat.sub_diag. cbn [firstn]. rewrite app_nil_r.
  apply firstn_all2. now rewrite seq_length.
Qed.

Lemma syndrome_matrix_rep z (S : nat -> gf) M : (forall i j, i < z -> j <= z -> M i j = S (i + j)) ->
  exists eq, syndrome_matrix z (map (fun i => gv (S i)) (seq 0 (2 * z))) = Ok eq /\ rep eq M z (Datatypes.S z).
Proof.
  intros HM. unfold syndrome_matrix.
  rewrite (mapM_pure _ (fun i => map (fun i => gv (S i)) (seq i (Datatypes.S z)))).
  2:{ intros i Hi. apply in_range_iff in Hi. rewrite slice_ok.
      - f_equal. replace (z + 1 + i - i) with (Datatypes.S z) by lia. apply firstn_seq_map. lia.
      - lia.
      - rewrite map_length, seq_length. lia. }
  eexists. split; [reflexivity|]. split.
  - now rewrite map_length, range_length, Nat.sub_0_r.
  - intros i Hi. eexists. split.
    + unfold range. rewrite Nat.sub_0_r. erewrite map_nth_error; [reflexivity|].
      rewrite (nth_error_nth' _ 0) by (now rewrite seq_length). now rewrite seq_nth.
    + split; [now rewrite map_length, seq_length|].
      intros j Hj. erewrite map_nth_error.
      2:{ rewrite (nth_error_nth' _ 0) by (now rewrite seq_length). rewrite seq_nth by auto. reflexivity. }
      now rewrite HM by lia.
Qed.

Lemma check_value_ok z s v x : 0 < z -> vrep v s z -> check_value v (gv x) = Ok (gv (sigma z s x)).
Proof.
  intros Hz [HL HV]. unfold check_value. rewrite (get_ok v 0 _ (HV 0 Hz)). cbn [bind].
  assert (E : skipn 1 v = map (fun i => gv (s i)) (seq 1 (z - 1))).
  { destruct v as [|v0 v]; [simpl in HL; lia|]. cbn [skipn].
    assert (HV' : forall i, i < z - 1 -> nth_error v i = Some (gv (s (1 + i)))) by (intros i Hi; apply (HV (Datatypes.S i)); lia).
    assert (HL' : length v = z - 1) by (simpl in HL; lia). rewrite <- HL' in *. clear HL HV HL'.
    generalize 1 HV'. clear. induction v as [|a v IH]; intros k H; [reflexivity|]. cbn [length seq map]. f_equal.
    - specialize (H 0 ltac:(simpl; lia)). rewrite Nat.add_0_r in H. now injection H.
    - apply IH. intros i Hi. specialize (H (Datatypes.S i) ltac:(simpl; lia)). cbn [nth_error] in H.
      rewrite H. do 3 f_equal. lia. }
  rewrite E.
  assert (HF : forall n k acc,
    fold_left (fun '(v, x0) s => (gf8_add v (gf8_mul x0 s), gf8_mul x0 (gv x)))
      (map (fun i => gv (s i)) (seq k n)) (gv acc, gv (gpow x k)) =
    (gv (acc + gsum n (fun j => s (k + j)%nat * gpow x (k + j)))%G, gv (gpow x (k + n)))).
  { induction n as [|n IH]; intros k acc; cbn [seq map fold_left].
    - rewrite Nat.add_0_r. cbn [gsum]. do 2 f_equal. ring.
    - rewrite <- !gv_mul, <- gv_add.
      replace (gpow x k * x)%G with (gpow x (Datatypes.S k)) by (cbn [gpow]; ring). rewrite IH.
      f_equal; [|now rewrite Nat.add_succ_r].
      f_equal. rewrite gsum_first, Nat.add_0_r.
      rewrite (gsum_ext n (fun j => s (Datatypes.S k + j)%nat * gpow x (Datatypes.S k + j))%G
                          (fun i => s (k + Datatypes.S i)%nat * gpow x (k + Datatypes.S i))%G).
      + ring.
      + intros j _. now rewrite Nat.add_succ_r. }
  specialize (HF (z - 1) 1 (s 0)).
  replace (gv (gpow x 1)) with (gv x) in HF by (f_equal; cbn [gpow]; ring).
  rewrite HF. cbn beta iota. rewrite <- gv_add. unfold sigma. do 2 f_equal.
  replace (1 + (z - 1)) with z by lia. f_equal.
  replace z with (Datatypes.S (z - 1)) at 2 by lia. rewrite gsum_first.
  cbn [gpow plus]. ring.
Qed.

Definition is_root (P : gf -> gf) (i : nat) : bool := if gf_eq_dec (P (alpha i)) g0 then true else false.

Definition loc_list (total : nat) (P : gf -> gf) : list nat := filter (is_root P) (seq 0 total).

Lemma find_locs_ok b bi M : 0 < ec_cap bi -> total_per bi <= 255 ->
  (forall i j, i < ec_cap bi -> j <= ec_cap bi -> M i j = synd_at b (i + j)) ->
  exists s, (forall i, i < ec_cap bi -> row_ok (steps (ec_cap bi) M) (ec_cap bi) s i) /\
    find_locs bi (map (fun i => gv (synd_at b i)) (seq 0 (2 * ec_cap bi)))
    = Ok (loc_list (total_per bi) (sigma (ec_cap bi) s)).
Proof.
  intros Hz Ht HM. set (z := ec_cap bi) in *.
  destruct (syndrome_matrix_rep z (synd_at b) M HM) as (eq & E1 & HR).
  destruct (solve_rep eq M z Hz HR) as (v & s & E2 & HV & HO).
  exists s. split; auto. unfold find_locs. fold z. rewrite E1. cbn [bind]. rewrite E2. cbn [bind ok_or].
  replace (Nat.min (total_per bi) (length EXP8)) with (total_per bi)
    by (replace (length EXP8) with 256 by (vm_compute; reflexivity); lia).
  unfold range. rewrite Nat.sub_0_r.
  set (f := fun locs i => _).
  assert (H : forall l acc, (forall i, In i l -> i < 255) ->
    foldM f l acc = Ok (acc ++ filter (is_root (sigma z s)) l)).
  { induction l as [|i l IH]; intros acc Hl; cbn [foldM filter].
    - now rewrite app_nil_r.
    - unfold f at 1. rewrite get_EXP8 by (specialize (Hl i (or_introl eq_refl)); lia). cbn [bind].
      rewrite (check_value_ok z s v (alpha i) Hz HV). cbn [bind].
      rewrite IH by (intros; apply Hl; now right). unfold is_root at 2.
      destruct (gf_eq_dec (sigma z s (alpha i)) g0) as [E|E].
      + rewrite E. change (gv g0 =? 0)%N with true. cbv iota. now rewrite <- app_assoc.
      + destruct (N.eqb_spec (gv (sigma z s (alpha i))) 0) as [E'|E']; [now apply gv_g0 in E'|reflexivity]. }
  apply (H (seq 0 (total_per bi)) []). intros i Hi. apply in_seq in Hi. lia.
Qed.

(** *** Distances *)
Lemma alpha_mod i : alpha (i mod 255) = alpha i.
Proof.
  apply gv_inj. unfold alpha. rewrite !gv_mk. f_equal. rewrite Nat2N.inj_mod.
  apply N.mod_mod. discriminate.
Qed.

Lemma distance_matrix_rep (S : nat -> gf) m locs V : length locs <= m ->
  (forall i, In i locs -> i < 255) ->
  (forall i j, i < length locs -> j < length locs -> V i j = gpow (alpha (nth j locs 0)) i) ->
  (forall i, i < length locs -> V i (length locs) = S i) ->
  exists eq, distance_matrix (map (fun i => gv (S i)) (seq 0 m)) locs = Ok eq
             /\ rep eq V (length locs) (Datatypes.S (length locs)).
Proof.
  intros Hm HL HV HS. unfold distance_matrix. set (n := length locs) in *.
  rewrite (mapM_pure _ (fun i => map (fun j => gv (V i j)) (seq 0 n) ++ [gv (V i n)])).
  2:{ intros i Hi. apply in_range_iff in Hi.
      rewrite (mapM_pure _ (fun j => gv (V i j))).
      - cbn [bind]. erewrite get_ok.
        2:{ erewrite map_nth_error; [reflexivity|]. rewrite (nth_error_nth' _ 0) by (rewrite seq_length; lia).
            rewrite seq_nth by lia. reflexivity. }
        cbn [bind plus]. rewrite HS by lia. unfold range. now rewrite Nat.sub_0_r.
      - intros j Hj. apply in_range_iff in Hj. rewrite (get_nth locs j 0) by (fold n; lia). cbn [bind].
        rewrite get_EXP8 by (pose proof (Nat.mod_upper_bound (i * nth j locs 0) 255 ltac:(lia)); lia).
        now rewrite HV, alpha_mod, alpha_pow by lia. }
  eexists. split; [reflexivity|]. split.
  - rewrite map_length, range_length. lia.
  - intros i Hi. eexists. split.
    + unfold range. rewrite Nat.sub_0_r. erewrite map_nth_error; [reflexivity|].
      rewrite (nth_error_nth' _ 0) by (rewrite seq_length; lia). now rewrite seq_nth.
    + split; [rewrite app_length, map_length, seq_length; cbn [length]; lia|].
      intros j Hj. cbn [plus]. destruct (Nat.eq_dec j n) as [->|Hn].
      * rewrite nth_error_app2 by (rewrite map_length, seq_length; lia).
        rewrite map_length, seq_length, Nat.sub_diag. reflexivity.
      * rewrite nth_error_app1 by (rewrite map_length, seq_length; lia).
        erewrite map_nth_error; [reflexivity|]. rewrite (nth_error_nth' _ 0) by (rewrite seq_length; lia).
        rewrite seq_nth by lia. reflexivity.
Qed.

(** *** Applying the corrections *)
Fixpoint patch (total : nat) (b : list gf) (c : list (nat * gf)) : list gf :=
  match c with
  | [] => b
  | (l, d) :: c => patch total (update b (total - 1 - l) (nth (total - 1 - l) b g0 + d)%G) c
  end.
Fixpoint weight (c : list (nat * gf)) : N :=
  match c with [] => 0%N | (_, d) :: c => (ones (gv d) + weight c)%N end.

Lemma count_ones_ones n : count_ones n = ones n.
Proof.
  destruct n as [|p]; [reflexivity|]. cbn [count_ones ones].
  induction p as [p IH|p IH|]; cbn [pos_ones ones_pos]; auto. rewrite IH. lia.
Qed.

Lemma map_update {A B} (f : A -> B) l i a : map f (update l i a) = update (map f l) i (f a).
Proof. revert i. induction l as [|x l IH]; intros [|i]; cbn [update map]; auto. now rewrite IH. Qed.

Lemma apply_ok bi locs v x b : length b = total_per bi -> vrep v x (length locs) ->
  (forall l, In l locs -> l < total_per bi) ->
  apply_corrections bi locs v (map gv b) =
  Ok (map gv (patch (total_per bi) b (combine locs (map x (seq 0 (length locs))))),
      weight (combine locs (map x (seq 0 (length locs))))).
Proof.
  intros HB [HL HV] HI. unfold apply_corrections, range. rewrite Nat.sub_0_r.
  set (t := total_per bi) in *.
  set (f := fun '(block, error_count) i => _).
  assert (H : forall rest pre b acc, locs = pre ++ rest -> length b = t ->
    foldM f (seq (length pre) (length rest)) (map gv b, acc) =
    Ok (map gv (patch t b (combine rest (map x (seq (length pre) (length rest))))),
        (acc + weight (combine rest (map x (seq (length pre) (length rest)))))%N)).
  { induction rest as [|l rest IH]; intros pre b' acc HP HB'; cbn [length seq foldM map combine patch weight].
    - now rewrite N.add_0_r.
    - assert (Hl : l < t) by (apply HI; rewrite HP; apply in_app_iff; right; now left).
      unfold f at 1.
      rewrite (get_ok locs _ l) by (rewrite HP, nth_error_app2, Nat.sub_diag by lia; reflexivity).
      cbn [bind]. rewrite !sub_nat_ok by lia. cbn [bind].
      rewrite sub_nat_ok by lia. cbn [bind].
      rewrite (get_ok v _ _ (HV (length pre) ltac:(rewrite HP, app_length; cbn [length]; lia))). cbn [bind].
      rewrite (get_nth (map gv b') (t - 1 - l) (gv g0)) by (rewrite map_length; lia). cbn [bind].
      rewrite set_ok by (rewrite map_length; lia). cbn [bind].
      rewrite map_nth, count_ones_ones.
      change (N.lxor (gv (nth (t - 1 - l) b' g0)) (gv (x (length pre))))
        with (gv (nth (t - 1 - l) b' g0 + x (length pre))%G).
      rewrite <- map_update.
      specialize (IH (pre ++ [l]) (update b' (t - 1 - l) (nth (t - 1 - l) b' g0 + x (length pre))%G)
                     (acc + ones (gv (x (length pre))))%N).
      rewrite app_length in IH. cbn [length] in IH. rewrite Nat.add_1_r in IH. rewrite IH.
      + do 2 f_equal. lia.
      + rewrite HP, <- app_assoc. reflexivity.
      + now rewrite update_length. }
  specialize (H locs [] b 0%N eq_refl HB). cbn [length] in H. rewrite H. reflexivity.
Qed.

Lemma patch_length t c : forall b, length (patch t b c) = length b.
Proof. induction c as [|[l d] c IH]; intros b; cbn [patch]; auto. rewrite IH. apply update_length. Qed.

Lemma nth_update {A} (l : list A) i j a d : i < length l ->
  nth j (update l i a) d = if j =? i then a else nth j l d.
Proof.
  revert i j. induction l as [|x l IH]; intros [|i] [|j] H; cbn [length] in H; cbn [update nth Nat.eqb]; try lia; auto.
  apply IH. lia.
Qed.

Fixpoint at_loc (c : list (nat * gf)) (l : nat) : gf :=
  match c with [] => g0 | (k, d) :: c => ((if k =? l then d else g0) + at_loc c l)%G end.

Lemma patch_nth t c : forall b i, length b = t -> (forall l d, In (l, d) c -> l < t) -> i < t ->
  nth (t - 1 - i) (patch t b c) g0 = (nth (t - 1 - i) b g0 + at_loc c i)%G.
Proof.
  induction c as [|[l d] c IH]; intros b i HB HI Hi; cbn [patch at_loc]; [ring|].
  rewrite IH; [|now rewrite update_length|intros; eapply HI; right; eauto|auto].
  assert (Hl : l < t) by (eapply HI; left; reflexivity).
  rewrite nth_update by lia.
  destruct (Nat.eqb_spec l i) as [->|Hn].
  - rewrite Nat.eqb_refl. ring.
  - destruct (Nat.eqb_spec (t - 1 - i) (t - 1 - l)) as [E|E]; [lia|]. ring.
Qed.

Lemma bit_distance_self a : bit_distance a a = 0%N.
Proof. induction a as [|x a IH]; cbn [bit_distance]; auto. now rewrite N.lxor_nilpotent, IH. Qed.

Lemma bit_distance_update a : forall b i d, i < length b -> length a = length b -> nth i a 0%N = nth i b 0%N ->
  bit_distance a (update b i (N.lxor (nth i b 0%N) d)) = (bit_distance a b + ones d)%N.
Proof.
  induction a as [|x a IH]; intros [|y b] [|i] d Hi HL HE; cbn [length] in *; try lia; cbn [update nth bit_distance] in *.
  - subst y. rewrite <- N.lxor_assoc, N.lxor_nilpotent, N.lxor_0_l. cbn [ones]. lia.
  - rewrite IH by (auto; lia). lia.
Qed.

Lemma patch_bits t c : forall b0 b, length b0 = t -> length b = t -> NoDup (map fst c) ->
  (forall l d, In (l, d) c -> l < t /\ nth (t - 1 - l) b0 g0 = nth (t - 1 - l) b g0) ->
  bit_distance (map gv b0) (map gv (patch t b c)) = (bit_distance (map gv b0) (map gv b) + weight c)%N.
Proof.
  induction c as [|[l d] c IH]; intros b0 b H0 HB HN HI; cbn [patch weight]; [lia|].
  cbn [map fst] in HN. inversion HN as [|? ? HN1 HN2]; subst.
  destruct (HI l d (or_introl eq_refl)) as [Hl E].
  rewrite IH; auto.
  - rewrite map_update. rewrite gv_add. change gf8_add with N.lxor.
    change (gv (nth (length b0 - 1 - l) b g0)) with (gv (nth (length b0 - 1 - l) b g0)).
    replace (gv (nth (length b0 - 1 - l) b g0)) with (nth (length b0 - 1 - l) (map gv b) 0%N)
      by (change 0%N with (gv g0); apply map_nth).
    rewrite bit_distance_update.
    + lia.
    + rewrite map_length. lia.
    + rewrite !map_length. lia.
    + change 0%N with (gv g0). rewrite !map_nth. now rewrite E.
  - now rewrite update_length.
  - intros l' d' HI'. destruct (HI l' d' (or_intror HI')) as [Hl' E']. split; auto.
    rewrite nth_update by lia. destruct (Nat.eqb_spec (length b0 - 1 - l') (length b0 - 1 - l)) as [EQ|]; auto.
    assert (l' = l) by lia. subst l'. exfalso. apply HN1. apply in_map_iff. exists (l, d'). auto.
Qed.

(** *** A complete run *)
Definition table_like (bi : block_info_t) : Prop :=
  0 < ec_cap bi /\ 2 * ec_cap bi <= 255 /\ total_per bi <= 255.

Inductive run (bi : block_info_t) (b : list gf) : res (list N * N) -> Prop :=
| run_clean : (forall i, i < 2 * ec_cap bi -> synd_at b i = g0) -> run bi b (Ok (map gv b, 0%N))
| run_no_locs s :
    (exists i, i < 2 * ec_cap bi /\ synd_at b i <> g0) ->
    (forall M, (forall i j, i < ec_cap bi -> j <= ec_cap bi -> M i j = synd_at b (i + j)) ->
       forall i, i < ec_cap bi -> row_ok (steps (ec_cap bi) M) (ec_cap bi) s i) ->
    loc_list (total_per bi) (sigma (ec_cap bi) s) = [] -> run bi b (Err EDistances)
| run_fix s x locs c b' :
    (exists i, i < 2 * ec_cap bi /\ synd_at b i <> g0) ->
    (forall M, (forall i j, i < ec_cap bi -> j <= ec_cap bi -> M i j = synd_at b (i + j)) ->
       forall i, i < ec_cap bi -> row_ok (steps (ec_cap bi) M) (ec_cap bi) s i) ->
    locs = loc_list (total_per bi) (sigma (ec_cap bi) s) -> locs <> [] ->
    (forall V, (forall i j, i < length locs -> j < length locs -> V i j = gpow (alpha (nth j locs 0)) i) ->
       (forall i, i < length locs -> V i (length locs) = synd_at b i) ->
       forall i, i < length locs -> row_ok (steps (length locs) V) (length locs) x i) ->
    c = combine locs (map x (seq 0 (length locs))) ->
    b' = patch (total_per bi) b c ->
    run bi b (if gf_eq_dec (synd_at b' 0) g0 then Ok (map gv b', weight c) else Err ENotFixed).

Lemma steps_ext r M M' : (forall a b, a < r -> b <= r -> M a b = M' a b) ->
  forall k a b, k <= r -> a < r -> b <= r -> steps k M a b = steps k M' a b.
Proof.
  intros H k. induction k as [|k IH]; intros a b Hk Ha Hb; cbn [steps]; auto.
  unfold step. rewrite !IH by lia. reflexivity.
Qed.
Lemma row_ok_ext r M M' x i : (forall a b, a < r -> b <= r -> M a b = M' a b) -> i < r ->
  row_ok (steps r M) r x i -> row_ok (steps r M') r x i.
Proof.
  intros H Hi. unfold row_ok. intros ->. f_equal; [apply (steps_ext r); auto|].
  apply gsum_ext. intros t Ht. f_equal. apply (steps_ext r); auto. lia.
Qed.

Lemma NoDup_filter' {A} (f : A -> bool) l : NoDup l -> NoDup (filter f l).
Proof.
  induction 1 as [|a l Ha HN IH]; cbn [filter]; [constructor|]. destruct (f a); auto.
  constructor; auto. intros HI. apply filter_In in HI. tauto.
Qed.

Lemma loc_list_in t P i : In i (loc_list t P) <-> i < t /\ P (alpha i) = g0.
Proof.
  unfold loc_list. rewrite filter_In, in_seq. unfold is_root.
  destruct (gf_eq_dec (P (alpha i)) g0); split; intros [H1 H2]; split; try lia; auto; try discriminate; contradiction.
Qed.
Lemma loc_list_nodup t P : NoDup (loc_list t P).
Proof. apply NoDup_filter', seq_NoDup. Qed.

Lemma alpha_nodup l : NoDup l -> (forall i, In i l -> i < 255) -> NoDup (map alpha l).
Proof.
  induction 1 as [|a l Ha HN IH]; intros HI; cbn [map]; constructor.
  - intros HC. apply in_map_iff in HC. destruct HC as (b & E & Hb).
    apply alpha_inj in E; [subst; auto| |]; apply HI; [right|left]; auto.
  - apply IH. intros; apply HI; now right.
Qed.

Lemma loc_list_length t d P : monic d P -> t <= 255 -> length (loc_list t P) <= d.
Proof.
  intros HM Ht. rewrite <- (map_length alpha). apply (monic_roots d P); auto.
  - apply alpha_nodup; [apply loc_list_nodup|]. intros i Hi. apply loc_list_in in Hi. lia.
  - intros r Hr. apply in_map_iff in Hr. destruct Hr as (i & <- & Hi). now apply loc_list_in in Hi.
Qed.

Lemma nth_in_locs locs j : j < length locs -> In (nth j locs 0) locs.
Proof. apply nth_In. Qed.

Lemma correct_run bi b : table_like bi -> length b = total_per bi ->
  run bi b (correct_with_error_count (map gv b) bi).
Proof.
  intros (Hz & Hz2 & Ht) HB. unfold correct_with_error_count.
  rewrite calculate_syndromes_ok by auto. cbn [bind].
  destruct (forallb (fun i => (gv (synd_at b i) =? 0)%N) (seq 0 (2 * ec_cap bi))) eqn:EF.
  - apply run_clean. now apply forallb_synd.
  - assert (HNZ : exists i, i < 2 * ec_cap bi /\ synd_at b i <> g0).
    { assert (HD : (forall i, i < 2 * ec_cap bi -> synd_at b i = g0) \/
                   exists i, i < 2 * ec_cap bi /\ synd_at b i <> g0).
      { clear. induction (2 * ec_cap bi) as [|m [IH|(i & Hi & E)]].
        - left. intros; lia.
        - destruct (gf_eq_dec (synd_at b m) g0) as [E|E].
          + left. intros i Hi. destruct (Nat.eq_dec i m) as [->|]; auto. apply IH. lia.
          + right. exists m. auto.
        - right. exists i. auto. }
      destruct HD as [HD|HD]; auto. apply forallb_synd in HD. congruence. }
    clear EF.
    destruct (find_locs_ok b bi (fun i j => synd_at b (i + j)) Hz Ht) as (s & HS & EL); [auto|].
    rewrite EL. cbn [bind]. set (locs := loc_list (total_per bi) (sigma (ec_cap bi) s)) in *.
    assert (HS' : forall M, (forall i j, i < ec_cap bi -> j <= ec_cap bi -> M i j = synd_at b (i + j)) ->
       forall i, i < ec_cap bi -> row_ok (steps (ec_cap bi) M) (ec_cap bi) s i).
    { intros M HM i Hi. apply (row_ok_ext (ec_cap bi) (fun i j => synd_at b (i + j))); auto.
      intros; symmetry; auto. }
    assert (HLn : length locs <= ec_cap bi) by (apply loc_list_length; auto; apply sigma_monic).
    assert (HLI : forall i, In i locs -> i < total_per bi) by (intros i Hi; now apply loc_list_in in Hi).
    unfold calculate_distances.
    set (V := fun i j => if j =? length locs then synd_at b i else gpow (alpha (nth j locs 0)) i).
    destruct (distance_matrix_rep (synd_at b) (2 * ec_cap bi) locs V) as (eq & E1 & HR).
    { lia. }
    { intros i Hi. apply HLI in Hi. lia. }
    { intros i j Hi Hj. unfold V. destruct (Nat.eqb_spec j (length locs)); [lia|reflexivity]. }
    { intros i Hi. unfold V. now rewrite Nat.eqb_refl. }
    rewrite E1. cbn [bind].
    destruct (Nat.eq_dec (length locs) 0) as [E0|E0].
    + assert (EL0 : locs = []) by (destruct locs; auto; discriminate).
      rewrite EL0 in E1. vm_compute in E1. injection E1 as <-. rewrite solve_nil. cbn [bind ok_or].
      now apply (run_no_locs bi b s).
    + destruct (solve_rep eq V (length locs) ltac:(lia) HR) as (v & x & E2 & HV & HO).
      rewrite E2. cbn [bind ok_or].
      rewrite (apply_ok bi locs v x b) by auto. cbn [bind].
      rewrite get_EXP8 by lia. cbn [bind]. rewrite syndrome_gv.
      set (c := combine locs (map x (seq 0 (length locs)))).
      fold (synd_at (patch (total_per bi) b c) 0).
      assert (ER : (if (gv (synd_at (patch (total_per bi) b c) 0%nat) =? 0)%N
                    then Ok (map gv (patch (total_per bi) b c), weight c) else Err ENotFixed)
                   = if gf_eq_dec (synd_at (patch (total_per bi) b c) 0%nat) g0
                     then Ok (map gv (patch (total_per bi) b c), weight c) else Err ENotFixed).
      { destruct (gf_eq_dec (synd_at (patch (total_per bi) b c) 0) g0) as [E|E].
        - rewrite E. reflexivity.
        - destruct (N.eqb_spec (gv (synd_at (patch (total_per bi) b c) 0)) 0) as [E'|]; auto.
          now apply gv_g0 in E'. }
      rewrite ER. apply (run_fix bi b s x locs c); auto.
      * intros EE. rewrite EE in E0. now apply E0.
      * intros V' HV1 HV2 i Hi. apply (row_ok_ext (length locs) V); auto.
        intros a b' Ha Hb'. unfold V. destruct (Nat.eqb_spec b' (length locs)) as [->|].
        -- symmetry; auto.
        -- symmetry. apply HV1; auto. lia.
Qed.

(** *** Consequences for every block *)
Lemma combine_fst {A B} (l : list A) (m : list B) : length l = length m -> map fst (combine l m) = l.
Proof. revert m. induction l as [|a l IH]; intros [|b m] H; cbn in *; try discriminate; auto. f_equal. auto. Qed.

Lemma run_no_panic bi b r p : run bi b r -> r <> Panic p.
Proof. intros []; try discriminate. destruct (gf_eq_dec _ _); discriminate. Qed.

Lemma run_count bi b r b' n : table_like bi -> length b = total_per bi -> run bi b r -> r = Ok (b', n) ->
  length b' = length b /\ n = bit_distance (map gv b) b'.
Proof.
  intros HT HB HR E. destruct HR as [HZ|s HZ HS HL|s x locs c b2 HZ HS HL HL0 HV HC HB2].
  - injection E as <- <-. rewrite map_length. split; auto. now rewrite bit_distance_self.
  - discriminate.
  - destruct (gf_eq_dec (synd_at b2 0) g0); [|discriminate]. injection E as <- <-. subst b2.
    rewrite map_length, patch_length. split; auto.
    rewrite (patch_bits (total_per bi) c b b); auto.
    + rewrite bit_distance_self. lia.
    + subst c. rewrite combine_fst by (now rewrite map_length, seq_length). subst locs. apply loc_list_nodup.
    + intros l d HI. split; auto. subst c. apply in_combine_l in HI. subst locs. now apply loc_list_in in HI.
Qed.

Lemma run_accepted bi b r b' n : run bi b r -> r = Ok (b', n) ->
  exists b2, b' = map gv b2 /\
  ((forall i, i < 2 * ec_cap bi -> synd_at b2 i = g0) \/ synd_at b2 0 = g0).
Proof.
  intros HR E. destruct HR as [HZ|s HZ HS HL|s x locs c b2 HZ HS HL HL0 HV HC HB2].
  - injection E as <- <-. exists b. auto.
  - discriminate.
  - destruct (gf_eq_dec (synd_at b2 0) g0) as [E2|]; [|discriminate]. injection E as <- <-. exists b2. auto.
Qed.

(** *** Damaged code words *)
(** the errors as (locator, value) pairs; [d] lists the error values from the last
    codeword to the first *)
Definition err_list (d : list gf) : errs :=
  filter (fun p => if gf_eq_dec (snd p) g0 then false else true)
    (map (fun i => (alpha i, nth i d g0)) (seq 0 (length d))).

Lemma psum_err_list d f : psum (err_list d) f = gsum (length d) (fun i => nth i d g0 * f (alpha i))%G.
Proof.
  unfold err_list. generalize (length d). induction n as [|n IH]; [reflexivity|].
  rewrite seq_S, map_app, filter_app, psum_app, IH. cbn [gsum map filter snd plus].
  destruct (gf_eq_dec (nth n d g0) g0) as [E|E]; cbn [psum]; rewrite ?E; ring.
Qed.

Lemma err_list_in d x e : In (x, e) (err_list d) <-> exists i, i < length d /\ x = alpha i /\ e = nth i d g0 /\ e <> g0.
Proof.
  unfold err_list. rewrite filter_In, in_map_iff. split.
  - intros ((i & E & Hi) & HS). injection E as <- <-. apply in_seq in Hi. exists i. cbn [snd] in HS.
    destruct (gf_eq_dec (nth i d g0) g0); [discriminate|]. split; [lia|auto].
  - intros (i & Hi & -> & -> & HE). split.
    + exists i. split; auto. apply in_seq. lia.
    + cbn [snd]. destruct (gf_eq_dec (nth i d g0) g0); [contradiction|reflexivity].
Qed.

Lemma err_list_nodup d : length d <= 255 -> NoDup (map fst (err_list d)).
Proof.
  intros H. unfold err_list.
  assert (HH : forall l, NoDup l -> (forall i, In i l -> i < 255) ->
    NoDup (map fst (filter (fun p => if gf_eq_dec (snd p) g0 then false else true)
                   (map (fun i => (alpha i, nth i d g0)) l)))).
  { induction 1 as [|a l Ha HN IH]; intros HI; cbn [map filter]; [constructor|].
    assert (HI' : forall i, In i l -> i < 255) by (intros; apply HI; now right).
    cbn [snd]. destruct (gf_eq_dec (nth a d g0) g0); auto.
    cbn [map fst]. constructor; auto. intros HC. apply in_map_iff in HC. destruct HC as ([y e] & E & HC).
    cbn [fst] in E. subst y. apply filter_In in HC. destruct HC as [HC _]. apply in_map_iff in HC.
    destruct HC as (j & E & Hj). apply (f_equal fst) in E. cbn [fst] in E. apply alpha_inj in E; [subst; auto| |]; auto.
    apply HI. now left. }
  apply HH; [apply seq_NoDup|]. intros i Hi. apply in_seq in Hi. lia.
Qed.

Lemma peval_err d m : peval d (alpha m) = synd (err_list d) m.
Proof.
  unfold synd. rewrite psum_err_list, peval_gsum. apply gsum_ext. intros i _. f_equal.
  rewrite !alpha_pow. f_equal. lia.
Qed.

Fixpoint diff (a b : list gf) : list gf :=
  match a, b with x :: a, y :: b => (x + y)%G :: diff a b | _, _ => [] end.
Lemma diff_length a b : length a = length b -> length (diff a b) = length a.
Proof. revert b. induction a as [|x a IH]; intros [|y b] H; cbn in *; try discriminate; auto. Qed.
Lemma diff_app a b c d : length a = length b -> diff (a ++ c) (b ++ d) = diff a b ++ diff c d.
Proof. revert b. induction a as [|x a IH]; intros [|y b] H; cbn in *; try discriminate; auto. f_equal. auto. Qed.
Lemma diff_rev a b : length a = length b -> diff (rev a) (rev b) = rev (diff a b).
Proof.
  revert b. induction a as [|x a IH]; intros [|y b] H; cbn [length] in H; try discriminate; auto.
  cbn [rev diff]. rewrite diff_app by (rewrite !rev_length; lia). rewrite IH by lia. reflexivity.
Qed.
Lemma diff_nth a b i : length a = length b -> nth i (diff a b) g0 = (nth i a g0 + nth i b g0)%G.
Proof.
  revert b i. induction a as [|x a IH]; intros [|y b] i H; cbn [length] in H; try discriminate.
  - destruct i; cbn [diff nth]; ring.
  - destruct i; cbn [diff nth]; auto.
Qed.
Lemma diff_eval a b x : length a = length b -> peval (diff a b) x = (peval a x + peval b x)%G.
Proof.
  revert b. induction a as [|u a IH]; intros [|y b] H; cbn [length] in H; try discriminate; cbn [diff peval]; [ring|].
  rewrite IH by lia. ring.
Qed.

Definition damage (c b : list gf) : errs := err_list (rev (diff c b)).

Lemma damage_synd c b r i : length c = length b -> (forall i, i < r -> synd_at c i = g0) -> i < r ->
  synd_at b i = synd (damage c b) i.
Proof.
  intros HL HC Hi. unfold damage. rewrite <- peval_err, <- diff_rev, diff_eval by (rewrite ?rev_length; auto).
  specialize (HC i Hi). unfold synd_at in HC. rewrite HC. unfold synd_at. ring.
Qed.

Lemma distance_damage c b : length c = length b ->
  distance (map gv c) (map gv b) = length (damage c b).
Proof.
  intros HL. unfold damage.
  assert (HF : forall d, length (err_list d) = length (filter (fun e => if gf_eq_dec e g0 then false else true) d)).
  { intros d. unfold err_list.
    assert (HH : forall l k (h : list gf), (forall i, i < length l -> nth (k + i) h g0 = nth i l g0) ->
      length (filter (fun p : gf * gf => if gf_eq_dec (snd p) g0 then false else true)
        (map (fun i => (alpha i, nth i h g0)) (seq k (length l)))) =
      length (filter (fun e => if gf_eq_dec e g0 then false else true) l)).
    { induction l as [|e l IH]; intros k h H; cbn [length seq map filter]; auto.
      cbn [snd]. pose proof (H 0 ltac:(simpl; lia)) as E. rewrite Nat.add_0_r in E. cbn [nth] in E. rewrite E.
      assert (IH' := IH (S k) h).
      destruct (gf_eq_dec e g0); cbn [length]; rewrite IH'; auto.
      all: intros i Hi; specialize (H (S i) ltac:(simpl; lia)); cbn [nth] in H; rewrite <- H; f_equal; lia. }
    apply HH. intros; reflexivity. }
  rewrite HF. clear HF.
  assert (HR : forall d : list gf, length (filter (fun e => if gf_eq_dec e g0 then false else true) (rev d))
               = length (filter (fun e => if gf_eq_dec e g0 then false else true) d)).
  { induction d as [|e d IH]; auto. cbn [rev]. rewrite filter_app, app_length, IH. cbn [filter].
    destruct (gf_eq_dec e g0); cbn [length]; lia. }
  rewrite HR. clear HR.
  revert b HL. induction c as [|x c IH]; intros [|y b] HL; cbn [length] in HL; try discriminate; auto.
  cbn [map distance diff filter]. rewrite IH by lia.
  destruct (gf_eq_dec (x + y)%G g0) as [E|E].
  - apply gadd_0_eq in E. subst. now rewrite N.eqb_refl.
  - destruct (N.eqb_spec (gv x) (gv y)) as [E'|E']; [apply gv_inj in E'; subst; now rewrite gadd_self in E|reflexivity].
Qed.
