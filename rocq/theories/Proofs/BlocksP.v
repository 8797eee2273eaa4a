(** Reading the codewords of a symbol. *)
From Coq Require Import NArith ZArith List Lia Bool Arith Permutation.
From Verif.Model Require Import Blocks.
From Verif.Spec Require Import Bits Symbol Layout Bridge.
From Verif.Proofs Require Import BaseP BitsP FormatP LayoutP InterleaveP CountP.
Import ListNotations.
Local Open Scope Z_scope.

Lemma foldM_flat_map {A B S} (f : S -> B -> res S) (g : A -> list B) l s :
  foldM f (flat_map g l) s = foldM (fun s a => foldM f (g a) s) l s.
Proof.
  revert s. induction l as [|a l IH]; intros s; [reflexivity|]. cbn [flat_map foldM].
  rewrite foldM_app. destruct (foldM f (g a) s); cbn [bind]; auto.
Qed.

(** *** Masking *)
Lemma mask_cond_ok m x y : (m < 8)%N -> mask_cond m x y = mask_bit m x y.
Proof.
  intros Hm. unfold mask_cond, mask_bit.
  destruct m as [|[[[p|p|]|[p|p|]|]|[[p|p|]|[p|p|]|]|]]; try lia; try reflexivity.
  f_equal. f_equal. lia.
Qed.

Lemma qrmask_ok v d q m x y : shows v d q -> inside v x y -> (m < 8)%N ->
  qrmask m q x y = Ok (bit (xorb (d x y) (mask_bit m x y))).
Proof.
  intros HS [Hx Hy] Hm. unfold qrmask. rewrite (qindex_ok v d q x y HS Hx Hy). cbn [bind].
  rewrite mask_cond_ok by exact Hm. now destruct (d x y), (mask_bit m x y).
Qed.

(** *** Order *)
Section Order.
Context (v : Z) (d : matrix) (q : qrdata) (m : N) (loc : alignment_location_t).
Hypothesis Hv : 1 <= v <= 40.
Hypothesis HS : shows v d q.
Hypothesis Hm : (m < 8)%N.
Hypothesis HL : alignment_location v = Ok loc.

Definition visit (c : codewords_t) (p : Z * Z) : res codewords_t :=
  if data_moduleb v (fst p) (snd p)
  then add_bit c (bit (xorb (d (fst p) (snd p)) (mask_bit m (fst p) (snd p))))
  else Ok c.

Lemma visit_ok x y c : inside v x y ->
  (d <- is_data q loc x y ;; if (d : bool) then v <- qrmask m q x y ;; add_bit c v else Ok c)
  = visit c (x, y).
Proof.
  intros HI. destruct HS as (EV & ES & _).
  rewrite (is_data_ok v q loc x y Hv EV ES HL HI). cbn [bind]. unfold visit. cbn [fst snd].
  destruct (data_moduleb v x y); [|reflexivity]. now rewrite (qrmask_ok v d q m x y HS HI Hm).
Qed.

Lemma read_pair_ok x y c : 1 <= x < side_of v -> 0 <= y < side_of v ->
  read_pair q loc m x c y = foldM visit [(x, y); (x - 1, y)] c.
Proof.
  intros Hx Hy. unfold read_pair. cbn [foldM]. rewrite sub_Z_ok by lia. cbn [bind].
  rewrite <- (visit_ok x y) by (split; lia). rewrite bind_assoc.
  destruct (is_data q loc x y) as [b| |]; cbn [bind]; [|reflexivity..].
  destruct (if b then _ else _) as [c'| |]; cbn [bind]; [|reflexivity..].
  rewrite <- (visit_ok (x - 1) y) by (split; lia).
  destruct (d0 <- is_data q loc (x - 1) y;; _) as [c''| |]; reflexivity.
Qed.

Lemma right_column_range k : (k < pair_count v)%nat -> 1 <= right_column v k < side_of v.
Proof.
  unfold pair_count, right_column, side_of. cbv zeta. intros H.
  destruct (Z.leb_spec (4 * v + 17 - 1 - 2 * Z.of_nat k) 6); lia.
Qed.

Lemma y_range_ok k : (k < pair_count v)%nat -> y_range (right_column v k) (side_of v) = rows v k.
Proof.
  unfold pair_count. intros H. unfold y_range, rows. cbv zeta.
  change (range 0 (Z.to_nat (side_of v))) with (seq 0 (Z.to_nat (side_of v) - 0)).
  rewrite Nat.sub_0_r.
  assert (E : (if right_column v k <? 6 then right_column v k + 1 else right_column v k) - side_of v + 1
              = - (2 * Z.of_nat k)).
  { unfold right_column, side_of. cbv zeta.
    destruct (Z.leb_spec (4 * v + 17 - 1 - 2 * Z.of_nat k) 6) as [L|L].
    - destruct (Z.ltb_spec (4 * v + 17 - 1 - 2 * Z.of_nat k - 1) 6); lia.
    - destruct (Z.ltb_spec (4 * v + 17 - 1 - 2 * Z.of_nat k) 6); lia. }
  rewrite E. rewrite Z.rem_opp_l by lia.
  assert (E2 : (- Z.rem (2 * Z.of_nat k) 4 =? 0) = Nat.even k).
  { rewrite Z.rem_mod_nonneg by lia.
    destruct (Nat.Even_or_Odd k) as [[j ->]|[j ->]].
    - replace (2 * Z.of_nat (2 * j)) with (Z.of_nat j * 4) by lia. rewrite Z.mod_mul by lia.
      rewrite Nat.even_mul. reflexivity.
    - replace (2 * Z.of_nat (2 * j + 1)) with (2 + Z.of_nat j * 4) by lia. rewrite Z.mod_add by lia.
      rewrite Nat.even_add, Nat.even_mul. reflexivity. }
  rewrite E2. reflexivity.
Qed.

Lemma in_rows k y : In y (rows v k) <-> 0 <= y < side_of v.
Proof.
  unfold rows. cbv zeta.
  assert (E : In y (map Z.of_nat (seq 0 (Z.to_nat (side_of v)))) <-> 0 <= y < side_of v).
  { split; [|apply in_coords]. intros H. apply in_map_iff in H as (j & <- & Hj). apply in_seq in Hj. lia. }
  destruct (Nat.even k); [rewrite <- in_rev|]; exact E.
Qed.

Lemma read_columns_ok n : forall fuel k c, (k + S n = pair_count v)%nat -> (n < fuel)%nat ->
  read_columns fuel q loc m (right_column v k) c = foldM visit (flat_map (pair_order v) (seq k (S n))) c.
Proof.
  induction n as [|n IH]; intros [|fuel] k c Hk Hf; try lia; cbn [read_columns];
    pose proof (right_column_range k ltac:(lia)) as HR;
    assert (ES : qside q = side_of v) by apply HS; rewrite ES, (y_range_ok k) by lia;
    (assert (E : foldM (read_pair q loc m (right_column v k)) (rows v k) c = foldM visit (pair_order v k) c);
     [unfold pair_order; rewrite foldM_flat_map; apply foldM_ext; intros c' y Hy; apply in_rows in Hy;
      apply read_pair_ok; lia|]); rewrite E.
  - assert (E1 : right_column v k = 1).
    { unfold right_column, side_of, pair_count in *. cbv zeta.
      destruct (Z.leb_spec (4 * v + 17 - 1 - 2 * Z.of_nat k) 6); lia. }
    rewrite E1, Z.eqb_refl. cbn [seq flat_map]. rewrite app_nil_r.
    destruct (foldM visit (pair_order v k) c); reflexivity.
  - assert (E1 : right_column v k <> 1).
    { unfold right_column, side_of, pair_count in *. cbv zeta.
      destruct (Z.leb_spec (4 * v + 17 - 1 - 2 * Z.of_nat k) 6); lia. }
    change (seq k (S (S n))) with (k :: seq (S k) (S n)).
    cbn [flat_map]. rewrite foldM_app.
    destruct (foldM visit (pair_order v k) c) as [c'| |]; cbn [bind]; [|reflexivity..].
    destruct (Z.eqb_spec (right_column v k) 1) as [E2|_]; [congruence|].
    assert (E3 : 2 <= right_column v k).
    { lia. }
    rewrite sub_Z_ok by exact E3. cbn [bind].
    assert (E4 : (if right_column v k - 2 =? 6 then 5 else right_column v k - 2) = right_column v (S k)).
    { unfold right_column, side_of, pair_count in *. cbv zeta in *.
      destruct (Z.leb_spec (4 * v + 17 - 1 - 2 * Z.of_nat k) 6),
        (Z.leb_spec (4 * v + 17 - 1 - 2 * Z.of_nat (S k)) 6);
      match goal with |- (if ?a =? 6 then _ else _) = _ => destruct (Z.eqb_spec a 6) end; lia. }
    rewrite E4. change (pair_order v (S k) ++ flat_map (pair_order v) (seq (S (S k)) n))
      with (flat_map (pair_order v) (seq (S k) (S n))). apply IH; lia.
Qed.

Lemma visit_filter l : forall c,
  foldM visit l c = foldM add_bit
    (map (fun p => bit (xorb (d (fst p) (snd p)) (mask_bit m (fst p) (snd p))))
         (filter (fun p => data_moduleb v (fst p) (snd p)) l)) c.
Proof.
  induction l as [|p l IH]; intros c; [reflexivity|]. cbn [foldM filter]. unfold visit at 1.
  destruct (data_moduleb v (fst p) (snd p)); cbn [map foldM].
  - destruct (add_bit c _); cbn [bind]; auto.
  - cbn [bind]. apply IH.
Qed.

Lemma read_all c :
  read_columns (Z.to_nat (side_of v)) q loc m (side_of v - 1) c
  = foldM add_bit (map bit (symbol_bits v d m)) c.
Proof.
  assert (E0 : side_of v - 1 = right_column v 0).
  { unfold right_column, side_of. cbv zeta. destruct (Z.leb_spec (4 * v + 17 - 1 - 2 * Z.of_nat 0) 6); lia. }
  rewrite E0, (read_columns_ok (pair_count v - 1)).
  - replace (S (pair_count v - 1)) with (pair_count v) by (unfold pair_count; lia).
    rewrite visit_filter. unfold symbol_bits, data_order, zigzag. rewrite map_map. reflexivity.
  - unfold pair_count. lia.
  - unfold pair_count, side_of. lia.
Qed.

End Order.
