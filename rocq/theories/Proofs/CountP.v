(** The number of data modules. *)
From Coq Require Import NArith ZArith List Lia Bool Arith FinFun.
From Verif.Model Require Import Blocks.
From Verif.Spec Require Import Bits Symbol Layout.
From Verif.Proofs Require Import BaseP LayoutP.
Import ListNotations.
Local Open Scope Z_scope.

(** all that [is_data] needs to know about a coordinate *)
Record cls := Cls { c6 : bool; lt9 : bool; gt9 : bool; gt12 : bool; at9 : bool; lt6 : bool; al : bool }.

Definition cls_of (v : Z) (loc : alignment_location_t) (c : Z) : cls :=
  let s := side_of v in
  Cls (c =? 6) (c <? 9) (s - 9 <? c) ((7 <=? v) && (s - 12 <? c)) (c =? s - 9) (c <? 6)
      (is_alignment_coord loc c).

Definition cell (x y : cls) : bool :=
  if c6 x || c6 y then false
  else if lt9 x && lt9 y then false
  else if gt9 x && lt9 y then false
  else if lt9 x && gt9 y then false
  else if gt12 x && lt6 y then false
  else if gt12 y && lt6 x then false
  else if at9 x && lt9 y then true
  else if at9 y && lt9 x then true
  else negb (al x && al y).

Lemma cell_ok v loc x y : 1 <= v <= 40 -> alignment_location v = Ok loc -> inside v x y ->
  data_moduleb v x y = cell (cls_of v loc x) (cls_of v loc y).
Proof.
  intros Hv EL HI.
  pose proof (is_data_ok v (mkQRData [] v (side_of v)) loc x y Hv eq_refl eq_refl EL HI) as H.
  assert (HS : 21 <= side_of v) by (unfold side_of; lia).
  unfold is_data in H. cbn [qside qversion] in H. rewrite !sub_Z_ok in H by lia. cbn [bind] in H.
  unfold cell, cls_of. cbn [c6 lt9 gt9 gt12 at9 lt6 al].
  assert (G : forall a b : bool, Ok a = Ok b -> b = a) by congruence.
  destruct ((x =? 6) || (y =? 6)); [now apply G|].
  destruct ((x <? 9) && (y <? 9)); [now apply G|].
  destruct ((side_of v - 9 <? x) && (y <? 9)); [now apply G|].
  destruct ((x <? 9) && (side_of v - 9 <? y)); [now apply G|].
  destruct (7 <=? v); cbn [bind andb] in *;
    repeat match type of H with (if ?c then _ else _) = _ => destruct c; try (now apply G) end.
Qed.

(** number of data modules of a column *)
Definition column_count (x : cls) (l : list cls) : Z :=
  fold_right (fun y n => if cell x y then 1 + n else n) 0 l.

Definition module_count (v : Z) : Z :=
  match alignment_location v with
  | Ok loc =>
      let l := map (fun c => cls_of v loc (Z.of_nat c)) (seq 0 (Z.to_nat (side_of v))) in
      fold_right (fun x n => column_count x l + n) 0 l
  | _ => 0
  end.

Lemma counts_ok :
  forallb (fun v => module_count v =? data_module_count v) (map Z.of_nat (seq 1 40)) = true.
Proof. vm_compute. reflexivity. Qed.

Definition coords (v : Z) : list Z := map Z.of_nat (seq 0 (Z.to_nat (side_of v))).

Lemma coords_In v c : In c (coords v) <-> 0 <= c < side_of v.
Proof.
  split; [|apply in_coords]. intros H. apply in_map_iff in H as (j & <- & Hj). apply in_seq in Hj. lia.
Qed.

(** data modules of column x *)
Definition cnt (v x : Z) : Z := Z.of_nat (length (filter (data_moduleb v x) (coords v))).

(** of the columns left of x *)
Definition left_of (v : Z) (x : nat) : Z := fold_right (fun c n => cnt v (Z.of_nat c) + n) 0 (seq 0 x).

Lemma left_of_S v x : left_of v (S x) = left_of v x + cnt v (Z.of_nat x).
Proof.
  unfold left_of. rewrite <- Nat.add_1_r, seq_app, fold_right_app. cbn [seq fold_right Nat.add].
  generalize (cnt v (Z.of_nat x)). intros a. induction (seq 0 x) as [|b l IH]; cbn [fold_right]; lia.
Qed.

Lemma cnt_6 v : cnt v 6 = 0.
Proof.
  unfold cnt. assert (E : forall l, filter (data_moduleb v 6) l = []).
  { induction l as [|y l IH]; [reflexivity|]. cbn [filter].
    destruct (data_moduleb v 6 y) eqn:E; [|exact IH]. exfalso.
    apply data_moduleb_iff in E as [_ H]. apply H. right. left. left. reflexivity. }
  now rewrite E.
Qed.

Lemma total_count v : 1 <= v <= 40 -> left_of v (Z.to_nat (side_of v)) = data_module_count v.
Proof.
  intros Hv. pose proof (proj1 (forallb_forall _ _) counts_ok v (in_versions v Hv)) as H.
  apply Z.eqb_eq in H. rewrite <- H. unfold module_count.
  destruct (alignment_facts v Hv) as (loc & EL & _ & _). rewrite EL. cbv zeta.
  unfold left_of.
  assert (G : forall l, (forall c, In c l -> (c < Z.to_nat (side_of v))%nat) ->
    fold_right (fun c n => cnt v (Z.of_nat c) + n) 0 l =
    fold_right (fun x n => column_count x (map (fun c => cls_of v loc (Z.of_nat c)) (seq 0 (Z.to_nat (side_of v)))) + n)
       0 (map (fun c => cls_of v loc (Z.of_nat c)) l)).
  { induction l as [|x l IH]; intros Hl; [reflexivity|]. cbn [map fold_right].
    rewrite IH by (intros; apply Hl; now right). f_equal.
    assert (Hx : (x < Z.to_nat (side_of v))%nat) by (apply Hl; now left).
    unfold cnt, coords.
    assert (G2 : forall l', (forall c, In c l' -> (c < Z.to_nat (side_of v))%nat) ->
      Z.of_nat (length (filter (data_moduleb v (Z.of_nat x)) (map Z.of_nat l'))) =
      column_count (cls_of v loc (Z.of_nat x)) (map (fun c => cls_of v loc (Z.of_nat c)) l')).
    { induction l' as [|y l' IH']; intros Hl'; [reflexivity|]. cbn [map filter].
      assert (Hy : (y < Z.to_nat (side_of v))%nat) by (apply Hl'; now left).
      unfold column_count. cbn [fold_right].
      rewrite <- (cell_ok v loc) by (auto; split; lia).
      change (fold_right _ 0 _) with
        (column_count (cls_of v loc (Z.of_nat x)) (map (fun c => cls_of v loc (Z.of_nat c)) l')).
      rewrite <- IH' by (intros; apply Hl'; now right).
      destruct (data_moduleb v (Z.of_nat x) (Z.of_nat y)); cbn [length]; lia. }
    apply G2. intros c Hc. apply in_seq in Hc. lia. }
  apply G. intros c Hc. apply in_seq in Hc. lia.
Qed.

(** *** Along the zigzag *)
Definition pair_order (v : Z) (k : nat) : list (Z * Z) :=
  flat_map (fun y => [(right_column v k, y); (right_column v k - 1, y)]) (rows v k).

Definition is_data_at (v : Z) (p : Z * Z) : bool := data_moduleb v (fst p) (snd p).

Lemma filter_rev_length {A} (f : A -> bool) l : length (filter f (rev l)) = length (filter f l).
Proof.
  induction l as [|a l IH]; [reflexivity|]. cbn [rev filter]. rewrite filter_app, app_length, IH. cbn [filter].
  destruct (f a); cbn [length]; lia.
Qed.

Lemma pair_count_ok v k : 
  Z.of_nat (length (filter (is_data_at v) (pair_order v k)))
  = cnt v (right_column v k) + cnt v (right_column v k - 1).
Proof.
  unfold pair_order. generalize (right_column v k). intros x.
  assert (G : forall l, length (filter (is_data_at v) (flat_map (fun y => [(x, y); (x - 1, y)]) l))
     = (length (filter (data_moduleb v x) l) + length (filter (data_moduleb v (x - 1)) l))%nat).
  { induction l as [|y l IH]; [reflexivity|]. cbn [flat_map app filter].
    change (is_data_at v (x, y)) with (data_moduleb v x y). change (is_data_at v (x - 1, y)) with (data_moduleb v (x - 1) y).
    destruct (data_moduleb v x y), (data_moduleb v (x - 1) y); cbn [length]; rewrite IH; lia. }
  rewrite G. unfold cnt, rows, coords. cbv zeta.
  destruct (Nat.even k); rewrite ?filter_rev_length; lia.
Qed.

Lemma right_column_steps v k : 1 <= v -> (k < pair_count v)%nat ->
  1 <= right_column v k < side_of v /\
  (right_column v k = 1 <-> S k = pair_count v) /\
  ((S k < pair_count v)%nat ->
     right_column v (S k) = right_column v k - 2 \/ right_column v k = 8 /\ right_column v (S k) = 5).
Proof.
  unfold pair_count, right_column, side_of. cbv zeta. intros Hv H.
  destruct (Z.leb_spec (4 * v + 17 - 1 - 2 * Z.of_nat k) 6),
    (Z.leb_spec (4 * v + 17 - 1 - 2 * Z.of_nat (S k)) 6); lia.
Qed.

Lemma order_length_from v : 1 <= v -> forall n k, (k + S n = pair_count v)%nat ->
  Z.of_nat (length (filter (is_data_at v) (flat_map (pair_order v) (seq k (S n)))))
  = left_of v (Z.to_nat (right_column v k + 1)).
Proof.
  intros Hv. induction n as [|n IH]; intros k Hk;
    pose proof (right_column_steps v k Hv ltac:(lia)) as (HR & H1 & HN).
  - assert (E : right_column v k = 1) by (apply H1; lia).
    cbn [seq flat_map]. rewrite app_nil_r, pair_count_ok, E.
    change (Z.to_nat (1 + 1)) with 2%nat. rewrite !left_of_S.
    change (left_of v 0) with 0. change (Z.of_nat 0) with 0. change (Z.of_nat 1) with 1.
    change (1 - 1) with 0. lia.
  - change (seq k (S (S n))) with (k :: seq (S k) (S n)).
    cbn [flat_map]. rewrite filter_app, app_length, Nat2Z.inj_add, pair_count_ok.
    change (pair_order v (S k) ++ flat_map (pair_order v) (seq (S (S k)) n))
      with (flat_map (pair_order v) (seq (S k) (S n))). rewrite IH by lia.
    assert (H3 : 3 <= right_column v k).
    { specialize (HN ltac:(lia)). pose proof (right_column_steps v (S k) Hv ltac:(lia)) as (HR' & _). lia. }
    replace (Z.to_nat (right_column v k + 1)) with (S (S (Z.to_nat (right_column v k - 1)))) by lia.
    rewrite !left_of_S.
    replace (Z.of_nat (S (Z.to_nat (right_column v k - 1)))) with (right_column v k) by lia.
    rewrite (Z2Nat.id (right_column v k - 1)) by lia.
    destruct (HN ltac:(lia)) as [E|[E1 E2]].
    + rewrite E. replace (right_column v k - 2 + 1) with (right_column v k - 1) by lia. lia.
    + rewrite E2, E1. change (Z.to_nat (8 - 1)) with (S (Z.to_nat (5 + 1))). rewrite left_of_S.
      change (Z.of_nat (Z.to_nat (5 + 1))) with 6. rewrite cnt_6. lia.
Qed.

Lemma data_order_length v : 1 <= v <= 40 -> Z.of_nat (length (data_order v)) = data_module_count v.
Proof.
  intros Hv. unfold data_order, zigzag.
  change (fun k => flat_map (fun y => [(right_column v k, y); (right_column v k - 1, y)]) (rows v k))
    with (pair_order v).
  change (fun p => data_moduleb v (fst p) (snd p)) with (is_data_at v).
  assert (E : pair_count v = S (pair_count v - 1)) by (unfold pair_count; lia).
  rewrite E, order_length_from by lia.
  assert (E0 : right_column v 0 + 1 = side_of v).
  { unfold right_column, side_of. cbv zeta. destruct (Z.leb_spec (4 * v + 17 - 1 - 2 * Z.of_nat 0) 6); lia. }
  rewrite E0. now apply total_count.
Qed.

(** *** Every data module exactly once *)
Lemma pair_order_In v k x y : In (x, y) (pair_order v k) <->
  (x = right_column v k \/ x = right_column v k - 1) /\ 0 <= y < side_of v.
Proof.
  unfold pair_order. rewrite in_flat_map.
  assert (ER : forall y, In y (rows v k) <-> 0 <= y < side_of v).
  { intros z. unfold rows. cbv zeta. destruct (Nat.even k); [rewrite <- in_rev|]; apply coords_In. }
  split.
  - intros (z & Hz & [E|[E|[]]]); injection E as <- <-; rewrite <- ER; auto.
  - intros [[-> | ->] Hy]; exists y; rewrite ER; cbn; auto.
Qed.

Lemma pair_order_NoDup v k : NoDup (pair_order v k).
Proof.
  unfold pair_order. assert (HN : NoDup (rows v k)).
  { unfold rows. cbv zeta. assert (H : NoDup (map Z.of_nat (seq 0 (Z.to_nat (side_of v))))).
    { apply FinFun.Injective_map_NoDup; [intros a b; lia|apply seq_NoDup]. }
    destruct (Nat.even k); [now apply NoDup_rev|exact H]. }
  generalize (right_column v k). intros x. induction HN as [|y l Hy HN IH]; [constructor|].
  cbn [flat_map app].
  assert (G : forall x', ~ In (x', y) (flat_map (fun y => [(x, y); (x - 1, y)]) l)).
  { intros x' H. apply in_flat_map in H as (z & Hz & [E|[E|[]]]); injection E as _ ->; auto. }
  constructor.
  - intros [E|H]; [injection E; lia|]. exact (G _ H).
  - constructor; [apply G|exact IH].
Qed.

Lemma zigzag_NoDup v : 1 <= v -> NoDup (zigzag v).
Proof.
  intros Hv. unfold zigzag.
  change (fun k => flat_map (fun y => [(right_column v k, y); (right_column v k - 1, y)]) (rows v k))
    with (pair_order v).
  assert (G : forall n k, (k + n <= pair_count v)%nat -> NoDup (flat_map (pair_order v) (seq k n)) /\
     forall x y, In (x, y) (flat_map (pair_order v) (seq k n)) -> n <> 0%nat /\ x <= right_column v k).
  { induction n as [|n IH]; intros k Hk; [split; [constructor|intros ? ? []]|].
    destruct (IH (S k) ltac:(lia)) as [IH1 IH2].
    pose proof (right_column_steps v k Hv ltac:(lia)) as (HR & _ & HN).
    cbn [seq flat_map]. split.
    - assert (D : forall p, In p (pair_order v k) -> ~ In p (flat_map (pair_order v) (seq (S k) n))).
      { intros [x y] H1 H2. apply IH2 in H2 as [Hn H2]. apply pair_order_In in H1.
        specialize (HN ltac:(lia)). lia. }
      pose proof (pair_order_NoDup v k) as H1. revert D. induction H1 as [|p l Hp HN' IHl]; intros D; [exact IH1|].
      cbn [app]. constructor.
      + rewrite in_app_iff. intros [H|H]; [auto|]. exact (D p (or_introl eq_refl) H).
      + apply IHl. intros; apply D; now right.
    - intros x y H. split; [lia|]. apply in_app_iff in H as [H|H].
      + apply pair_order_In in H. lia.
      + apply IH2 in H as [Hn H]. specialize (HN ltac:(lia)). lia. }
  apply G. lia.
Qed.

Lemma zigzag_In v x y : 1 <= v -> (In (x, y) (zigzag v) <-> inside v x y /\ x <> 6).
Proof.
  intros Hv. unfold zigzag.
  change (fun k => flat_map (fun y => [(right_column v k, y); (right_column v k - 1, y)]) (rows v k))
    with (pair_order v).
  rewrite in_flat_map. unfold inside. split.
  - intros (k & Hk & H). apply in_seq in Hk. apply pair_order_In in H.
    pose proof (right_column_steps v k Hv ltac:(lia)) as (HR & _).
    assert (D : right_column v k <> 6 /\ right_column v k <> 7).
    { unfold right_column, pair_count, side_of in *. cbv zeta in *.
      destruct (Z.leb_spec (4 * v + 17 - 1 - 2 * Z.of_nat k) 6); lia. }
    lia.
  - intros [[Hx Hy] H6].
    set (x' := if x <=? 6 then x + 1 else x).
    exists (Z.to_nat ((side_of v - 1 - x') / 2)).
    assert (Hx' : 1 <= x' < side_of v) by (unfold x', side_of in *; destruct (Z.leb_spec x 6); lia).
    assert (HD : 2 * ((side_of v - 1 - x') / 2) <= side_of v - 1 - x' < 2 * ((side_of v - 1 - x') / 2) + 2).
    { pose proof (Z.div_mod (side_of v - 1 - x') 2 ltac:(lia)).
      pose proof (Z.mod_pos_bound (side_of v - 1 - x') 2 ltac:(lia)). lia. }
    assert (HD0 : 0 <= (side_of v - 1 - x') / 2) by (apply Z.div_pos; lia).
    revert HD HD0. generalize ((side_of v - 1 - x') / 2). intros k HD HD0. split.
    + apply in_seq. unfold pair_count. unfold side_of in *. lia.
    + apply pair_order_In. split; [|exact Hy]. unfold right_column. cbv zeta.
      rewrite Z2Nat.id by lia. unfold x', side_of in *.
      destruct (Z.leb_spec x 6), (Z.leb_spec (4 * v + 17 - 1 - 2 * k) 6); lia.
Qed.

Lemma data_order_In v x y : 1 <= v -> (In (x, y) (data_order v) <-> data_module v x y).
Proof.
  intros Hv. unfold data_order. rewrite filter_In. cbn [fst snd]. rewrite data_moduleb_iff, zigzag_In by exact Hv.
  split; [tauto|]. intros H. split; [|exact H]. destruct H as [HI H]. split; [exact HI|].
  intros ->. apply H. right. left. now left.
Qed.

Lemma data_order_NoDup v : 1 <= v -> NoDup (data_order v).
Proof. intros Hv. apply NoDup_filter, zigzag_NoDup, Hv. Qed.

