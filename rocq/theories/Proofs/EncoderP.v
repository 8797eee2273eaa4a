(** What the encoder writes. *)
From Coq Require Import NArith ZArith List Lia Bool Arith Ring.
From Verif.Model Require Import Correct.
From Verif.Spec Require Import Bits Segments GF256 RS Symbol Layout Encoder Message Bridge.
From Verif.Proofs Require Import BaseP BitsP GaloisP PolyP CorrectP RSBridgeP FormatP LayoutP CountP StreamBytesP DrawP.
Import ListNotations.
Local Open Scope nat_scope.

(** *** Remainders *)
Lemma add_lists_length a : forall b, length a = length b -> length (add_lists a b) = length a.
Proof. induction a as [|x a IH]; intros [|y b] E; try discriminate; [reflexivity|]. cbn in *. now rewrite IH by lia. Qed.

Lemma generator_length k : length (generator k) = S k.
Proof.
  induction k as [|k IH]; [reflexivity|]. cbn [generator]. cbv zeta.
  rewrite add_lists_length; [|cbn [length]; rewrite app_length, map_length; cbn; lia].
  rewrite app_length, IH. cbn. lia.
Qed.

Fixpoint gadds (a b : list gf) : list gf :=
  match a, b with x :: a, y :: b => (x + y)%G :: gadds a b | _, _ => [] end.

Lemma gadds_gv a : forall b, map gv (gadds a b) = add_lists (map gv a) (map gv b).
Proof. induction a as [|x a IH]; intros [|y b]; try reflexivity. cbn [gadds map add_lists]. now rewrite IH. Qed.

(** highest coefficient first *)
Definition hval (p : list gf) (x : gf) : gf := peval (rev p) x.

Lemma hval_cons a p x : hval (a :: p) x = (a * gpow x (length p) + hval p x)%G.
Proof. unfold hval. cbn [rev]. rewrite peval_app, rev_length. cbn [peval]. ring. Qed.

Lemma hval_snoc p a x : hval (p ++ [a]) x = (hval p x * x + a)%G.
Proof. unfold hval. rewrite rev_app_distr. cbn [rev app peval]. ring. Qed.

Lemma hval_app p q x : hval (p ++ q) x = (hval p x * gpow x (length q) + hval q x)%G.
Proof. unfold hval. rewrite rev_app_distr, peval_app, rev_length. ring. Qed.

Lemma gadds_length a : forall b, length a = length b -> length (gadds a b) = length a.
Proof. induction a as [|x a IH]; intros [|y b] E; try discriminate; [reflexivity|]. cbn in *. now rewrite IH by lia. Qed.

Lemma hval_gadds a x : forall b, length a = length b -> hval (gadds a b) x = (hval a x + hval b x)%G.
Proof.
  induction a as [|u a IH]; intros [|v b] E; try discriminate; [cbn; ring|].
  cbn [gadds]. rewrite !hval_cons, gadds_length, IH by (cbn in E; lia). cbn in E. injection E as ->. ring.
Qed.

Lemma hval_scale c p x : hval (map (gmul c) p) x = (c * hval p x)%G.
Proof.
  induction p as [|a p IH]; [cbn; ring|]. cbn [map]. rewrite !hval_cons, map_length, IH. ring.
Qed.

Lemma map_fmul c p : map (fmul (gv c)) (map gv p) = map gv (map (gmul c) p).
Proof. rewrite !map_map. apply map_ext. intros a. now rewrite gv_fmul. Qed.

Lemma generator_gf k : exists p, generator k = map gv (g1 :: p) /\ length p = k /\
  forall i, i < k -> hval (g1 :: p) (alpha i) = g0.
Proof.
  induction k as [|k (p & E & EL & IH)].
  - exists []. repeat split. intros i Hi. lia.
  - set (q := gadds (p ++ [g0]) (map (gmul (alpha k)) (g1 :: p))).
    assert (EA : generator (S k) = map gv (gadds ((g1 :: p) ++ [g0]) (g0 :: map (gmul (alpha k)) (g1 :: p)))).
    { cbn [generator]. cbv zeta. rewrite E, fpow_alpha, map_fmul, gadds_gv, map_app. reflexivity. }
    assert (EB : gadds ((g1 :: p) ++ [g0]) (g0 :: map (gmul (alpha k)) (g1 :: p)) = g1 :: q).
    { cbn [app gadds]. fold q. f_equal. ring. }
    exists q. split; [now rewrite EA, EB|]. split.
    + unfold q. rewrite gadds_length; rewrite app_length; cbn [length map]; rewrite ?map_length; lia.
    + intros i Hi. rewrite <- EB, hval_gadds, hval_snoc by (rewrite app_length; cbn [length]; rewrite map_length; cbn; lia).
      rewrite (hval_cons g0), hval_scale.
      destruct (Nat.eq_dec i k) as [->|Hn]; [|rewrite IH by lia; ring]. 
      replace (hval (g1 :: p) (alpha k) * alpha k + g0 +
        (g0 * gpow (alpha k) (length (map (gmul (alpha k)) (g1 :: p))) + alpha k * hval (g1 :: p) (alpha k)))%G
        with (hval (g1 :: p) (alpha k) * alpha k + hval (g1 :: p) (alpha k) * alpha k)%G by ring.
      apply gadd_self.
Qed.

Lemma remainder_gf k data : Forall (fun a => (a < 256)%N) data -> exists d r,
  data = map gv d /\ remainder k data = map gv r /\ length r = k /\
  forall i, i < k -> (hval d (alpha i) * gpow (alpha i) k + hval r (alpha i))%G = g0.
Proof.
  intros HB. destruct (generator_gf k) as (p & EG & EP & HR). unfold remainder. rewrite EG.
  induction data as [|c data IH] using rev_ind.
  - exists [], (repeat g0 k). repeat split.
    + cbn [fold_left]. clear. induction k as [|k IH]; [reflexivity|]. cbn [repeat map]. now rewrite IH.
    + apply repeat_length.
    + intros i Hi. assert (E : forall k x, hval (repeat g0 k) x = g0).
      { clear. induction k as [|k IH]; intros x; [reflexivity|]. cbn [repeat]. rewrite hval_cons, IH. ring. }
      rewrite E. cbn. ring.
  - apply Forall_app in HB. destruct HB as [HB Hc]. destruct (IH HB) as (d & r & -> & ER & EL & HI). clear IH.
    assert (Hc' : (c < 256)%N) by (inversion Hc; assumption).
    pose (c' := mk c Hc'). assert (Ec : c = gv c') by reflexivity.
    pose (f := (c' + hd g0 r)%G).
    exists (d ++ [c']), (gadds (tl r ++ [g0]) (map (gmul f) p)).
    split; [now rewrite map_app|]. split; [|split].
    + rewrite fold_left_app, ER. cbn [fold_left]. unfold divide. cbn [map tl]. rewrite gadds_gv, map_app, <- map_fmul.
      assert (Eh : N.lxor c (hd 0%N (map gv r)) = gv f).
      { unfold f. destruct r as [|a r]; reflexivity. }
      rewrite Eh. now destruct r.
    + destruct r as [|a r].
      * cbn [length] in EL. rewrite <- EL in *. now destruct p.
      * cbn [tl]. rewrite gadds_length; rewrite app_length; cbn [length] in *; rewrite ?map_length; lia.
    + intros i Hi. specialize (HI i Hi). destruct r as [|a r]; [cbn in EL; lia|].
      cbn [tl hd] in *. rewrite hval_gadds by (rewrite app_length, map_length; cbn [length] in *; lia).
      rewrite hval_scale, !hval_snoc. specialize (HR i Hi). rewrite hval_cons in HR, HI.
      rewrite EP in HR. cbn [length] in EL.
      assert (H1 : hval p (alpha i) = gpow (alpha i) k).
      { apply gadd_0_eq. rewrite <- HR. ring. }
      assert (H2 : (hval d (alpha i) * gpow (alpha i) k)%G = (a * gpow (alpha i) (length r) + hval r (alpha i))%G)
        by (now apply gadd_0_eq).
      rewrite H1. replace ((hval d (alpha i) * alpha i + c') * gpow (alpha i) k)%G
        with ((hval d (alpha i) * gpow (alpha i) k) * alpha i + c' * gpow (alpha i) k)%G by ring.
      rewrite H2, <- EL. cbn [gpow]. unfold f.
      replace ((a * gpow (alpha i) (length r) + hval r (alpha i)) * alpha i + c' * (alpha i * gpow (alpha i) (length r)) +
        (hval r (alpha i) * alpha i + g0 + (c' + a) * (alpha i * gpow (alpha i) (length r))))%G
        with (((a + c') * alpha i * gpow (alpha i) (length r) + hval r (alpha i) * alpha i) +
              ((a + c') * alpha i * gpow (alpha i) (length r) + hval r (alpha i) * alpha i))%G by ring.
      apply gadd_self.
Qed.

Lemma remainder_codeword k data : Forall is_byte data ->
  length (remainder k data) = k /\ Forall is_byte (remainder k data) /\ codeword k (data ++ remainder k data).
Proof.
  intros HB. destruct (remainder_gf k data HB) as (d & r & -> & -> & EL & HI).
  rewrite map_length. split; [exact EL|]. split.
  - apply Forall_forall. intros a Ha. apply in_map_iff in Ha. destruct Ha as (x & <- & _). exact (gv_lt x).
  - rewrite <- map_app, codeword_gv. intros i Hi. unfold synd_at. fold (hval (d ++ r) (alpha i)).
    rewrite hval_app, EL. now apply HI.
Qed.

(** *** Data codewords *)
Lemma pack_bits bs : forall l, Forall is_byte bs -> pack (bits bs ++ l) = bs ++ pack l.
Proof.
  intros l H. induction H as [|b bs Hb H IH]; [reflexivity|].
  change (bits (b :: bs)) with (byte_bits b ++ bits bs). rewrite <- app_assoc.
  unfold byte_bits at 1. cbn [map app pack]. rewrite IH. f_equal. exact (bval_byte b Hb).
Qed.

Lemma pack_ok l : length l mod 8 = 0 -> bits (pack l) = l /\ Forall is_byte (pack l) /\ length (pack l) = length l / 8.
Proof.
  intros H. destruct (bits_split l) as (bs & rest & -> & HB & EL & HR).
  assert (rest = []).
  { rewrite app_length, bits_length in H. destruct rest; [reflexivity|exfalso].
    rewrite Nat.mul_comm, Nat.add_comm, Nat.mod_add in H by lia. rewrite Nat.mod_small in H by exact HR. discriminate. }
  subst rest. rewrite pack_bits by exact HB. cbn [pack]. rewrite !app_nil_r in *. auto.
Qed.

Lemma pads_ok n : forall b, length (pads n b) = n /\ Forall is_byte (pads n b).
Proof.
  induction n as [|n IH]; intros b; [split; [reflexivity|constructor]|]. cbn [pads].
  destruct (IH (negb b)) as [H1 H2]. split; [cbn; now rewrite H1|]. constructor; [|exact H2]. now destruct b.
Qed.

Lemma data_part_ok v n segs : length (segment_bits v segs) <= 8 * n ->
  Forall is_byte (data_part v n segs) /\ length (data_part v n segs) = n /\
  exists tail, tail_ok tail /\ bits (data_part v n segs) = segment_bits v segs ++ tail.
Proof.
  intros HL. unfold data_part. set (s := segment_bits v segs) in *. cbv zeta.
  set (t := s ++ repeat false (Nat.min 4 (8 * n - length s))).
  set (fill := (8 - length t mod 8) mod 8). set (u := t ++ repeat false fill).
  assert (Ht : length t <= 8 * n) by (unfold t; rewrite app_length, repeat_length; lia).
  assert (Hu : length u mod 8 = 0 /\ length u <= 8 * n).
  { unfold u. rewrite app_length, repeat_length. unfold fill. clearbody t. clear - Ht.
    revert Ht. generalize (length t) as a. intros a Ht. pose proof (Nat.div_mod_eq a 8). pose proof (Nat.mod_upper_bound a 8 ltac:(lia)).
    destruct (Nat.eq_dec (a mod 8) 0) as [E|E].
    - rewrite E. cbn [Nat.sub]. change (8 mod 8) with 0. rewrite Nat.add_0_r. auto.
    - rewrite (Nat.mod_small (8 - a mod 8)) by lia. replace (a + (8 - a mod 8)) with ((a / 8 + 1) * 8) by lia.
      split; [apply Nat.mod_mul; lia|lia]. }
  destruct Hu as [Hm Hu]. destruct (pack_ok u Hm) as (P1 & P2 & P3). destruct (pads_ok (n - length u / 8) true) as [D1 D2].
  split; [apply Forall_app; auto|]. split.
  - rewrite app_length, P3, D1. assert (length u / 8 <= n) by (apply Nat.div_le_upper_bound; lia). lia.
  - exists (repeat false (Nat.min 4 (8 * n - length s)) ++ repeat false fill ++ bits (pads (n - length u / 8) true)).
    split.
    + destruct (Nat.le_gt_cases 4 (8 * n - length s)) as [H|H].
      * left. rewrite Nat.min_l by exact H. eexists. reflexivity.
      * right. rewrite Nat.min_r by lia.
        assert (E : length u = 8 * n).
        { pose proof (Nat.div_mod_eq (length u) 8). unfold u, t in *. rewrite !app_length, !repeat_length in *. lia. }
        rewrite E, Nat.mul_comm, Nat.div_mul, Nat.sub_diag by lia. cbn [pads bits flat_map].
        rewrite app_nil_r, app_length, !repeat_length.
        unfold u, t in E. rewrite !app_length, !repeat_length in E. lia.
    + rewrite bits_app, P1. unfold u, t. now rewrite <- !app_assoc.
Qed.

Lemma split_by_ok sizes : forall l, length l = list_sum sizes ->
  concat (split_by sizes l) = l /\ map (@length N) (split_by sizes l) = sizes.
Proof.
  induction sizes as [|n sizes IH]; intros l E; cbn [split_by list_sum fold_right] in *.
  - destruct l; [auto|discriminate].
  - assert (HL : n <= length l) by lia.
    destruct (IH (skipn n l)) as [H1 H2].
    { rewrite skipn_length. cbn [list_sum fold_right] in E. fold (list_sum sizes) in E. lia. }
    cbn [concat map]. rewrite H1, H2, firstn_skipn, firstn_length. split; [reflexivity|]. f_equal. lia.
Qed.

Lemma encode_blocks_ok v l segs : length (segment_bits v segs) <= 8 * data_codewords v l ->
  block_shape v l (encode_blocks v l segs) /\
  Forall (fun b => Forall is_byte (fst b) /\ Forall is_byte (snd b)) (encode_blocks v l segs) /\
  encodes v l (encode_blocks v l segs) segs.
Proof.
  intros HL. unfold data_codewords in HL.
  destruct (data_part_ok v _ segs HL) as (HB & EL & tail & Ht & EB).
  destruct (split_by_ok (block_data v l) _ EL) as [H1 H2].
  unfold encode_blocks. set (ds := split_by _ _) in *.
  assert (HD : Forall (Forall is_byte) ds).
  { clearbody ds. rewrite <- H1 in HB. clear - HB. induction ds as [|d ds IH]; [constructor|].
    cbn [concat] in HB. apply Forall_app in HB. constructor; tauto. }
  split; [split|split; [|split]].
  - rewrite map_map. exact H2.
  - apply Forall_map. eapply Forall_impl; [|exact HD]. intros d Hd. exact (proj1 (remainder_codeword _ d Hd)).
  - apply Forall_map. eapply Forall_impl; [|exact HD]. intros d Hd. cbn [fst snd].
    split; [exact Hd|exact (proj1 (proj2 (remainder_codeword _ d Hd)))].
  - apply Forall_map. eapply Forall_impl; [|exact HD]. intros d Hd. exact (proj2 (proj2 (remainder_codeword _ d Hd))).
  - exists tail. split; [exact Ht|]. rewrite map_map. cbn [fst]. rewrite map_id, H1. exact EB.
Qed.

(** *** The symbol *)
Lemma find_this (f : Z -> bool) l i : In i l -> f i = true -> (forall j, In j l -> f j = true -> j = i) -> find f l = Some i.
Proof.
  intros HI Hf HU. destruct (find f l) as [j|] eqn:E.
  - apply find_some in E. f_equal. now apply HU.
  - now rewrite (find_none _ _ E i HI) in Hf.
Qed.

Lemma find_no (f : Z -> bool) l : (forall j, In j l -> f j = false) -> find f l = None.
Proof.
  intros H. destruct (find f l) as [j|] eqn:E; [|reflexivity]. apply find_some in E. destruct E as [E1 E2].
  now rewrite H in E2.
Qed.

Lemma fifteen i : In i (map Z.of_nat (seq 0 15)) <-> (0 <= i < 15)%Z.
Proof.
  rewrite in_map_iff. split; [intros (k & <- & H); apply in_seq in H; lia|].
  intros H. exists (Z.to_nat i). split; [lia|]. apply in_seq. lia.
Qed.

Ltac cases_Z := repeat match goal with
  | |- context [Z.leb ?a ?b] => destruct (Z.leb_spec a b)
  | H : context [Z.leb ?a ?b] |- _ => destruct (Z.leb_spec a b)
  | |- context [Z.eqb ?a ?b] => destruct (Z.eqb_spec a b)
  | H : context [Z.eqb ?a ?b] |- _ => destruct (Z.eqb_spec a b)
  end.

Lemma copy1_inj i j : (0 <= i < 15)%Z -> (0 <= j < 15)%Z -> copy1 i = copy1 j -> i = j.
Proof. intros Hi Hj. unfold copy1. cases_Z; intros E; apply pair_equal_spec in E; lia. Qed.

Lemma copy2_inj v i j : (1 <= v)%Z -> (0 <= i < 15)%Z -> (0 <= j < 15)%Z -> copy2 v i = copy2 v j -> i = j.
Proof. intros Hv Hi Hj. unfold copy2, side_of. cases_Z; intros E; apply pair_equal_spec in E; lia. Qed.

Lemma copies_apart v i j : (1 <= v)%Z -> (0 <= i < 15)%Z -> (0 <= j < 15)%Z -> copy1 i <> copy2 v j.
Proof. intros Hv Hi Hj. unfold copy1, copy2, side_of. cases_Z; intros E; apply pair_equal_spec in E; lia. Qed.

Lemma same_pair (p q : Z * Z) : (let '(a, b) := p in Z.eqb a (fst q) && Z.eqb b (snd q)) = true <-> p = q.
Proof.
  destruct p as [a b], q as [x y]. cbn [fst snd]. rewrite andb_true_iff, !Z.eqb_eq. split; [intros [-> ->]|intros [= -> ->]]; auto.
Qed.

Lemma draw_on_1 v w1 w2 base : carries (draw_on v w1 w2 base) copy1 w1.
Proof.
  intros i Hi. unfold draw_on. rewrite (find_this _ _ i); [reflexivity|now apply fifteen|now apply same_pair|].
  intros j Hj Hf. apply fifteen in Hj. apply same_pair in Hf. now apply copy1_inj.
Qed.

Lemma draw_on_2 v w1 w2 base : (1 <= v)%Z -> carries (draw_on v w1 w2 base) (copy2 v) w2.
Proof.
  intros Hv i Hi. unfold draw_on. rewrite find_no.
  - rewrite (find_this _ _ i); [reflexivity|now apply fifteen|now apply same_pair|].
    intros j Hj Hf. apply fifteen in Hj. apply same_pair in Hf. now apply (copy2_inj v).
  - intros j Hj. apply fifteen in Hj. apply not_true_is_false. rewrite same_pair. now apply copies_apart.
Qed.

Lemma format_not_data v x y : in_format v x y -> ~ data_module v x y.
Proof. intros H [_ HN]. tauto. Qed.

Lemma symbol_format v m blocks w1 w2 base : (1 <= v)%Z ->
  carries (symbol_of v m blocks w1 w2 base) copy1 w1 /\ carries (symbol_of v m blocks w1 w2 base) (copy2 v) w2.
Proof.
  intros Hv. unfold symbol_of. split; intros i Hi.
  - rewrite engrave_other; [now apply draw_on_1|exact Hv|].
    apply format_not_data. left. exists i. split; [exact Hi|]. symmetry. apply surjective_pairing.
  - rewrite engrave_other; [now apply draw_on_2|exact Hv|].
    apply format_not_data. right. left. exists i. split; [exact Hi|]. symmetry. apply surjective_pairing.
Qed.

Lemma symbol_holds v l m blocks w1 w2 base : (1 <= v <= 40)%Z -> block_shape v l blocks ->
  Forall (fun b => Forall is_byte (fst b) /\ Forall is_byte (snd b)) blocks ->
  holds v l m (symbol_of v m blocks w1 w2 base) blocks.
Proof.
  intros Hv H1 H2. split; [exact H1|]. split; [exact H2|].
  assert (EL : length (interleave blocks) = codeword_count v).
  { destruct (info_facts v l Hv) as (bis & EI & ET & ED & _ & HF & HS).
    destruct (shape_totals v l bis _ H1 ED HF) as [EQ _].
    rewrite (Permutation.Permutation_length (interleave_perm _)), <- HS, <- ET, EQ.
    clear. induction blocks as [|p ps IH]; [reflexivity|].
    cbn [map concat list_sum fold_right]. rewrite !app_length, IH. reflexivity. }
  pose proof (data_count_mod v Hv) as HC.
  exists (repeat false (Z.to_nat (data_module_count v mod 8))). split.
  - unfold symbol_of. apply engrave_bits; [exact Hv|].
    rewrite app_length, bits_length, repeat_length, EL. unfold codeword_count.
    pose proof (Z.div_mod (data_module_count v) 8). pose proof (Z.mod_pos_bound (data_module_count v) 8).
    assert (0 <= data_module_count v / 8)%Z by (apply Z.div_pos; lia). lia.
  - rewrite repeat_length. pose proof (Z.mod_pos_bound (data_module_count v) 8). lia.
Qed.

Lemma encode_format v l m segs base : (1 <= v)%Z ->
  carries (encode_symbol v l m segs base) copy1 (format_word l m) /\
  carries (encode_symbol v l m segs base) (copy2 v) (format_word l m).
Proof. apply symbol_format. Qed.

Lemma encode_holds v l m segs base : (1 <= v <= 40)%Z -> length (segment_bits v segs) <= 8 * data_codewords v l ->
  holds v l m (encode_symbol v l m segs base) (encode_blocks v l segs).
Proof. intros Hv HL. destruct (encode_blocks_ok v l segs HL) as (H1 & H2 & _). now apply symbol_holds. Qed.
