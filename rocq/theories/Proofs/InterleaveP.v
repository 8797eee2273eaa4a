(** [Blocks::push] undoes the interleaving. *)
From Coq Require Import NArith List Lia Bool Arith.
From Verif.Model Require Import Blocks.
From Verif.Spec Require Import Layout.
From Verif.Proofs Require Import BaseP.
Import ListNotations.
Local Open Scope nat_scope.

Section Machine.
Context (info : list block_info_t).
Let n := length info.
Let D (i : nat) : nat := match nth_error info i with Some bi => data_per bi | None => 0 end.
Let mx := b_max_data_round (blocks_new info).

Definition St (r i : nat) (bl : list (list N)) : blocks_t :=
  mkBlocks info bl r mx i (Nat.ltb r mx).

Lemma mx_fold l : forall m, 
  fold_left (fun m bi => if Nat.ltb m (data_per bi) then data_per bi else m) l m
  = Nat.max m (list_max (map data_per l)).
Proof.
  induction l as [|a l IH]; intros m; cbn [fold_left map list_max fold_right]; [lia|].
  rewrite IH. change (list_max (map data_per l)) with (fold_right Nat.max 0 (map data_per l)).
  destruct (Nat.ltb_spec m (data_per a)); lia.
Qed.

Lemma mx_max : mx = list_max (map data_per info).
Proof. unfold mx, blocks_new. cbn [b_max_data_round]. rewrite mx_fold. lia. Qed.

Lemma D_le i : D i <= mx.
Proof.
  unfold D. rewrite mx_max. destruct (nth_error info i) as [bi|] eqn:E; [|lia].
  apply nth_error_In in E. assert (F : Forall (fun k => k <= list_max (map data_per info)) (map data_per info))
    by (apply list_max_le; lia).
  rewrite Forall_forall in F. apply F. now apply in_map.
Qed.

Lemma D_attained r : r < mx -> exists j, j < n /\ r < D j.
Proof.
  intros H. rewrite mx_max in H.
  assert (G : forall l, r < list_max (map data_per l) ->
    exists j bi, nth_error l j = Some bi /\ r < data_per bi).
  { induction l as [|a l IH]; cbn [map list_max fold_right]; intros Hl; [lia|].
    change (fold_right Nat.max 0 (map data_per l)) with (list_max (map data_per l)) in Hl.
    destruct (Nat.lt_ge_cases r (data_per a)) as [Ha|Ha].
    - exists 0, a. auto.
    - destruct IH as (j & bi & Hj & Hb); [lia|]. exists (S j), bi. auto. }
  destruct (G info H) as (j & bi & Hj & Hb). exists j. split.
  - apply nth_error_Some. congruence.
  - unfold D. now rewrite Hj.
Qed.

Hypothesis Hn : 1 <= n.
Hypothesis Hpos : forall bi, In bi info -> 1 <= data_per bi.

Lemma D_pos i : i < n -> 1 <= D i.
Proof.
  intros H. unfold D. destruct (nth_error info i) eqn:E.
  - apply Hpos. now apply nth_error_In in E.
  - apply nth_error_None in E. fold n in E. lia.
Qed.

Lemma inc_ok r i bl : i < n ->
  inc_count (St r i bl) = Ok (if S i =? n then St (S r) 0 bl else St r (S i) bl).
Proof.
  intros Hi. unfold inc_count, St. cbn [b_info b_block b_round b_max_data_round b_data_blocks b_blocks].
  fold n. rewrite sub_nat_ok by lia. cbn [bind].
  destruct (Nat.eqb_spec i (n - 1)), (Nat.eqb_spec (S i) n); try lia; [|reflexivity].
  f_equal. f_equal.
  destruct (Nat.eqb_spec (S r) mx), (Nat.ltb_spec r mx), (Nat.ltb_spec (S r) mx); try lia; reflexivity.
Qed.

Lemma skip_stop f r i bl : i < n -> mx <= r \/ r < D i -> push_skip (S f) (St r i bl) = Ok (St r i bl).
Proof.
  intros Hi H. cbn [push_skip]. change (b_data_blocks (St r i bl)) with (Nat.ltb r mx).
  destruct (Nat.ltb_spec r mx); [|reflexivity].
  pose proof (D_pos i Hi) as HD. change (b_info (St r i bl)) with info. change (b_block (St r i bl)) with i.
  change (b_round (St r i bl)) with r. unfold get. unfold D in *. destruct (nth_error info i) as [bi|]; [|lia]. cbn [bind].
  rewrite sub_nat_ok by lia. cbn [bind].
  destruct (Nat.ltb_spec (data_per bi - 1) r); [lia|reflexivity].
Qed.

Lemma skip_go f r i bl : i < n -> r < mx -> D i <= r ->
  push_skip (S f) (St r i bl) = push_skip f (if S i =? n then St (S r) 0 bl else St r (S i) bl).
Proof.
  intros Hi H1 H2. cbn [push_skip]. change (b_data_blocks (St r i bl)) with (Nat.ltb r mx).
  destruct (Nat.ltb_spec r mx); [|lia].
  pose proof (D_pos i Hi) as HD. change (b_info (St r i bl)) with info. change (b_block (St r i bl)) with i.
  change (b_round (St r i bl)) with r. unfold get. unfold D in *. destruct (nth_error info i) as [bi|]; [|lia]. cbn [bind].
  rewrite sub_nat_ok by lia. cbn [bind].
  destruct (Nat.ltb_spec (data_per bi - 1) r); [|lia].
  rewrite inc_ok by assumption. reflexivity.
Qed.

Lemma skip_more f : forall s t, push_skip f s = Ok t -> push_skip (S f) s = Ok t.
Proof.
  induction f as [|f IH]; intros s t H; [discriminate|].
  cbn [push_skip] in H |- *. destruct (b_data_blocks s); [|exact H].
  destruct (get (b_info s) (b_block s)) as [bi| |]; cbn [bind] in *; try discriminate.
  destruct (sub_nat (data_per bi) 1) as [last| |]; cbn [bind] in *; try discriminate.
  destruct (Nat.ltb last (b_round s)); [|exact H].
  destruct (inc_count s) as [s'| |]; cbn [bind] in *; try discriminate.
  apply IH in H. cbn [push_skip] in H. exact H.
Qed.

Lemma skip_mono f g s t : f <= g -> push_skip f s = Ok t -> push_skip g s = Ok t.
Proof. intros H. induction H; auto. intros E. apply skip_more. auto. Qed.

(** in a row with an entry at or after the current block, the loop ends *)
Lemma skip_row r bl : forall k i, i + k < n -> r < D (i + k) -> exists t, push_skip (S k) (St r i bl) = Ok t.
Proof.
  induction k as [|k IH]; intros i Hi HD.
  - exists (St r i bl). rewrite Nat.add_0_r in *. now apply skip_stop; auto.
  - destruct (Nat.lt_ge_cases r (D i)) as [H|H].
    + exists (St r i bl). apply skip_stop; auto; lia.
    + pose proof (D_le (i + S k)). rewrite skip_go by lia.
      destruct (Nat.eqb_spec (S i) n); [lia|]. apply IH; [lia|]. now rewrite Nat.add_succ_r in HD.
Qed.

Lemma skip_ends r bl : forall k i, n = i + S k -> exists t, push_skip (S k + n) (St r i bl) = Ok t.
Proof.
  induction k as [|k IH]; intros i Hi.
  - destruct (Nat.lt_ge_cases r (D i)) as [H|H]; [exists (St r i bl); apply skip_stop; auto; lia|].
    destruct (Nat.lt_ge_cases r mx) as [H'|H']; [|exists (St r i bl); apply skip_stop; auto; lia].
    cbn [Nat.add]. rewrite skip_go by lia. destruct (Nat.eqb_spec (S i) n); [|lia].
    destruct (Nat.lt_ge_cases (S r) mx) as [H2|H2].
    + destruct (D_attained _ H2) as (j & Hj & HDj).
      destruct (skip_row (S r) bl j 0 Hj HDj) as (t & Ht). exists t. eapply skip_mono; [|exact Ht]. lia.
    + exists (St (S r) 0 bl). replace n with (S (n - 1)) by lia. apply skip_stop; auto; lia.
  - destruct (Nat.lt_ge_cases r (D i)) as [H|H]; [exists (St r i bl); apply skip_stop; auto; lia|].
    destruct (Nat.lt_ge_cases r mx) as [H'|H']; [|exists (St r i bl); apply skip_stop; auto; lia].
    change (S (S k) + n) with (S (S k + n)). rewrite skip_go by lia.
    destruct (Nat.eqb_spec (S i) n); [lia|]. apply IH. lia.
Qed.

(** *** Pushing *)
Definition out (l : list N) (s : blocks_t) : res (list (list N)) :=
  s' <- foldM blocks_push l s ;; Ok (b_blocks s').

Lemma push_skip_eq r i bl x : i < n -> r < mx -> D i <= r ->
  blocks_push (St r i bl) x = blocks_push (if S i =? n then St (S r) 0 bl else St r (S i) bl) x.
Proof.
  intros Hi H1 H2. unfold blocks_push.
  assert (EI : b_info (if S i =? n then St (S r) 0 bl else St r (S i) bl) = info)
    by now destruct (S i =? n).
  rewrite EI. change (b_info (St r i bl)) with info. fold n.
  replace (2 * n + 2) with (S (2 * n + 1)) by lia. rewrite skip_go by assumption.
  assert (E : exists t, push_skip (2 * n + 1) (if S i =? n then St (S r) 0 bl else St r (S i) bl) = Ok t).
  { destruct (Nat.eqb_spec (S i) n).
    - destruct (skip_ends (S r) bl (n - 1) 0 ltac:(lia)) as (t & Ht). exists t.
      eapply skip_mono; [|exact Ht]. lia.
    - destruct (skip_ends r bl (n - S i - 1) (S i) ltac:(lia)) as (t & Ht). exists t.
      eapply skip_mono; [|exact Ht]. lia. }
  destruct E as (t & Ht). rewrite Ht. apply skip_more in Ht. rewrite Ht. reflexivity.
Qed.

Lemma out_skip l r i bl : i < n -> r < mx -> D i <= r ->
  out l (St r i bl) = out l (if S i =? n then St (S r) 0 bl else St r (S i) bl).
Proof.
  intros Hi H1 H2. unfold out. destruct l as [|x l]; [now destruct (S i =? n)|].
  cbn [foldM]. rewrite push_skip_eq by assumption. reflexivity.
Qed.

Lemma out_push x l r pre b post : length pre < n -> mx <= r \/ r < D (length pre) ->
  out (x :: l) (St r (length pre) (pre ++ b :: post)) =
  out l (if S (length pre) =? n then St (S r) 0 (pre ++ (b ++ [x]) :: post)
         else St r (S (length pre)) (pre ++ (b ++ [x]) :: post)).
Proof.
  intros Hi H. unfold out. cbn [foldM]. unfold blocks_push at 1.
  replace (2 * length (b_info (St r (length pre) (pre ++ b :: post))) + 2)
    with (S (2 * n + 1)) by (cbn [b_info St]; fold n; lia).
  rewrite skip_stop by assumption. cbn [bind].
  change (b_blocks (St r (length pre) (pre ++ b :: post))) with (pre ++ b :: post).
  change (b_block (St r (length pre) (pre ++ b :: post))) with (length pre).
  assert (EG : get (pre ++ b :: post) (length pre) = Ok b).
  { apply get_ok. rewrite nth_error_app2 by lia. now rewrite Nat.sub_diag. }
  rewrite EG. cbn [bind].
  rewrite set_ok by (rewrite app_length; cbn [length]; lia). cbn [bind].
  assert (EU : update (pre ++ b :: post) (length pre) (b ++ [x]) = pre ++ (b ++ [x]) :: post).
  { clear. induction pre as [|a pre IH]; [reflexivity|]. cbn [app length update]. now rewrite IH. }
  rewrite EU.
  change (mkBlocks (b_info (St r (length pre) (pre ++ b :: post))) (pre ++ (b ++ [x]) :: post)
      (b_round (St r (length pre) (pre ++ b :: post)))
      (b_max_data_round (St r (length pre) (pre ++ b :: post))) (length pre)
      (b_data_blocks (St r (length pre) (pre ++ b :: post))))
    with (St r (length pre) (pre ++ (b ++ [x]) :: post)).
  rewrite inc_ok by assumption. reflexivity.
Qed.

End Machine.

(** *** Undoing the interleaving *)
Lemma firstn_step {A} (l : list A) r x : nth_error l r = Some x -> firstn r l ++ [x] = firstn (S r) l.
Proof.
  revert r. induction l as [|a l IH]; intros [|r] H; try discriminate.
  - injection H as ->. reflexivity.
  - cbn [nth_error] in H. cbn [firstn app]. now rewrite IH.
Qed.

Section Undo.
Context (info : list block_info_t) (parts : list (list N * list N)) (e : nat).
Hypothesis HN : 1 <= length parts.
Hypothesis HI : map data_per info = map (fun p => length (fst p)) parts.
Hypothesis HP : Forall (fun p => 1 <= length (fst p) /\ length (snd p) = e) parts.
Let n := length info.
Let mx := b_max_data_round (blocks_new info).

Lemma len_info : length info = length parts.
Proof. now rewrite <- (map_length data_per), HI, map_length. Qed.

Lemma Hn' : 1 <= length info.
Proof. rewrite len_info. exact HN. Qed.

Lemma Hpos' bi : In bi info -> 1 <= data_per bi.
Proof.
  intros H. apply (in_map data_per) in H. rewrite HI in H. apply in_map_iff in H as (p & <- & Hp).
  rewrite Forall_forall in HP. now apply HP.
Qed.

Lemma D_part i p : nth_error parts i = Some p ->
  match nth_error info i with Some bi => data_per bi | None => 0 end = length (fst p).
Proof.
  intros H. assert (E : nth_error (map data_per info) i = Some (length (fst p))).
  { rewrite HI. rewrite nth_error_map, H. reflexivity. }
  rewrite nth_error_map in E. destruct (nth_error info i); cbn in E; congruence.
Qed.

Lemma max_parts : mx = list_max (map (@length N) (map fst parts)).
Proof. unfold mx. rewrite mx_max, HI, map_map. reflexivity. Qed.

Lemma column_cons r p ps :
  column r (p :: ps) = match nth_error p r with Some c => c :: column r ps | None => column r ps end.
Proof. unfold column. cbn [flat_map]. now destruct (nth_error p r). Qed.

(** one round over the data codewords *)
Lemma data_row r rest : r < mx -> forall suf pre, length pre + length suf = length parts ->
  suf <> [] -> skipn (length pre) parts = suf ->
  out (column r (map fst suf) ++ rest)
      (St info r (length pre) (pre ++ map (fun p => firstn r (fst p)) suf))
  = out rest (St info (S r) 0 (pre ++ map (fun p => firstn (S r) (fst p)) suf)).
Proof.
  intros Hr. induction suf as [|p suf IH]; intros pre HL HNe HS; [congruence|]. clear HNe.
  cbn [length] in HL. pose proof len_info as LI. pose proof Hn' as HN'. pose proof Hpos' as HP'.
  assert (Hp : nth_error parts (length pre) = Some p).
  { rewrite <- (firstn_skipn (length pre) parts), HS. rewrite nth_error_app2; rewrite firstn_length; [|lia].
    rewrite Nat.min_l by lia. now rewrite Nat.sub_diag. }
  pose proof (D_part _ _ Hp) as HD.
  assert (HS' : skipn (S (length pre)) parts = suf).
  { replace (S (length pre)) with (length pre + 1) by lia. rewrite <- skipn_skipn, HS. reflexivity. }
  cbn [map]. rewrite column_cons. destruct (nth_error (fst p) r) as [c|] eqn:EC.
  - assert (Hc : r < length (fst p)) by (apply nth_error_Some; congruence).
    cbn [app]. rewrite out_push by (auto; rewrite ?HD; lia).
    rewrite (firstn_step _ _ _ EC).
    specialize (IH (pre ++ [firstn (S r) (fst p)])). rewrite app_length in IH. cbn [length] in IH.
    destruct (Nat.eqb_spec (S (length pre)) (length info)) as [E|E].
    + destruct suf; [|cbn [length] in HL; lia]. reflexivity.
    + rewrite <- !app_assoc in IH. cbn [app] in IH. rewrite Nat.add_1_r in IH.
      apply IH; [lia|destruct suf; [cbn [length] in HL; lia|discriminate]|exact HS'].
  - apply nth_error_None in EC. rewrite out_skip by (auto; rewrite ?HD; lia).
    rewrite (firstn_all2 (n := r) (fst p)) by lia. rewrite (firstn_all2 (n := S r) (fst p)) by lia.
    specialize (IH (pre ++ [fst p])). rewrite app_length in IH. cbn [length] in IH.
    destruct (Nat.eqb_spec (S (length pre)) (length info)) as [E|E].
    + destruct suf; [|cbn [length] in HL; lia]. reflexivity.
    + rewrite <- !app_assoc in IH. cbn [app] in IH. rewrite Nat.add_1_r in IH.
      apply IH; [lia|destruct suf; [cbn [length] in HL; lia|discriminate]|exact HS'].
Qed.

Lemma data_rows rest : forall k r, r + k = mx ->
  out (flat_map (fun r => column r (map fst parts)) (seq r k) ++ rest)
      (St info r 0 (map (fun p => firstn r (fst p)) parts))
  = out rest (St info mx 0 (map fst parts)).
Proof.
  induction k as [|k IH]; intros r Hk.
  - replace r with mx by lia. cbn [seq flat_map app]. f_equal. f_equal. apply map_ext_in.
    intros p Hp. apply firstn_all2. rewrite max_parts.
    assert (F : Forall (fun k => k <= list_max (map (@length N) (map fst parts))) (map (@length N) (map fst parts)))
      by (apply list_max_le; lia).
    rewrite Forall_forall in F. apply F. apply in_map, in_map, Hp.
  - cbn [seq flat_map]. rewrite <- app_assoc.
    pose proof (data_row r (flat_map (fun r0 => column r0 (map fst parts)) (seq (S r) k) ++ rest) ltac:(lia)
      parts [] ltac:(cbn; lia) ltac:(destruct parts; [cbn in HN; lia|discriminate]) eq_refl) as H.
    cbn [app length] in H. rewrite H. apply IH. lia.
Qed.

(** one round over the error correction codewords *)
Lemma ec_row r k rest : mx <= r -> k < e -> forall suf pre, length pre + length suf = length parts ->
  suf <> [] -> skipn (length pre) parts = suf ->
  out (column k (map snd suf) ++ rest)
      (St info r (length pre) (pre ++ map (fun p => fst p ++ firstn k (snd p)) suf))
  = out rest (St info (S r) 0 (pre ++ map (fun p => fst p ++ firstn (S k) (snd p)) suf)).
Proof.
  intros Hr Hk. induction suf as [|p suf IH]; intros pre HL HNe HS; [congruence|]. clear HNe.
  cbn [length] in HL. pose proof len_info as LI. pose proof Hn' as HN'. pose proof Hpos' as HP'.
  assert (Hp : nth_error parts (length pre) = Some p).
  { rewrite <- (firstn_skipn (length pre) parts), HS. rewrite nth_error_app2; rewrite firstn_length; [|lia].
    rewrite Nat.min_l by lia. now rewrite Nat.sub_diag. }
  assert (HS' : skipn (S (length pre)) parts = suf).
  { replace (S (length pre)) with (length pre + 1) by lia. rewrite <- skipn_skipn, HS. reflexivity. }
  assert (He : length (snd p) = e).
  { rewrite Forall_forall in HP. apply HP. now apply nth_error_In in Hp. }
  cbn [map]. rewrite column_cons. destruct (nth_error (snd p) k) as [c|] eqn:EC.
  2:{ apply nth_error_None in EC. lia. }
  cbn [app]. rewrite out_push by (auto; lia).
  rewrite <- app_assoc, (firstn_step _ _ _ EC).
  specialize (IH (pre ++ [fst p ++ firstn (S k) (snd p)])). rewrite app_length in IH. cbn [length] in IH.
  destruct (Nat.eqb_spec (S (length pre)) (length info)) as [E|E].
  + destruct suf; [|cbn [length] in HL; lia]. reflexivity.
  + rewrite <- !app_assoc in IH. cbn [app] in IH. rewrite Nat.add_1_r in IH.
    apply IH; [lia|destruct suf; [cbn [length] in HL; lia|discriminate]|exact HS'].
Qed.

Lemma ec_rows rest : forall j k r, mx <= r -> k + j = e ->
  exists r', out (flat_map (fun k => column k (map snd parts)) (seq k j) ++ rest)
      (St info r 0 (map (fun p => fst p ++ firstn k (snd p)) parts))
  = out rest (St info r' 0 (map (fun p => fst p ++ snd p) parts)).
Proof.
  induction j as [|j IH]; intros k r Hr Hk.
  - exists r. cbn [seq flat_map app]. f_equal. f_equal. apply map_ext_in.
    intros p Hp. rewrite firstn_all2; [reflexivity|]. rewrite Forall_forall in HP.
    specialize (HP p Hp). lia.
  - cbn [seq flat_map]. rewrite <- app_assoc.
    pose proof (ec_row r k (flat_map (fun k0 => column k0 (map snd parts)) (seq (S k) j) ++ rest) Hr ltac:(lia)
      parts [] ltac:(cbn; lia) ltac:(destruct parts; [cbn in HN; lia|discriminate]) eq_refl) as H.
    cbn [app length] in H. rewrite H. apply IH; lia.
Qed.

Lemma undo_interleave :
  out (interleave parts) (blocks_new info) = Ok (map (fun p => fst p ++ snd p) parts).
Proof.
  unfold interleave.
  assert (E0 : blocks_new info = St info 0 0 (map (fun p => firstn 0 (fst p)) parts)).
  { unfold St, blocks_new. cbn [b_max_data_round]. f_equal.
    - pose proof len_info as LI. revert LI. clear. revert parts.
      induction info as [|a l IH]; intros [|p ps] H; try discriminate; [reflexivity|].
      cbn [map firstn]. f_equal. apply IH. cbn in H. lia.
    - pose proof Hn' as HN'. pose proof Hpos' as HP'. symmetry. apply Nat.ltb_lt.
      revert HN' HP'. clear. intros HN' HP'.
      destruct info as [|bi l]; [cbn in HN'; lia|].
      pose proof (D_le (bi :: l) 0) as H. cbn [nth_error] in H.
      pose proof (HP' bi (or_introl eq_refl)). cbn [blocks_new b_max_data_round] in H. lia. }
  rewrite E0. unfold columns at 1. rewrite <- max_parts.
  rewrite (data_rows (columns (map snd parts)) mx 0 eq_refl).
  assert (EM : list_max (map (@length N) (map snd parts)) = e).
  { revert HN HP. clear. intros HN HP. rewrite map_map.
    assert (G : map (fun p : list N * list N => length (snd p)) parts = repeat e (length parts)).
    { clear HN. induction parts as [|p ps IH]; [reflexivity|]. inversion HP as [|? ? Ha Hb]. cbn [map length repeat].
      rewrite (IH Hb). f_equal. apply Ha. }
    rewrite G. destruct (length parts) as [|k]; [lia|]. clear.
    assert (G : forall j, list_max (repeat e (S j)) = e).
    { induction j as [|j IH]; [cbn; lia|]. change (repeat e (S (S j))) with (e :: repeat e (S j)).
      cbn [list_max fold_right]. change (fold_right Nat.max 0 (repeat e (S j))) with (list_max (repeat e (S j))).
      rewrite IH. lia. }
    apply G. }
  unfold columns. rewrite EM.
  destruct (ec_rows [] e 0 mx (le_n _) eq_refl) as (r' & H). rewrite app_nil_r in H.
  replace (map fst parts) with (map (fun p : list N * list N => fst p ++ firstn 0 (snd p)) parts).
  - rewrite H. reflexivity.
  - apply map_ext. intros p. cbn [firstn]. apply app_nil_r.
Qed.

End Undo.
