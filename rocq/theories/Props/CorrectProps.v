(** Error correction of one block: C14 to C20. *)
From Coq Require Import NArith List Lia Bool Arith ZArith.
From Verif.Model Require Import Correct.
From Verif.Spec Require Import GF256 RS.
From Verif.Proofs Require Import BaseP GaloisP PolyP SolveP LinearP NewtonP HankelP CorrectP RestoreP RSBridgeP.
Import ListNotations.
Local Open Scope N_scope.

(** *** C14: the arithmetic *)

Theorem C14_sum a b : forall i, N.testbit (gf8_add a b) i = xorb (N.testbit a i) (N.testbit b i)
  /\ gf8_sub a b = gf8_add a b.
Proof. intros i. split; [apply N.lxor_spec|reflexivity]. Qed.

Theorem C14_product a b : a < 256 -> b < 256 ->
  forall c, is_product a b c <-> c = gf8_mul a b.
Proof.
  intros Ha Hb c. pose proof (gf8_mul_product a b Ha Hb) as HP. split; [|intros ->; exact HP].
  intros HC. exact (product_unique a b c _ HC HP).
Qed.

Example C14_product_example : gf8_mul 87 131 = 49 /\ is_product 87 131 49.
Proof. split; [reflexivity|]. apply C14_product; reflexivity. Qed.

(** a zero dividend gives the inverse of the divisor instead of zero *)
Theorem C14_division_refuted :
  ~ (forall a b, a < 256 -> b < 256 -> b <> 0 -> is_product (gf8_div a b) b a).
Proof.
  intros H. specialize (H 0 2 ltac:(reflexivity) ltac:(reflexivity) ltac:(discriminate)).
  apply C14_product in H; [|reflexivity|reflexivity]. vm_compute in H. discriminate.
Qed.

Theorem C14_division_zero b : 0 < b < 256 -> is_product (gf8_div 0 b) b 1.
Proof.
  intros H. apply C14_product; [apply gf8_div_byte; lia|lia|]. symmetry. now apply gf8_div_0_l.
Qed.

(** missing from the full statement: the dividend 0 *)
Theorem C14_division_partial a b : 0 < a < 256 -> 0 < b < 256 -> is_product (gf8_div a b) b a.
Proof.
  intros Ha Hb. apply C14_product; [apply gf8_div_byte; lia|lia|]. symmetry. now apply gf8_div_ok.
Qed.

Example C14_division_example : gf8_div 49 131 = 87.
Proof. reflexivity. Qed.

(** *** C15: undamaged blocks *)

Section Structures.
Context (v : Z) (l : eclevel) (bis : list block_info_t) (bi : block_info_t).
Hypothesis HT : block_table v l = Some bis.
Hypothesis HI : In bi bis.

Lemma TL : table_like bi.
Proof. exact (proj1 (table_facts v l bis bi HT HI)). Qed.

Lemma used_roots c : codeword (total_per bi - data_per bi) c -> codeword (2 * ec_cap bi) c.
Proof.
  intros H i Hi. apply H. pose proof (proj1 (proj2 (table_facts v l bis bi HT HI))). lia.
Qed.

Theorem C15_undamaged c : bytes c -> length c = total_per bi ->
  codeword (total_per bi - data_per bi) c ->
  correct_with_error_count c bi = Ok (c, 0) /\ correct c bi = Ok c.
Proof.
  intros HB HL HC. destruct (lift_bytes c HB) as [c' ->]. rewrite map_length in HL.
  apply used_roots in HC. rewrite codeword_gv in HC.
  assert (E : correct_with_error_count (map gv c') bi = Ok (map gv c', 0)).
  { unfold correct_with_error_count. destruct TL as (_ & H2 & _). rewrite calculate_syndromes_ok by auto. cbn [bind].
    apply forallb_synd in HC. now rewrite HC. }
  split; auto. unfold correct. now rewrite E.
Qed.

(** *** C16: damage within the capacity *)

(** damage whose values cancel is never repaired *)
Theorem C16_cancelling c b : bytes c -> bytes b -> length c = total_per bi -> length b = total_per bi ->
  codeword (total_per bi - data_per bi) c ->
  errors c b <> [] -> (length (errors c b) <= 2 * ec_cap bi)%nat ->
  fold_right N.lxor 0 (map snd (errors c b)) = 0 ->
  exists e, correct_with_error_count b bi = Err e.
Proof.
  intros HBc HBb HLc HLb HC HE HEL HX.
  destruct (lift_bytes c HBc) as [c' ->]. destruct (lift_bytes b HBb) as [b' ->]. rewrite map_length in *.
  apply used_roots in HC. rewrite codeword_gv in HC.
  assert (HLL : length c' = length b') by congruence.
  rewrite errors_length in HEL by auto.
  assert (H0 : (0 < length (damage c' b'))%nat).
  { rewrite <- errors_length by auto. destruct (errors (map gv c') (map gv b')); [congruence|simpl; lia]. }
  pose proof (damage_noticed bi c' b' TL HLc HLb HC ltac:(lia)) as HN.
  pose proof (run_decides bi b' _ HLb (correct_run bi b' TL HLb) HN) as HD.
  assert (HS : synd_at b' 0 = g0).
  { rewrite (damage_synd c' b' (2 * ec_cap bi) 0) by (auto; lia). unfold synd.
    apply gv_g0. rewrite <- (moment_gv c' b' (fun x => gpow x 0) (fun _ => 1)) by (auto; reflexivity).
    pose proof (errors_byte (map gv c') (map gv b') (bytes_gv c') (bytes_gv b')) as HBY. revert HX HBY.
    generalize (errors (map gv c') (map gv b')). clear. intros es <-. unfold moment.
    induction es as [|[p e] es IH]; intros HB; auto. cbn [fold_right map snd].
    rewrite IH by (intros; eapply HB; right; eauto). f_equal.
    pose proof (HB p e (or_introl eq_refl)) as He.
    rewrite fmul_gf8 by lia. rewrite gf8_mul_comm. now apply gf8_mul_1_l. }
  destruct (correct_with_error_count (map gv b') bi) as [r|e|p]; [|eauto|contradiction].
  now rewrite HS in HD.
Qed.

(** which damage is repaired, for damage that meets no zero quotient in the first solve:
    exactly that for which the second solve meets none either.
    Missing from the full statement: every other pattern of damage within the capacity. *)
Theorem C16_restored_partial c b Q :
  bytes c -> bytes b -> length c = total_per bi -> length b = total_per bi ->
  codeword (total_per bi - data_per bi) c ->
  let es := errors c b in
  let z := ec_cap bi in
  es <> [] -> (length es <= z)%nat -> regular z es ->
  bytes Q -> (length Q <= length es)%nat ->
  (forall p e, In (p, e) es -> locator (length es) z Q (fpow 2 p) = 0) ->
  let locs := filter (fun i => locator (length es) z Q (fpow 2 i) =? 0) (seq 0 (total_per bi)) in
  correct_with_error_count b bi = Ok (c, bit_distance b c) <->
  forall k, (k < length locs)%nat -> moment es (product (firstn k locs)) <> 0.
Proof.
  intros HBc HBb HLc HLb HC es z HE HEL HR HBQ HLQ HV locs.
  destruct (lift_bytes c HBc) as [c' ->]. destruct (lift_bytes b HBb) as [b' ->].
  destruct (lift_bytes Q HBQ) as [q ->]. rewrite map_length in *.
  apply used_roots in HC. rewrite codeword_gv in HC.
  assert (HLL : length c' = length b') by congruence.
  assert (EL : length es = length (damage c' b')) by (apply errors_length; auto).
  set (P := fun x => (gpow x z + (if Nat.ltb (length es) z then gpow x (z - 1) else g0) + peval q x)%G).
  assert (HP : forall x, gv (P x) = locator (length es) z (map gv q) (gv x)).
  { intros x. unfold P, locator. rewrite !gv_add. unfold gf8_add.
    rewrite gv_peval, gv_pow. destruct (Nat.ltb (length es) z); [rewrite gv_pow|]; reflexivity. }
  assert (HLO : locs = loc_list (total_per bi) P).
  { unfold locs, loc_list. apply filter_ext. intros i. unfold is_root. rewrite fpow_alpha, <- HP.
    destruct (gf_eq_dec (P (alpha i)) g0) as [E|E].
    - rewrite E. reflexivity.
    - apply N.eqb_neq. intros E'. now apply gv_g0 in E'. }
  assert (HNE : c' <> b').
  { intros ->. apply HE. unfold es. clear. induction (map gv b') as [|x l IH]; auto. cbn [errors]. now rewrite N.eqb_refl. }
  pose proof (restore_iff bi c' b' P TL HLc HLb HC HNE) as HRI. rewrite <- EL in HRI. fold z in HRI.
  rewrite <- HRI.
  - rewrite <- HLO. split; intros H k Hk.
    + intros E. apply (H k Hk). apply gv_g0. rewrite <- E. symmetry. apply moment_gv; auto.
      intros x. rewrite newton_firstn by lia. rewrite <- product_gv; auto.
    + intros E. apply (H k Hk).
      unfold es. rewrite (moment_gv c' b' (newton (fun j => alpha (nth j locs 0%nat)) k)); auto.
      * rewrite E. reflexivity.
      * intros x. rewrite newton_firstn by lia. rewrite <- product_gv; auto.
  - exact HEL.
  - apply orth_exact; auto. intros k Hk. destruct (HR k Hk) as (p & HBp & HLp & H0 & H1).
    destruct (lift_bytes p HBp) as [p' ->]. rewrite map_length in HLp.
    assert (HPA : forall i, pairing es (map gv p') k i
                  = gv (psum (damage c' b') (fun x => (peval p' x + gpow x k) * gpow x i)%G)).
    { intros i. unfold pairing, es. apply moment_gv; auto. intros x.
      rewrite gv_fmul, gv_add, gv_peval, !gv_pow. reflexivity. }
    exists (fun x => (peval p' x + gpow x k)%G). split; [|split].
    + exists p'. split; auto.
    + intros i Hi. apply gv_g0. rewrite <- HPA. now apply H0.
    + intros i Hi E. apply (H1 i Hi). rewrite HPA, E. reflexivity.
  - exists (peval q). split; [exists q; split; auto|]. intros x. reflexivity.
  - intros x e HIn. destruct (errors_in c' b' x e HLL HIn) as (p & -> & HIp). apply gv_g0.
    rewrite HP, <- fpow_alpha. eapply HV. exact HIp.
Qed.

(** *** C17: accepted blocks *)

(** the check on the result looks at one syndrome only.
    Missing from the full statement: the other syndromes the code uses. *)
Theorem C17_accepted_partial b b' n : bytes b -> length b = total_per bi ->
  correct_with_error_count b bi = Ok (b', n) ->
  codeword 1 b' /\ (codeword (2 * ec_cap bi) b -> b' = b).
Proof.
  intros HB HL E. destruct (lift_bytes b HB) as [g ->]. rewrite map_length in HL.
  pose proof (correct_run bi g TL HL) as HR.
  split.
  - destruct (run_accepted bi g _ b' n HR E) as (g' & -> & H). rewrite codeword_gv. intros i Hi.
    assert (i = 0)%nat by lia. subst i. destruct H as [H|H]; auto. apply H. destruct TL. lia.
  - intros HC. rewrite codeword_gv in HC.
    unfold correct_with_error_count in E. destruct TL as (_ & H2 & _). rewrite calculate_syndromes_ok in E by auto.
    cbn [bind] in E. apply forallb_synd in HC. rewrite HC in E. now injection E as <- <-.
Qed.

(** and that check says nothing: a block that is no code word is accepted only if its
    first syndrome is not zero, and if it is rejected by the check its first syndrome was
    zero, whatever the other syndromes and the corrections are *)
Theorem C17_check_is_vacuous b : bytes b -> length b = total_per bi -> ~ codeword (2 * ec_cap bi) b ->
  (forall r, correct_with_error_count b bi = Ok r -> value_at b 1 <> 0) /\
  (forall e, correct_with_error_count b bi = Err e ->
     e = EDistances \/ (e = ENotFixed /\ value_at b 1 = 0)).
Proof.
  intros HB HL HC. destruct (lift_bytes b HB) as [g ->]. rewrite map_length in HL. rewrite codeword_gv in HC.
  assert (HN : exists i, (i < 2 * ec_cap bi)%nat /\ synd_at g i <> g0).
  { clear - HC. assert (HD : (forall i, (i < 2 * ec_cap bi)%nat -> synd_at g i = g0) \/
                   exists i, (i < 2 * ec_cap bi)%nat /\ synd_at g i <> g0).
    { clear. induction (2 * ec_cap bi)%nat as [|m [IH|(i & Hi & E)]].
      - left. intros; lia.
      - destruct (gf_eq_dec (synd_at g m) g0) as [E|E].
        + left. intros i Hi. destruct (Nat.eq_dec i m) as [->|]; auto. apply IH. lia.
        + right. exists m. auto.
      - right. exists i. auto. }
    destruct HD as [HD|HD]; auto. contradiction. }
  pose proof (run_decides bi g _ HL (correct_run bi g TL HL) HN) as HD.
  assert (HV : value_at (map gv g) 1 = gv (synd_at g 0)).
  { change 1 with (gv g1) at 1. rewrite value_at_gv. unfold synd_at. now rewrite alpha_0. }
  rewrite HV. split.
  - intros r E. rewrite E in HD. intros EV. apply gv_g0 in EV. contradiction.
  - intros e E. rewrite E in HD. destruct HD as [HD|[HD1 HD2]]; auto. right. split; auto. rewrite HD2. reflexivity.
Qed.

(** *** C18: the reported count *)
Theorem C18_error_count b b' n : bytes b -> length b = total_per bi ->
  correct_with_error_count b bi = Ok (b', n) ->
  length b' = length b /\ n = bit_distance b b'.
Proof.
  intros HB HL E. destruct (lift_bytes b HB) as [g ->]. rewrite map_length in *.
  apply (run_count bi g _ b' n TL HL (correct_run bi g TL HL) E).
Qed.

(** *** C19: no panic *)
Theorem C19_correct_never_panics b : bytes b -> length b = total_per bi ->
  forall p, correct_with_error_count b bi <> Panic p /\ correct b bi <> Panic p.
Proof.
  intros HB HL p. destruct (lift_bytes b HB) as [g ->]. rewrite map_length in HL.
  pose proof (run_no_panic bi g _ p (correct_run bi g TL HL)) as H. split; auto.
  unfold correct. destruct (correct_with_error_count (map gv g) bi) as [[u w]|e|q]; cbn [bind]; congruence.
Qed.

(** *** C20: one damaged codeword *)
Lemma single_errors c b p e : bytes (map gv c) -> length c = length b ->
  errors (map gv c) (map gv b) = [(p, e)] ->
  (p < length b)%nat /\ exists g, gv g = e /\ g <> g0 /\ damage c b = [(alpha p, g)].
Proof.
  intros _ HL HE. pose proof (errors_length c b HL) as EL. rewrite HE in EL. cbn [length] in EL.
  destruct (damage c b) as [|[x g] [|y l']] eqn:ED; cbn [length] in EL; try discriminate.
  destruct (errors_in c b x g HL ltac:(rewrite ED; now left)) as (q & -> & HIq).
  rewrite HE in HIq. destruct HIq as [HIq|[]]. injection HIq as -> ->.
  assert (HIN : In (alpha q, g) (damage c b)) by (rewrite ED; now left).
  apply err_list_in in HIN. destruct HIN as (i & Hi & _ & _ & Hg).
  split; [|exists g; auto].
  clear - HE HL. revert b HL HE. induction c as [|x c IH]; intros [|y b] HL HE; cbn [length] in HL; try discriminate.
  cbn [map errors] in HE. destruct (N.eqb (gv x) (gv y)).
  - specialize (IH b ltac:(lia) HE). simpl. lia.
  - injection HE as E1 _ _. rewrite map_length in E1. simpl. lia.
Qed.

(** exactly which single errors are repaired; for each of them the outcome is a block,
    never an error *)
Theorem C20_single_partial c b p e : bytes c -> bytes b -> length c = total_per bi -> length b = total_per bi ->
  codeword (total_per bi - data_per bi) c -> errors c b = [(p, e)] ->
  let f i := N.lxor (fpow (fpow 2 i) (ec_cap bi)) (fpow (fpow 2 i) (ec_cap bi - 1)) in
  (correct_with_error_count b bi = Ok (c, bit_distance b c) <->
   forall i, (p < i < total_per bi)%nat -> f i <> f p) /\
  exists b' n, correct_with_error_count b bi = Ok (b', n).
Proof.
  intros HBc HBb HLc HLb HC HE f.
  destruct (lift_bytes c HBc) as [c' ->]. destruct (lift_bytes b HBb) as [b' ->]. rewrite map_length in *.
  apply used_roots in HC. rewrite codeword_gv in HC.
  destruct (single_errors c' b' p e HBc ltac:(congruence) HE) as (Hp & g & Hg & Hg0 & HD).
  split.
  - rewrite (single_restore bi c' b' p g TL HLc HLb HC HD ltac:(lia) Hg0).
    pose proof (proj2 (proj2 (table_facts v l bis bi HT HI))) as Hz2.
    assert (HF : forall i, f i = gv (bump (ec_cap bi) (alpha i))).
    { intros i. unfold f, bump. destruct (Nat.ltb_spec 1 (ec_cap bi)); [|lia].
      rewrite gv_add, !gv_pow, fpow_alpha. reflexivity. }
    split; intros H i Hi E; apply (H i Hi).
    + rewrite !HF in E. now apply gv_inj.
    + rewrite !HF. now rewrite E.
  - apply (single_found bi c' b' p g TL HLc HLb HC HD); auto. lia.
Qed.
End Structures.

(** *** Cases *)
Lemma codeword_check r b : forallb (fun i => value_at b (fpow 2 i) =? 0) (seq 0 r) = true -> codeword r b.
Proof.
  intros H i Hi. rewrite forallb_forall in H. apply N.eqb_eq, H, in_seq. lia.
Qed.
Lemma bytes_check b : forallb (fun a => a <? 256) b = true -> bytes b.
Proof. intros H. apply Forall_forall. intros a Ha. rewrite forallb_forall in H. now apply N.ltb_lt, H. Qed.

(** HELLO WORLD as the standard encodes it at version 1, levels M and L *)
Definition hello_M : list N :=
  [32; 91; 11; 120; 209; 114; 220; 77; 67; 64; 236; 17; 236; 17; 236; 17;
   196; 35; 39; 119; 235; 215; 231; 226; 93; 23].
Definition hello_L : list N :=
  [32; 91; 11; 120; 209; 114; 220; 77; 67; 64; 236; 17; 236; 17; 236; 17; 236; 17; 236;
   209; 239; 196; 207; 78; 195; 109].
Definition bi_M : block_info_t := BI 1 26 16 4.
Definition bi_L : block_info_t := BI 1 26 19 2.

Lemma hello_M_code : codeword 10 hello_M.
Proof. apply codeword_check. vm_compute. reflexivity. Qed.
Lemma hello_L_code : codeword 7 hello_L.
Proof. apply codeword_check. vm_compute. reflexivity. Qed.

(** [hit p e b]: the codeword that belongs to x^p is changed by e *)
Definition hit (p : nat) (e : N) (b : list N) : list N :=
  update b (length b - 1 - p) (N.lxor (nth (length b - 1 - p) b 0) e).

Example C15_example : correct_with_error_count hello_M bi_M = Ok (hello_M, 0).
Proof.
  apply (C15_undamaged 1 MEDIUM [bi_M] bi_M); try reflexivity; [now left|now apply bytes_check|].
  exact hello_M_code.
Qed.

(** two codewords changed by the same value, within the capacity of 4 *)
Definition twice : list N := hit 3 5 (hit 10 5 hello_M).

Theorem C16_refuted :
  ~ (forall v l bis bi c b, block_table v l = Some bis -> In bi bis -> bytes c -> bytes b ->
     length c = total_per bi -> length b = total_per bi -> codeword (total_per bi - data_per bi) c ->
     (distance c b <= ec_cap bi)%nat -> exists n, correct_with_error_count b bi = Ok (c, n)).
Proof.
  intros H. destruct (H 1%Z MEDIUM [bi_M] bi_M hello_M twice) as (n & E); try reflexivity.
  - now left.
  - now apply bytes_check.
  - now apply bytes_check.
  - exact hello_M_code.
  - vm_compute. lia.
  - destruct (C16_cancelling 1 MEDIUM [bi_M] bi_M eq_refl (or_introl eq_refl) hello_M twice) as (e & E'); try reflexivity.
    + now apply bytes_check.
    + now apply bytes_check.
    + exact hello_M_code.
    + vm_compute. discriminate.
    + vm_compute. lia.
    + congruence.
Qed.

Lemma below_2 (P : nat -> Prop) : P 0%nat -> P 1%nat -> forall k, (k < 2)%nat -> P k.
Proof. intros H0 H1 k Hk. destruct k as [|[|k]]; auto. lia. Qed.

(** two codewords changed by different values are repaired *)
Example C16_example :
  correct_with_error_count (hit 3 5 (hit 10 77 hello_M)) bi_M
  = Ok (hello_M, bit_distance (hit 3 5 (hit 10 77 hello_M)) hello_M).
Proof.
  apply (C16_restored_partial 1 MEDIUM [bi_M] bi_M eq_refl (or_introl eq_refl) hello_M
          (hit 3 5 (hit 10 77 hello_M)) [254; 172]); try reflexivity.
  - now apply bytes_check.
  - now apply bytes_check.
  - exact hello_M_code.
  - vm_compute. discriminate.
  - vm_compute. lia.
  - assert (E : errors hello_M (hit 3 5 (hit 10 77 hello_M)) = [(10%nat, 77); (3%nat, 5)]) by (vm_compute; reflexivity).
    rewrite E. unfold regular. cbn [length bi_M ec_cap]. apply below_2.
    + exists []. split; [constructor|]. split; [simpl; lia|]. split; [intros; lia|].
      intros b Hb. assert (Hb' : In b [0; 1; 2; 3; 4]%nat) by (cbn; lia).
      clear Hb. revert b Hb'. clear. apply Forall_forall. repeat constructor; vm_compute; discriminate.
    + exists [70]. split; [repeat constructor|]. split; [simpl; lia|]. split.
      * intros b Hb. assert (b = 0)%nat by lia. subst b. reflexivity.
      * intros b Hb. assert (Hb' : In b [1; 2; 3; 4]%nat) by (cbn; lia).
        clear Hb. revert b Hb'. clear. apply Forall_forall. repeat constructor; vm_compute; discriminate.
  - now apply bytes_check.
  - intros p e HIn. vm_compute in HIn. destruct HIn as [E|[E|[]]]; injection E as <- <-; reflexivity.
  - assert (E : filter (fun i => locator (length (errors hello_M (hit 3 5 (hit 10 77 hello_M)))) (ec_cap bi_M)
        [254; 172] (fpow 2 i) =? 0) (seq 0 (total_per bi_M)) = [3; 10]%nat) by (vm_compute; reflexivity).
    rewrite E. cbn [length]. apply below_2; vm_compute; discriminate.
Qed.

(** a single wrong codeword is turned into two wrong codewords, and the block accepted *)
Definition once : list N := hit 1 7 hello_L.

Example C20_wrong_block :
  exists b' n, correct_with_error_count once bi_L = Ok (b', n) /\
    distance hello_L once = 1%nat /\ distance hello_L b' = 2%nat.
Proof.
  eexists. eexists. split; [vm_compute; reflexivity|]. split; vm_compute; reflexivity.
Qed.

Theorem C17_refuted :
  ~ (forall v l bis bi b b' n, block_table v l = Some bis -> In bi bis -> bytes b -> length b = total_per bi ->
     correct_with_error_count b bi = Ok (b', n) -> codeword (2 * ec_cap bi) b').
Proof.
  intros H. destruct C20_wrong_block as (b' & n & E & _ & HD).
  specialize (H 1%Z LOW [bi_L] bi_L once b' n eq_refl (or_introl eq_refl) ltac:(now apply bytes_check) eq_refl E).
  vm_compute in E. injection E as <- <-. specialize (H 1%nat ltac:(cbn; lia)). vm_compute in H. discriminate.
Qed.

Example C17_example : ~ codeword (2 * ec_cap bi_L) once /\
  exists b' n, correct_with_error_count once bi_L = Ok (b', n) /\ codeword 1 b'.
Proof.
  split.
  - intros H. specialize (H 0%nat ltac:(cbn; lia)). vm_compute in H. discriminate.
  - destruct C20_wrong_block as (b' & n & E & _). exists b', n. split; auto.
    apply (C17_accepted_partial 1 LOW [bi_L] bi_L eq_refl (or_introl eq_refl) once b' n); auto.
    now apply bytes_check.
Qed.

Example C18_example : exists b', correct_with_error_count (hit 3 5 (hit 10 77 hello_M)) bi_M = Ok (b', 6).
Proof. eexists. vm_compute. reflexivity. Qed.

(** 26 codewords of which every one is wrong *)
Example C19_example : exists r, correct_with_error_count (map (fun a => N.lxor a 90) hello_L) bi_L = r /\
  (forall p, r <> Panic p) /\ bytes (map (fun a => N.lxor a 90) hello_L).
Proof.
  eexists. split; [reflexivity|]. split.
  - intros p. apply (C19_correct_never_panics 1 LOW [bi_L] bi_L eq_refl (or_introl eq_refl)); [|reflexivity].
    now apply bytes_check.
  - now apply bytes_check.
Qed.

Theorem C20_refuted :
  ~ (forall v l bis bi c b, block_table v l = Some bis -> In bi bis -> bytes c -> bytes b ->
     length c = total_per bi -> length b = total_per bi -> codeword (total_per bi - data_per bi) c ->
     distance c b = 1%nat -> exists n, correct_with_error_count b bi = Ok (c, n)).
Proof.
  intros H. destruct (H 1%Z LOW [bi_L] bi_L hello_L once) as (n & E); try reflexivity.
  - now left.
  - now apply bytes_check.
  - now apply bytes_check.
  - exact hello_L_code.
  - vm_compute in E. discriminate.
Qed.

(** the criterion at work: at version 1-L only the codewords of x^1 and x^10 are not
    repaired *)
Lemma single_check total z p :
  forallb (fun i => negb (N.lxor (fpow (fpow 2 i) z) (fpow (fpow 2 i) (z - 1))
                          =? N.lxor (fpow (fpow 2 p) z) (fpow (fpow 2 p) (z - 1))))
    (seq (S p) (total - S p)) = true ->
  forall i, (p < i < total)%nat ->
    N.lxor (fpow (fpow 2 i) z) (fpow (fpow 2 i) (z - 1)) <> N.lxor (fpow (fpow 2 p) z) (fpow (fpow 2 p) (z - 1)).
Proof.
  intros H i Hi. rewrite forallb_forall in H. specialize (H i ltac:(apply in_seq; lia)).
  apply negb_true_iff in H. now apply N.eqb_neq.
Qed.

Theorem C20_version_1_L c b p e : bytes c -> bytes b -> length c = 26%nat -> length b = 26%nat ->
  codeword 7 c -> errors c b = [(p, e)] ->
  correct_with_error_count b bi_L = Ok (c, bit_distance b c) <-> p <> 1%nat /\ p <> 10%nat.
Proof.
  intros HBc HBb HLc HLb HC HE.
  pose proof (C20_single_partial 1 LOW [bi_L] bi_L eq_refl (or_introl eq_refl) c b p e HBc HBb HLc HLb HC HE) as [H _].
  cbv zeta in H. rewrite H. clear H.
  assert (Hp : (p < 26)%nat).
  { clear - HE HLb HLc. rewrite <- HLb. assert (HL : length c = length b) by congruence. clear HLc HLb.
    revert b HL HE. induction c as [|x c IH]; intros [|y b] HL HE; cbn [length] in HL; try discriminate.
    cbn [errors] in HE. destruct (N.eqb x y).
    - specialize (IH b ltac:(lia) HE). simpl. lia.
    - injection HE as E1 _ _. simpl. lia. }
  split.
  - intros H. split; intros ->.
    + apply (H 25%nat); [cbn; lia|vm_compute; reflexivity].
    + apply (H 21%nat); [cbn; lia|vm_compute; reflexivity].
  - intros [H1 H10]. apply (single_check 26 2).
    assert (HA : forallb (fun p => orb (orb (p =? 1)%nat (p =? 10)%nat) (forallb (fun i => negb (N.lxor (fpow (fpow 2 i) 2) (fpow (fpow 2 i) 1)
                          =? N.lxor (fpow (fpow 2 p) 2) (fpow (fpow 2 p) 1))) (seq (S p) (26 - S p)))) (seq 0 26) = true)
      by (vm_compute; reflexivity).
    rewrite forallb_forall in HA. specialize (HA p ltac:(apply in_seq; lia)).
    apply orb_true_iff in HA. destruct HA as [HA|HA]; [|exact HA].
    apply orb_true_iff in HA. destruct HA as [HA|HA]; apply Nat.eqb_eq in HA; contradiction.
Qed.

(** block structures for which the full statement holds, among them version 1-M *)
Theorem C20_always_repaired v l bis bi c b p e : block_table v l = Some bis -> In bi bis ->
  In (total_per bi, ec_cap bi) [(26, 4); (45, 15); (46, 15); (47, 15)]%nat ->
  bytes c -> bytes b -> length c = total_per bi -> length b = total_per bi ->
  codeword (total_per bi - data_per bi) c -> errors c b = [(p, e)] ->
  correct_with_error_count b bi = Ok (c, bit_distance b c).
Proof.
  intros HT HI HS HBc HBb HLc HLb HC HE.
  apply (C20_single_partial v l bis bi HT HI c b p e HBc HBb HLc HLb HC HE).
  assert (Hp : (p < total_per bi)%nat).
  { clear - HE HLb HLc. rewrite <- HLb. assert (HL : length c = length b) by congruence. clear HLc HLb.
    revert b HL HE. induction c as [|x c IH]; intros [|y b] HL HE; cbn [length] in HL; try discriminate.
    cbn [errors] in HE. destruct (N.eqb x y).
    - specialize (IH b ltac:(lia) HE). simpl. lia.
    - injection HE as E1 _ _. simpl. lia. }
  apply single_check.
  assert (HA : forall t z, In (t, z) [(26, 4); (45, 15); (46, 15); (47, 15)]%nat ->
    forallb (fun p => forallb (fun i => negb (N.lxor (fpow (fpow 2 i) z) (fpow (fpow 2 i) (z - 1))
                          =? N.lxor (fpow (fpow 2 p) z) (fpow (fpow 2 p) (z - 1)))) (seq (S p) (t - S p))) (seq 0 t) = true).
  { intros t z [E|[E|[E|[E|[]]]]]; injection E as <- <-; vm_compute; reflexivity. }
  specialize (HA _ _ HS). rewrite forallb_forall in HA. apply HA, in_seq. lia.
Qed.

Example C20_example : correct_with_error_count (hit 1 7 hello_M) bi_M = Ok (hello_M, 3).
Proof.
  change 3 with (bit_distance (hit 1 7 hello_M) hello_M).
  apply (C20_always_repaired 1 MEDIUM [bi_M] bi_M hello_M (hit 1 7 hello_M) 1 7); try reflexivity.
  - now left.
  - now left.
  - now apply bytes_check.
  - now apply bytes_check.
  - exact hello_M_code.
Qed.
