(** Facts about the result monad and vectors of the model. *)
From Coq Require Import Lia.
From Verif.Model Require Import Base.

(* keep arithmetic folded when computing with [simpl] *)
Global Arguments N.add : simpl never.
Global Arguments N.sub : simpl never.
Global Arguments N.mul : simpl never.
Global Arguments N.div : simpl never.
Global Arguments N.modulo : simpl never.
Global Arguments N.pow : simpl never.
Global Arguments N.shiftl : simpl never.
Global Arguments N.shiftr : simpl never.
Global Arguments N.leb : simpl never.
Global Arguments N.ltb : simpl never.
Global Arguments N.eqb : simpl never.
Global Arguments N.lxor : simpl never.
Global Arguments N.of_nat : simpl never.
Global Arguments N.to_nat : simpl never.
Global Arguments Z.add : simpl never.
Global Arguments Z.sub : simpl never.
Global Arguments Z.mul : simpl never.
Global Arguments Z.div : simpl never.
Global Arguments Z.modulo : simpl never.
Global Arguments Z.pow : simpl never.
Global Arguments Z.leb : simpl never.
Global Arguments Z.ltb : simpl never.
Global Arguments Z.eqb : simpl never.
Global Arguments Z.of_nat : simpl never.
Global Arguments Z.to_nat : simpl never.
Global Arguments Z.of_N : simpl never.
Global Arguments Z.to_N : simpl never.

Lemma bind_ok {A B} (x : res A) (f : A -> res B) b :
  bind x f = Ok b -> exists a, x = Ok a /\ f a = Ok b.
Proof. destruct x; simpl; intros; try discriminate; eauto. Qed.

Lemma bind_panic {A B} (x : res A) (f : A -> res B) p :
  bind x f = Panic p -> x = Panic p \/ exists a, x = Ok a /\ f a = Panic p.
Proof. destruct x; simpl; intros H; try discriminate; eauto. left. now injection H as ->. Qed.

Lemma bind_err {A B} (x : res A) (f : A -> res B) e :
  bind x f = Err e -> x = Err e \/ exists a, x = Ok a /\ f a = Err e.
Proof. destruct x; simpl; intros H; try discriminate; eauto. left. now injection H as ->. Qed.

Lemma bind_assoc {A B C} (x : res A) (f : A -> res B) (g : B -> res C) :
  bind (bind x f) g = bind x (fun a => bind (f a) g).
Proof. now destruct x. Qed.

Lemma sub_N_ok a b : (b <= a)%N -> sub_N a b = Ok (a - b)%N.
Proof. intros. unfold sub_N. destruct (N.ltb_spec a b); [lia|reflexivity]. Qed.
Lemma sub_Z_ok a b : (b <= a)%Z -> sub_Z a b = Ok (a - b)%Z.
Proof. intros. unfold sub_Z. destruct (Z.ltb_spec a b); [lia|reflexivity]. Qed.
Lemma sub_nat_ok a b : b <= a -> sub_nat a b = Ok (a - b).
Proof. intros. unfold sub_nat. destruct (Nat.ltb_spec a b); [lia|reflexivity]. Qed.
Lemma shr_u8_ok a k : (k < 8)%N -> shr_u8 a k = Ok (N.shiftr a k).
Proof. intros. unfold shr_u8. destruct (N.leb_spec 8 k); [lia|reflexivity]. Qed.
Lemma shl_u8_ok a k : (k < 8)%N -> shl_u8 a k = Ok (N.modulo (N.shiftl a k) 256).
Proof. intros. unfold shl_u8. destruct (N.leb_spec 8 k); [lia|reflexivity]. Qed.
Lemma shl_u16_ok a k : (k < 16)%N -> shl_u16 a k = Ok (N.modulo (N.shiftl a k) 65536).
Proof. intros. unfold shl_u16. destruct (N.leb_spec 16 k); [lia|reflexivity]. Qed.
Lemma add_u8_ok a b : (a + b < 256)%N -> add_u8 a b = Ok (a + b)%N.
Proof. intros. unfold add_u8. destruct (N.leb_spec 256 (a+b)); [lia|reflexivity]. Qed.
Lemma mul_u8_ok a b : (a * b < 256)%N -> mul_u8 a b = Ok (a * b)%N.
Proof. intros. unfold mul_u8. destruct (N.leb_spec 256 (a*b)); [lia|reflexivity]. Qed.
Lemma add_u16_ok a b : (a + b < 65536)%N -> add_u16 a b = Ok (a + b)%N.
Proof. intros. unfold add_u16. destruct (N.leb_spec 65536 (a+b)); [lia|reflexivity]. Qed.
Lemma chk_u32_ok a : (0 <= a <= u32_max)%Z -> chk_u32 a = Ok a.
Proof.
  intros. unfold chk_u32.
  destruct (Z.leb_spec 0 a); [|lia]. destruct (Z.leb_spec a u32_max); [reflexivity|lia].
Qed.
Lemma chk_u32_inv a b : chk_u32 a = Ok b -> b = a /\ (0 <= a <= u32_max)%Z.
Proof.
  unfold chk_u32. destruct (Z.leb_spec 0 a), (Z.leb_spec a u32_max); simpl; intros E;
  try discriminate. injection E as <-. auto.
Qed.

Lemma update_length {A} (v : list A) i a : length (update v i a) = length v.
Proof. revert i. induction v; intros [|i]; simpl; auto. Qed.

Lemma nth_error_update_same {A} (v : list A) i a :
  i < length v -> nth_error (update v i a) i = Some a.
Proof.
  revert i. induction v; intros [|i] H; simpl in *; try lia; auto. apply IHv. lia.
Qed.

Lemma nth_error_update_other {A} (v : list A) i j a :
  i <> j -> nth_error (update v i a) j = nth_error v j.
Proof.
  revert i j. induction v; intros [|i] [|j] H; simpl; auto; try congruence.
Qed.

Lemma get_ok {A} (v : list A) i a : nth_error v i = Some a -> get v i = Ok a.
Proof. unfold get. now intros ->. Qed.

Lemma get_lt {A} (v : list A) i : i < length v -> exists a, get v i = Ok a /\ nth_error v i = Some a.
Proof.
  intros H. unfold get. destruct (nth_error v i) eqn:E; eauto.
  apply nth_error_None in E. lia.
Qed.

Lemma get_inv {A} (v : list A) i a : get v i = Ok a -> nth_error v i = Some a.
Proof. unfold get. destruct (nth_error v i); congruence. Qed.

Lemma get_nth {A} (v : list A) i d : i < length v -> get v i = Ok (nth i v d).
Proof. intros H. unfold get. now rewrite (nth_error_nth' v d H). Qed.

Lemma get_not_err {A} (v : list A) i e : get v i <> Err e.
Proof. unfold get. destruct (nth_error v i); discriminate. Qed.

Lemma set_ok {A} (v : list A) i a : i < length v -> set v i a = Ok (update v i a).
Proof. intros. unfold set. destruct (Nat.ltb_spec i (length v)); [reflexivity|lia]. Qed.

Lemma set_inv {A} (v : list A) i a w : set v i a = Ok w -> i < length v /\ w = update v i a.
Proof.
  unfold set. destruct (Nat.ltb_spec i (length v)); [|discriminate]. intros E.
  injection E as <-. auto.
Qed.

Lemma foldM_app {A S} (f : S -> A -> res S) l1 l2 s :
  foldM f (l1 ++ l2) s = bind (foldM f l1 s) (foldM f l2).
Proof.
  revert s. induction l1 as [|a l1 IH]; intros s; simpl; auto.
  destruct (f s a); simpl; auto.
Qed.

Lemma foldM_inv {A S} (I : S -> Prop) (f : S -> A -> res S) l s s' :
  I s -> (forall a s s', In a l -> I s -> f s a = Ok s' -> I s') ->
  foldM f l s = Ok s' -> I s'.
Proof.
  revert s. induction l as [|a l IH]; simpl; intros s Hs Hf H.
  - injection H as <-. auto.
  - apply bind_ok in H as (s1 & H1 & H2).
    apply (IH s1); [apply (Hf a s s1); auto|intros; eapply (Hf a0); eauto|assumption].
Qed.

(** A loop whose body succeeds on states satisfying an invariant succeeds. *)
Lemma foldM_ok {A S} (I : S -> Prop) (f : S -> A -> res S) l s :
  I s -> (forall a s, In a l -> I s -> exists s', f s a = Ok s' /\ I s') ->
  exists s', foldM f l s = Ok s' /\ I s'.
Proof.
  revert s. induction l as [|a l IH]; simpl; intros s Hs Hf; eauto.
  destruct (Hf a s (or_introl eq_refl) Hs) as (s1 & -> & H1). simpl.
  apply IH; auto.
Qed.

Lemma foldM_ext {A S} (f g : S -> A -> res S) l s :
  (forall s a, In a l -> f s a = g s a) -> foldM f l s = foldM g l s.
Proof.
  revert s. induction l as [|a l IH]; simpl; intros s H; auto.
  rewrite H by auto. destruct (g s a); simpl; auto.
Qed.

Lemma mapM_ext {A B} (f g : A -> res B) l :
  (forall a, In a l -> f a = g a) -> mapM f l = mapM g l.
Proof.
  induction l as [|a l IH]; simpl; intros H; auto.
  rewrite H by auto. rewrite IH by auto. reflexivity.
Qed.

Lemma mapM_pure {A B} (f : A -> res B) (h : A -> B) l :
  (forall a, In a l -> f a = Ok (h a)) -> mapM f l = Ok (map h l).
Proof.
  induction l as [|a l IH]; simpl; intros H; auto.
  rewrite H by auto. simpl. rewrite IH by auto. reflexivity.
Qed.

Lemma mapM_length {A B} (f : A -> res B) l r : mapM f l = Ok r -> length r = length l.
Proof.
  revert r. induction l as [|a l IH]; simpl; intros r H.
  - injection H as <-. auto.
  - apply bind_ok in H as (b & _ & H). apply bind_ok in H as (bs & H1 & H2).
    injection H2 as <-. simpl. f_equal. auto.
Qed.

Lemma mapM_Forall2 {A B} (f : A -> res B) l r :
  mapM f l = Ok r -> Forall2 (fun a b => f a = Ok b) l r.
Proof.
  revert r. induction l as [|a l IH]; simpl; intros r H.
  - injection H as <-. constructor.
  - apply bind_ok in H as (b & Hb & H). apply bind_ok in H as (bs & H1 & H2).
    injection H2 as <-. constructor; auto.
Qed.

Lemma range_length a b : length (range a b) = b - a.
Proof. apply seq_length. Qed.

Lemma in_range_iff a b i : In i (range a b) <-> a <= i < b.
Proof. unfold range. rewrite in_seq. lia. Qed.

Lemma slice_ok {A} (v : list A) a b : a <= b -> b <= length v ->
  slice v a b = Ok (firstn (b - a) (skipn a v)).
Proof.
  intros. unfold slice. destruct (Nat.leb_spec a b); [|lia].
  destruct (Nat.leb_spec b (length v)); [reflexivity|lia].
Qed.

Lemma skipn_skipn {A} (l : list A) a b : skipn a (skipn b l) = skipn (b + a) l.
Proof.
  revert l. induction b as [|b IH]; intros l; [reflexivity|].
  destruct l as [|x l]; simpl; [now rewrite skipn_nil|]. apply IH.
Qed.
