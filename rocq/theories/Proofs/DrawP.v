(** Drawing symbols, for the examples and to show that the hypotheses can be met. *)
From Coq Require Import NArith ZArith List Lia Bool Arith.
From Verif.Spec Require Import Bits Symbol Layout Encoder.
From Verif.Proofs Require Import BaseP BitsP LayoutP CountP.
Import ListNotations.
Local Open Scope Z_scope.

Lemma place_other ps : forall bs base x y, ~ In (x, y) ps -> place ps bs base x y = base x y.
Proof.
  induction ps as [|[a b] ps IH]; intros [|c bs] base x y H; try reflexivity.
  cbn [place fst snd]. destruct (Z.eqb_spec a x), (Z.eqb_spec b y); cbn [andb];
    try (apply IH; intros HI; apply H; now right).
  subst. exfalso. apply H. now left.
Qed.

Lemma place_all ps base : NoDup ps -> forall bs, length bs = length ps ->
  map (fun p => place ps bs base (fst p) (snd p)) ps = bs.
Proof.
  induction 1 as [|[a b] ps Hp HN IH]; intros [|c bs] E; try discriminate; [reflexivity|].
  cbn [map place fst snd]. rewrite !Z.eqb_refl. cbn [andb]. f_equal.
  etransitivity; [|apply (IH bs); cbn in E; lia]. apply map_ext_in. intros [x y] HI. cbn [fst snd].
  destruct (Z.eqb_spec a x), (Z.eqb_spec b y); cbn [andb]; try reflexivity. subst. contradiction.
Qed.

Lemma engrave_bits v mask bs base : 1 <= v <= 40 -> Z.of_nat (length bs) = data_module_count v ->
  symbol_bits v (engrave v mask bs base) mask = bs.
Proof.
  intros Hv HL. pose proof (data_order_length v Hv) as HO. unfold symbol_bits.
  assert (E : map (fun p => engrave v mask bs base (fst p) (snd p)) (data_order v)
    = map (fun p => xorb (snd p) (mask_bit mask (fst (fst p)) (snd (fst p)))) (combine (data_order v) bs)).
  { unfold engrave. apply place_all; [apply data_order_NoDup; lia|].
    rewrite map_length, combine_length. lia. }
  assert (HL' : length bs = length (data_order v)) by lia. clear HL HO.
  revert HL' E. generalize (engrave v mask bs base) as f. generalize (data_order v) as ps. clear.
  intros ps f. revert bs. induction ps as [|[x y] ps IH]; intros [|b bs] HL E; try discriminate; [reflexivity|].
  cbn [combine map fst snd] in *. injection E as E1 E2. f_equal; [|apply IH; auto; cbn in HL; lia].
  rewrite E1. now destruct b, (mask_bit mask x y).
Qed.

Lemma engrave_other v mask bs base x y : 1 <= v -> ~ data_module v x y ->
  engrave v mask bs base x y = base x y.
Proof. intros Hv H. apply place_other. now rewrite data_order_In. Qed.
