(** Which modules are read, and in which order. *)
From Coq Require Import NArith ZArith List Lia Bool Arith.
From Verif.Model Require Import Blocks.
From Verif.Spec Require Import Bits Symbol Layout Bridge.
From Verif.Proofs Require Import BaseP FormatP.
Import ListNotations.
Local Open Scope Z_scope.

(** *** Function modules in explicit coordinates *)
Lemma in_format_iff v x y : 1 <= v -> 0 <= x < side_of v -> 0 <= y < side_of v ->
  (in_format v x y <->
   (x = 8 /\ (y <= 8 /\ y <> 6 \/ side_of v - 8 <= y)) \/
   (y = 8 /\ (x <= 8 /\ x <> 6 \/ side_of v - 8 <= x))).
Proof.
  intros Hv Hx Hy. assert (HS : 21 <= side_of v) by (unfold side_of; lia). unfold in_format. split.
  - intros [(i & Hi & E)|[(i & Hi & E)|[-> ->]]]; [| |lia].
    + unfold copy1 in E. revert E.
      destruct (Z.leb_spec i 5), (Z.eqb_spec i 6), (Z.eqb_spec i 7), (Z.eqb_spec i 8); intros E;
        injection E as -> ->; lia.
    + unfold copy2 in E. revert E. destruct (Z.leb_spec i 7); intros E; injection E as -> ->; lia.
  - intros [(-> & [(H1 & H2)|H])|(-> & [(H1 & H2)|H])].
    + left. assert (D : y <= 5 \/ y = 7 \/ y = 8) by lia. destruct D as [D|[-> | ->]].
      * exists y. split; [lia|]. unfold copy1. destruct (Z.leb_spec y 5); [reflexivity|lia].
      * exists 6. split; [lia|reflexivity].
      * exists 7. split; [lia|reflexivity].
    + right. destruct (Z.eq_dec y (side_of v - 8)) as [->|D]; [right; lia|left].
      exists (y - side_of v + 15). split; [lia|]. unfold copy2.
      destruct (Z.leb_spec (y - side_of v + 15) 7); [lia|]. f_equal. lia.
    + left. assert (D : x <= 5 \/ x = 7 \/ x = 8) by lia. destruct D as [D|[-> | ->]].
      * exists (14 - x). split; [lia|]. unfold copy1.
        destruct (Z.leb_spec (14 - x) 5), (Z.eqb_spec (14 - x) 6), (Z.eqb_spec (14 - x) 7),
          (Z.eqb_spec (14 - x) 8); try lia. f_equal. lia.
      * exists 8. split; [lia|reflexivity].
      * exists 7. split; [lia|reflexivity].
    + right. left. exists (side_of v - 1 - x). split; [lia|]. unfold copy2.
      destruct (Z.leb_spec (side_of v - 1 - x) 7); [|lia]. f_equal. lia.
Qed.

(** *** Alignment coordinates *)
Definition near (c centre : Z) : bool := (centre - 2 <=? c) && (c <=? centre + 2).

Definition version_check (v : Z) : bool :=
  match alignment_location v with
  | Ok loc =>
      forallb (fun c => Bool.eqb (is_alignment_coord loc c)
                          (if v =? 1 then near c 6 else existsb (near c) (alignment_centres v)))
              (map Z.of_nat (seq 0 (Z.to_nat (side_of v)))) &&
      forallb (fun c => (c =? 6) || (c =? side_of v - 7) || (22 <=? c) && (c <=? side_of v - 23))
              (alignment_centres v)
  | _ => false
  end.

Lemma versions_checked : forallb version_check (map Z.of_nat (seq 1 40)) = true.
Proof. vm_compute. reflexivity. Qed.

Lemma in_versions v : 1 <= v <= 40 -> In v (map Z.of_nat (seq 1 40)).
Proof. intros H. apply in_map_iff. exists (Z.to_nat v). split; [lia|]. apply in_seq. lia. Qed.

Lemma in_coords v c : 0 <= c < side_of v -> In c (map Z.of_nat (seq 0 (Z.to_nat (side_of v)))).
Proof. intros H. apply in_map_iff. exists (Z.to_nat c). split; [lia|]. apply in_seq. lia. Qed.

Lemma near_iff c k : near c k = true <-> k - 2 <= c <= k + 2.
Proof. unfold near. rewrite andb_true_iff, !Z.leb_le. reflexivity. Qed.

Lemma alignment_facts v : 1 <= v <= 40 -> exists loc, alignment_location v = Ok loc /\
  (forall c, 0 <= c < side_of v ->
     is_alignment_coord loc c = if v =? 1 then near c 6 else existsb (near c) (alignment_centres v)) /\
  (forall c, In c (alignment_centres v) ->
     c = 6 \/ c = side_of v - 7 \/ 22 <= c <= side_of v - 23).
Proof.
  intros Hv. pose proof (proj1 (forallb_forall _ _) versions_checked v (in_versions v Hv)) as H.
  unfold version_check in H. destruct (alignment_location v) as [loc| |]; try discriminate.
  apply andb_true_iff in H as [H1 H2]. exists loc. split; [reflexivity|]. split.
  - intros c Hc. rewrite forallb_forall in H1. apply eqb_prop, H1. now apply in_coords.
  - intros c Hc. rewrite forallb_forall in H2. specialize (H2 c Hc).
    rewrite !orb_true_iff, andb_true_iff, !Z.eqb_eq, !Z.leb_le in H2. lia.
Qed.

Lemma centres_1 : alignment_centres 1 = [].
Proof. reflexivity. Qed.

(** *** The data modules *)
Definition corner (v x y : Z) : Prop :=
  (x <= 8 /\ y <= 8) \/ (side_of v - 9 <= x /\ y <= 8) \/ (x <= 8 /\ side_of v - 9 <= y).

Lemma alignment_corner v x y : 1 <= v <= 40 -> corner v x y -> ~ in_alignment v x y.
Proof.
  intros Hv HC (cx & cy & Hcx & Hcy & HF & Hx & Hy).
  destruct (alignment_facts v Hv) as (_ & _ & _ & HA).
  assert (Hv1 : v <> 1) by (intros ->; rewrite centres_1 in Hcx; destruct Hcx).
  apply HA in Hcx. apply HA in Hcy. unfold in_finder in HF. unfold corner in HC.
  assert (HS : side_of v = 4 * v + 17) by reflexivity. lia.
Qed.

Lemma alignment_iff v x y loc : 1 <= v <= 40 -> alignment_location v = Ok loc -> inside v x y ->
  ~ corner v x y ->
  (in_alignment v x y <-> is_alignment_coord loc x = true /\ is_alignment_coord loc y = true).
Proof.
  intros Hv EL [Hx Hy] HC.
  destruct (alignment_facts v Hv) as (loc' & EL' & HA & HR).
  rewrite EL in EL'. injection EL' as <-. rewrite !HA by assumption.
  assert (HS : side_of v = 4 * v + 17) by reflexivity.
  destruct (Z.eqb_spec v 1) as [->|Hv1].
  - rewrite !near_iff. split.
    + intros (cx & cy & Hcx & _). rewrite centres_1 in Hcx. destruct Hcx.
    + unfold corner in HC. lia.
  - rewrite !existsb_exists. split.
    + intros (cx & cy & Hcx & Hcy & HF & Nx & Ny). split; [exists cx|exists cy]; now rewrite near_iff.
    + intros [(cx & Hcx & Nx) (cy & Hcy & Ny)]. rewrite near_iff in Nx, Ny.
      exists cx, cy. repeat split; try assumption; try lia.
      apply HR in Hcx. apply HR in Hcy. unfold corner in HC. unfold in_finder. lia.
Qed.

Lemma is_data_spec v q loc x y : 1 <= v <= 40 -> qversion q = v -> qside q = side_of v ->
  alignment_location v = Ok loc -> inside v x y ->
  exists b, is_data q loc x y = Ok b /\ (b = true <-> data_module v x y).
Proof.
  intros Hv EV ES EL HI. pose proof HI as [Hx Hy].
  assert (HS : side_of v = 4 * v + 17) by reflexivity.
  assert (NF : in_finder (side_of v) x y <->
     (x <= 7 /\ y <= 7) \/ (side_of v - 8 <= x /\ y <= 7) \/ (x <= 7 /\ side_of v - 8 <= y)) by reflexivity.
  assert (NT : in_timing x y <-> x = 6 \/ y = 6) by reflexivity.
  assert (NV : in_version v x y <-> 7 <= v /\
     ((side_of v - 11 <= x <= side_of v - 9 /\ y <= 5) \/
      (side_of v - 11 <= y <= side_of v - 9 /\ x <= 5))) by reflexivity.
  assert (NC : corner v x y <->
     (x <= 8 /\ y <= 8) \/ (side_of v - 9 <= x /\ y <= 8) \/ (x <= 8 /\ side_of v - 9 <= y)) by reflexivity.
  pose proof (alignment_iff v x y loc Hv EL HI) as HA.
  pose proof (alignment_corner v x y Hv) as HK.
  pose proof (in_format_iff v x y ltac:(lia) Hx Hy) as HF.
  set (R := (x <= 7 /\ y <= 7) \/ (side_of v - 8 <= x /\ y <= 7) \/ (x <= 7 /\ side_of v - 8 <= y) \/
    x = 6 \/ y = 6 \/
    (x = 8 /\ (y <= 8 /\ y <> 6 \/ side_of v - 8 <= y)) \/
    (y = 8 /\ (x <= 8 /\ x <> 6 \/ side_of v - 8 <= x)) \/
    7 <= v /\
     ((side_of v - 11 <= x <= side_of v - 9 /\ y <= 5) \/
      (side_of v - 11 <= y <= side_of v - 9 /\ x <= 5))).
  assert (HD : data_module v x y <-> ~ R /\ ~ in_alignment v x y).
  { unfold data_module, R. rewrite NF, NT, HF, NV. tauto. }
  clear HF NF NT NV HI.
  rewrite NC in HA, HK. clear NC.
  revert HA HK HD. generalize (data_module v x y) (in_alignment v x y). intros D A HA HK HD.
  unfold is_data. rewrite EV, ES.
  rewrite (sub_Z_ok (side_of v) 9) by lia. rewrite (sub_Z_ok (side_of v) 12) by lia. cbn [bind].
  revert HA. generalize (is_alignment_coord loc x) (is_alignment_coord loc y). intros ax ay HA.
  assert (GF : R -> exists b', Ok false = Ok b' /\ (b' = true <-> D)).
  { intros H. exists false. split; [reflexivity|]. split; [discriminate|tauto]. }
  assert (GT : ~ R -> ~ A -> exists b', Ok true = Ok b' /\ (b' = true <-> D)).
  { intros H H'. exists true. split; [reflexivity|]. tauto. }
  assert (GA : A -> exists b', Ok false = Ok b' /\ (b' = true <-> D)).
  { intros H. exists false. split; [reflexivity|]. split; [discriminate|tauto]. }
  subst R.
  destruct (Z.eqb_spec x 6); cbn [orb]; [apply GF; lia|].
  destruct (Z.eqb_spec y 6); cbn [orb]; [apply GF; lia|].
  destruct (Z.ltb_spec x 9), (Z.ltb_spec y 9); cbn [andb]; rewrite ?andb_false_r, ?andb_true_r;
  [apply GF; lia|..];
  destruct (Z.ltb_spec (side_of v - 9) x), (Z.ltb_spec (side_of v - 9) y); cbn [andb]; try lia;
  try (apply GF; lia);
  (destruct (Z.leb_spec 7 v); cbn [bind andb]); [..|idtac];
  destruct (Z.ltb_spec (side_of v - 12) x), (Z.ltb_spec (side_of v - 12) y),
    (Z.ltb_spec x 6), (Z.ltb_spec y 6); cbn [andb]; try lia;
  try (apply GF; lia);
  destruct (Z.eqb_spec x (side_of v - 9)), (Z.eqb_spec y (side_of v - 9)); cbn [andb]; try lia;
  try (apply GT; [lia|apply HK; lia]);
  (specialize (HA ltac:(lia)); destruct ax, ay; cbn [andb];
   first [apply GA; apply HA; split; reflexivity
         |apply GT; [lia|intros HB; apply HA in HB; destruct HB; discriminate]]).
Qed.

Lemma data_moduleb_iff v x y : data_moduleb v x y = true <-> data_module v x y.
Proof.
  unfold data_moduleb, data_module, inside, in_finder, in_timing, in_alignment, in_format, in_version.
  cbv zeta. rewrite !andb_true_iff, negb_true_iff, !Z.leb_le.
  rewrite <- not_true_iff_false, !orb_true_iff, !andb_true_iff, !orb_true_iff, !andb_true_iff,
    !Z.leb_le, !Z.eqb_eq.
  assert (EF : forall cx cy, negb ((cx <=? 7) && (cy <=? 7) || (side_of v - 8 <=? cx) && (cy <=? 7)
       || (cx <=? 7) && (side_of v - 8 <=? cy)) = true <->
     ~ ((cx <= 7 /\ cy <= 7) \/ (side_of v - 8 <= cx /\ cy <= 7) \/ (cx <= 7 /\ side_of v - 8 <= cy))).
  { intros cx cy. rewrite negb_true_iff, <- not_true_iff_false, !orb_true_iff, !andb_true_iff, !Z.leb_le. tauto. }
  assert (EA : existsb (fun cx => existsb (fun cy => negb ((cx <=? 7) && (cy <=? 7)
       || (side_of v - 8 <=? cx) && (cy <=? 7) || (cx <=? 7) && (side_of v - 8 <=? cy)) &&
        ((cx - 2 <=? x) && (x <=? cx + 2)) && ((cy - 2 <=? y) && (y <=? cy + 2)))
       (alignment_centres v)) (alignment_centres v) = true <->
     exists cx cy, In cx (alignment_centres v) /\ In cy (alignment_centres v) /\
    ~ ((cx <= 7 /\ cy <= 7) \/ (side_of v - 8 <= cx /\ cy <= 7) \/ (cx <= 7 /\ side_of v - 8 <= cy)) /\
    cx - 2 <= x <= cx + 2 /\ cy - 2 <= y <= cy + 2).
  { rewrite existsb_exists. split.
    - intros (cx & Hx & H). apply existsb_exists in H as (cy & Hy & H). exists cx, cy.
      rewrite !andb_true_iff, EF, !Z.leb_le in H. tauto.
    - intros (cx & cy & Hx & Hy & H). exists cx. split; [exact Hx|]. apply existsb_exists. exists cy.
      split; [exact Hy|]. rewrite !andb_true_iff, EF, !Z.leb_le. tauto. }
  assert (EC : forall place : Z -> Z * Z, existsb (fun i => (fst (place i) =? x) && (snd (place i) =? y))
        (map Z.of_nat (seq 0 15)) = true <-> exists i, 0 <= i < 15 /\ (x, y) = place i).
  { intros place. rewrite existsb_exists. split.
    - intros (i & Hi & H). apply in_map_iff in Hi as (k & <- & Hk). apply in_seq in Hk.
      exists (Z.of_nat k). split; [lia|]. rewrite andb_true_iff, !Z.eqb_eq in H.
      destruct H as [<- <-]. now destruct (place _).
    - intros (i & Hi & E). exists i. split.
      + apply in_map_iff. exists (Z.to_nat i). split; [lia|]. apply in_seq. lia.
      + rewrite <- E. cbn [fst snd]. now rewrite !Z.eqb_refl. }
  rewrite EA, !EC. intuition lia.
Qed.

Lemma is_data_ok v q loc x y : 1 <= v <= 40 -> qversion q = v -> qside q = side_of v ->
  alignment_location v = Ok loc -> inside v x y ->
  is_data q loc x y = Ok (data_moduleb v x y).
Proof.
  intros Hv EV ES EL HI. destruct (is_data_spec v q loc x y Hv EV ES EL HI) as (b & E & Hb).
  rewrite E. f_equal. rewrite <- data_moduleb_iff in Hb.
  destruct b, (data_moduleb v x y); try reflexivity; [symmetry; tauto|].
  assert (F : false = true) by tauto. exact F.
Qed.
