(** What the preparation computes, as sums over rectangles. *)
From Coq Require Import Lia Permutation.
From Verif.Model Require Import Prepare.
From Verif.Spec Require Import Window.
From Verif.Proofs Require Import BaseP.
Local Open Scope Z_scope.

(** *** sums over lists *)
Fixpoint zsum {A} (f : A -> Z) (l : list A) : Z :=
  match l with [] => 0 | a :: l => f a + zsum f l end.

Lemma zsum_app {A} (f : A -> Z) l1 l2 : zsum f (l1 ++ l2) = zsum f l1 + zsum f l2.
Proof. induction l1; cbn [zsum app]; lia. Qed.

Lemma zsum_map {A B} (f : B -> Z) (h : A -> B) l : zsum f (map h l) = zsum (fun a => f (h a)) l.
Proof. induction l; cbn [zsum map]; lia. Qed.

Lemma zsum_ext {A} (f g : A -> Z) l : (forall a, In a l -> f a = g a) -> zsum f l = zsum g l.
Proof. induction l as [|a l IH]; intros H; cbn [zsum]; [reflexivity|]. rewrite H by (now left). rewrite IH; auto using in_cons. Qed.

Lemma zsum_0 {A} (l : list A) : zsum (fun _ => 0) l = 0.
Proof. induction l; cbn [zsum]; lia. Qed.

Lemma zsum_plus {A} (f g : A -> Z) l : zsum (fun a => f a + g a) l = zsum f l + zsum g l.
Proof. induction l; cbn [zsum]; lia. Qed.

Lemma zsum_swap {A B} (f : A -> B -> Z) l m :
  zsum (fun a => zsum (fun b => f a b) m) l = zsum (fun b => zsum (fun a => f a b) l) m.
Proof.
  induction l as [|a l IH]; cbn [zsum]; [now rewrite zsum_0|]. rewrite IH, zsum_plus. reflexivity.
Qed.

Lemma zsum_flat_map {A B} (f : B -> Z) (h : A -> list B) l : zsum f (flat_map h l) = zsum (fun a => zsum f (h a)) l.
Proof. induction l as [|a l IH]; cbn [zsum flat_map]; [reflexivity|]. rewrite zsum_app, IH. reflexivity. Qed.

(** *** ranges *)
Lemma in_zrange a b x : In x (zrange a b) <-> a <= x < b.
Proof.
  unfold zrange. rewrite in_map_iff. split.
  - intros (i & <- & H). apply in_seq in H. lia.
  - intros H. exists (Z.to_nat (x - a)). rewrite in_seq. lia.
Qed.

Lemma zrange_length a b : length (zrange a b) = Z.to_nat (b - a).
Proof. unfold zrange. now rewrite map_length, seq_length. Qed.

Lemma zrange_nil a b : b <= a -> zrange a b = [].
Proof. intros H. unfold zrange. now replace (Z.to_nat (b - a)) with O by lia. Qed.

Lemma zrange_cons a b : a < b -> zrange a b = a :: zrange (a + 1) b.
Proof.
  intros H. unfold zrange. replace (Z.to_nat (b - a)) with (S (Z.to_nat (b - (a + 1)))) by lia.
  cbn [seq map]. f_equal; [lia|]. rewrite <- seq_shift, map_map. apply map_ext. intros. lia.
Qed.

Lemma zrange_app a b c : a <= b <= c -> zrange a c = zrange a b ++ zrange b c.
Proof.
  intros H. remember (Z.to_nat (b - a)) as n eqn:En. revert a H En.
  induction n as [|n IH]; intros a H En.
  - replace b with a by lia. now rewrite (zrange_nil a a) by lia.
  - rewrite (zrange_cons a c), (zrange_cons a b) by lia. cbn [app]. f_equal. apply IH; lia.
Qed.

Lemma nth_map' {A B} (f : A -> B) l i d d' : (i < length l)%nat -> nth i (map f l) d = f (nth i l d').
Proof. intros H. rewrite (nth_indep _ d (f d')) by (now rewrite map_length). apply map_nth. Qed.

Lemma nth_skipn' {A} (l : list A) k i d : nth i (skipn k l) d = nth (k + i) l d.
Proof.
  revert l. induction k as [|k IH]; intros l; [reflexivity|]. destruct l as [|a l]; [now destruct i|].
  cbn [skipn Nat.add nth]. apply IH.
Qed.

Lemma nth_firstn' {A} (l : list A) n i d : (i < n)%nat -> nth i (firstn n l) d = nth i l d.
Proof.
  revert l i. induction n as [|n IH]; intros l i H; [lia|]. destruct l as [|a l]; [reflexivity|].
  destruct i as [|i]; [reflexivity|]. cbn [firstn nth]. apply IH. lia.
Qed.

Lemma nth_zrange a b i d : (i < Z.to_nat (b - a))%nat -> nth i (zrange a b) d = a + Z.of_nat i.
Proof.
  intros H. unfold zrange. rewrite (nth_map' _ _ _ _ O) by (now rewrite seq_length). rewrite seq_nth by lia. reflexivity.
Qed.

Lemma combine_app' {A B} (l1 l2 : list A) (m1 m2 : list B) : length l1 = length m1 ->
  combine (l1 ++ l2) (m1 ++ m2) = combine l1 m1 ++ combine l2 m2.
Proof.
  revert m1. induction l1 as [|a l1 IH]; intros [|b m1] H; try discriminate; [reflexivity|].
  cbn [app combine]. f_equal. apply IH. now injection H.
Qed.

Lemma zrange_nodup a b : NoDup (zrange a b).
Proof.
  unfold zrange. apply FinFun.Injective_map_NoDup; [|apply seq_NoDup]. intros x y E. lia.
Qed.

Lemma sum_between_zsum a b f : sum_between a b f = zsum f (zrange a b).
Proof.
  unfold sum_between. remember (Z.to_nat (b - a)) as n eqn:En. revert a En.
  induction n as [|n IH]; intros a En; cbn [sum_from].
  - now rewrite zrange_nil by lia.
  - rewrite zrange_cons by lia. cbn [zsum]. f_equal. apply IH. lia.
Qed.

Lemma zsum_within a b c d f : a <= c -> c <= d -> d <= b ->
  zsum (fun x => if (c <=? x) && (x <? d) then f x else 0) (zrange a b) = zsum f (zrange c d).
Proof.
  intros H1 H2 H3. rewrite (zrange_app a c b), (zrange_app c d b) by lia. rewrite !zsum_app.
  rewrite (zsum_ext _ (fun _ => 0) (zrange a c)), (zsum_ext _ (fun _ => 0) (zrange d b)), (zsum_ext _ f (zrange c d)), !zsum_0.
  - lia.
  - intros x Hx. apply in_zrange in Hx. destruct (Z.leb_spec c x), (Z.ltb_spec x d); cbn [andb]; lia.
  - intros x Hx. apply in_zrange in Hx. destruct (Z.leb_spec c x), (Z.ltb_spec x d); cbn [andb]; lia.
  - intros x Hx. apply in_zrange in Hx. destruct (Z.leb_spec c x), (Z.ltb_spec x d); cbn [andb]; lia.
Qed.

(** *** pixels *)

(** the pixel at (x, y) of an image *)
Definition pix (g : gray) (x y : Z) : N := nth (Z.to_nat (y * gw g + x)) (gbuf g) 0%N.

Lemma in_coords g x y : In (x, y) (coords g) <-> 0 <= x < gw g /\ 0 <= y < gh g.
Proof.
  unfold coords. rewrite in_flat_map. split.
  - intros (y' & Hy & H). apply in_map_iff in H. destruct H as (x' & [= <- <-] & H).
    apply in_zrange in Hy, H. lia.
  - intros [H1 H2]. exists y. split; [now apply in_zrange|]. apply in_map_iff. exists x. split; [reflexivity|now apply in_zrange].
Qed.

Lemma coords_length g : 0 <= gw g -> 0 <= gh g -> length (coords g) = Z.to_nat (gw g * gh g).
Proof.
  intros H1 H2. unfold coords.
  assert (K : forall l : list Z, length (flat_map (fun y => map (fun x => (x, y)) (zrange 0 (gw g))) l) = (length l * Z.to_nat (gw g))%nat).
  { induction l as [|y l IH]; [reflexivity|]. cbn [flat_map]. rewrite app_length, map_length, zrange_length, IH, Z.sub_0_r.
    cbn [length]. lia. }
  rewrite K, zrange_length, Z.sub_0_r. nia.
Qed.

Lemma rows_nth w d n : forall y0 i j, 0 <= j < w -> 0 <= i < Z.of_nat n ->
  nth (Z.to_nat (i * w + j)) (flat_map (fun y => map (fun x => (x, y)) (zrange 0 w)) (zrange y0 (y0 + Z.of_nat n))) d = (j, y0 + i).
Proof.
  induction n as [|n IH]; intros y0 i j Hj Hi; [lia|]. rewrite (zrange_cons y0) by lia. cbn [flat_map].
  destruct (Z.eq_dec i 0) as [->|Hi0].
  - rewrite app_nth1 by (rewrite map_length, zrange_length; lia).
    rewrite (nth_map' _ _ _ _ 0) by (rewrite zrange_length; lia). rewrite nth_zrange by lia. f_equal; lia.
  - rewrite app_nth2 by (rewrite map_length, zrange_length; nia). rewrite map_length, zrange_length.
    replace (Z.to_nat (i * w + j) - Z.to_nat (w - 0))%nat with (Z.to_nat ((i - 1) * w + j)) by nia.
    replace (y0 + Z.of_nat (S n)) with (y0 + 1 + Z.of_nat n) by lia. rewrite IH by lia. f_equal. lia.
Qed.

Lemma coords_nth g x y d : 0 <= x < gw g -> 0 <= y < gh g -> nth (Z.to_nat (y * gw g + x)) (coords g) d = (x, y).
Proof.
  intros Hx Hy. unfold coords. pose proof (rows_nth (gw g) d (Z.to_nat (gh g)) 0 y x Hx ltac:(lia)) as E.
  now rewrite Z2Nat.id, !Z.add_0_l in E by lia.
Qed.

Lemma rows_pixels w (buf : list N) n : forall y, 0 <= w -> 0 <= y -> length buf = Z.to_nat ((y + Z.of_nat n) * w) ->
  combine (flat_map (fun y => map (fun x => (x, y)) (zrange 0 w)) (zrange y (y + Z.of_nat n))) (skipn (Z.to_nat (y * w)) buf)
  = map (fun '(x, y) => (x, y, nth (Z.to_nat (y * w + x)) buf 0%N))
        (flat_map (fun y => map (fun x => (x, y)) (zrange 0 w)) (zrange y (y + Z.of_nat n))).
Proof.
  induction n as [|n IH]; intros y Hw Hy HL.
  - rewrite (zrange_nil y) by lia. reflexivity.
  - rewrite (zrange_cons y) by lia. cbn [flat_map]. rewrite map_app.
    assert (E : skipn (Z.to_nat (y * w)) buf =
      map (fun x => nth (Z.to_nat (y * w + x)) buf 0%N) (zrange 0 w) ++ skipn (Z.to_nat ((y + 1) * w)) buf).
    { assert (HB : (Z.to_nat ((y + 1) * w) <= length buf)%nat) by nia.
      replace (Z.to_nat ((y + 1) * w)) with (Z.to_nat (y * w) + Z.to_nat w)%nat in * by nia.
      set (k := Z.to_nat (y * w)) in *.
      rewrite <- (firstn_skipn (Z.to_nat w) (skipn k buf)) at 1. rewrite skipn_skipn. f_equal.
      apply nth_ext with 0%N 0%N.
      - rewrite map_length, zrange_length, firstn_length, skipn_length. lia.
      - intros i Hi. rewrite firstn_length, skipn_length in Hi.
        rewrite nth_firstn', nth_skipn' by lia.
        rewrite (nth_map' _ _ _ _ 0) by (rewrite zrange_length; lia).
        rewrite nth_zrange by lia. f_equal. lia. }
    rewrite E. rewrite combine_app' by (now rewrite !map_length).
    f_equal.
    + clear. induction (zrange 0 w) as [|x l IH]; [reflexivity|]. cbn [map combine]. f_equal. exact IH.
    + specialize (IH (y + 1) Hw ltac:(lia)). rewrite Nat2Z.inj_succ.
      replace (y + Z.succ (Z.of_nat n)) with (y + 1 + Z.of_nat n) by lia. apply IH. rewrite HL. f_equal. lia.
Qed.

Lemma enumerate_pix g : wf_gray g ->
  enumerate_pixels g = map (fun '(x, y) => (x, y, pix g x y)) (coords g).
Proof.
  intros (H1 & H2 & HL & _). unfold enumerate_pixels, coords, pix.
  pose proof (rows_pixels (gw g) (gbuf g) (Z.to_nat (gh g)) 0 ltac:(lia) ltac:(lia)) as E.
  rewrite Z2Nat.id, !Z.add_0_l, Z.mul_0_l in E by lia. apply E. rewrite HL. f_equal. lia.
Qed.

Lemma get_pixel_pix g x y : wf_gray g -> 0 <= x < gw g -> 0 <= y < gh g -> get_pixel g x y = Ok (pix g x y).
Proof.
  intros (_ & _ & HL & _) Hx Hy. unfold get_pixel, pix. destruct (Z.ltb_spec x (gw g)); [|lia].
  destruct (Z.ltb_spec y (gh g)); [|lia]. cbn [andb]. apply get_nth. rewrite HL. apply Z2Nat.inj_lt; nia.
Qed.

Lemma get_pixel_map w h f x y : 0 <= x < w -> 0 <= y < h -> get_pixel (Gray w h (map f (coords (Gray w h [])))) x y = Ok (f (x, y)).
Proof.
  intros Hx Hy. unfold get_pixel. cbn [gw gh gbuf]. destruct (Z.ltb_spec x w); [|lia]. destruct (Z.ltb_spec y h); [|lia].
  cbn [andb]. pose proof (coords_length (Gray w h []) ltac:(cbn; lia) ltac:(cbn; lia)) as HL. cbn [gw gh] in HL.
  assert (Hi : (Z.to_nat (y * w + x) < Z.to_nat (w * h))%nat) by (apply Z2Nat.inj_lt; nia).
  rewrite (get_nth _ _ (f (0, 0))) by (rewrite map_length; lia). rewrite map_nth. f_equal. f_equal.
  exact (coords_nth (Gray w h []) x y (0, 0) Hx Hy).
Qed.

Lemma pix_byte g x y : wf_gray g -> (pix g x y < 256)%N.
Proof.
  intros (_ & _ & _ & HB). unfold pix. destruct (Nat.lt_ge_cases (Z.to_nat (y * gw g + x)) (length (gbuf g))) as [H|H].
  - rewrite Forall_forall in HB. apply HB, nth_In, H.
  - now rewrite nth_overflow by lia.
Qed.

(** sums over the whole image, cut down to a rectangle *)
Lemma sum_coords g (r : rect) (f : Z -> Z -> Z) : 0 <= rx0 r -> rx0 r <= rx1 r <= gw g -> 0 <= ry0 r -> ry0 r <= ry1 r <= gh g ->
  zsum (fun '(x, y) => if ((rx0 r <=? x) && (x <? rx1 r)) && ((ry0 r <=? y) && (y <? ry1 r)) then f x y else 0) (coords g)
  = rect_sum r f.
Proof.
  intros A B C D. unfold coords, rect_sum. rewrite zsum_flat_map, sum_between_zsum.
  rewrite (zsum_ext (fun x => sum_between (ry0 r) (ry1 r) (fun y => f x y)) (fun x => zsum (fun y => f x y) (zrange (ry0 r) (ry1 r))))
    by (intros; apply sum_between_zsum).
  rewrite (zsum_swap (fun x y => f x y)).
  rewrite <- (zsum_within 0 (gh g) (ry0 r) (ry1 r)) by lia. apply zsum_ext. intros y _.
  rewrite zsum_map. destruct ((ry0 r <=? y) && (y <? ry1 r)).
  - rewrite <- (zsum_within 0 (gw g) (rx0 r) (rx1 r)) by lia. apply zsum_ext. intros x _. now rewrite andb_true_r.
  - rewrite (zsum_ext _ (fun _ => 0)); [apply zsum_0|]. intros x _. now rewrite andb_false_r.
Qed.

Lemma rect_sum_one r : rx0 r <= rx1 r -> ry0 r <= ry1 r -> rect_sum r (fun _ _ => 1) = rect_count r.
Proof.
  assert (E : forall c a b, a <= b -> sum_between a b (fun _ => c) = (b - a) * c).
  { intros c a b H. unfold sum_between. rewrite <- (Z2Nat.id (b - a)) at 2 by lia.
    generalize (Z.to_nat (b - a)) as n. intros n. clear H. revert a. induction n as [|n IH]; intros a; cbn [sum_from]; [lia|].
    rewrite IH. lia. }
  intros H1 H2. unfold rect_sum, rect_count.
  rewrite (E (sum_between (ry0 r) (ry1 r) (fun _ => 1))), (E 1) by lia. lia.
Qed.

(** *** loops over vectors *)
Lemma foldM_flat_map {A B S} (f : S -> B -> res S) (h : A -> list B) l s :
  foldM (fun s a => foldM f (h a) s) l s = foldM f (flat_map h l) s.
Proof.
  revert s. induction l as [|a l IH]; intros s; cbn [foldM flat_map]; [reflexivity|].
  rewrite foldM_app. destruct (foldM f (h a) s); cbn [bind]; auto.
Qed.

Lemma foldM_map {A B S} (f : S -> B -> res S) (h : A -> B) l s :
  foldM f (map h l) s = foldM (fun s a => f s (h a)) l s.
Proof. revert s. induction l as [|a l IH]; intros s; cbn [foldM map]; [reflexivity|]. destruct (f s (h a)); cbn [bind]; auto. Qed.

(** adding to the entries of a vector *)
Lemma foldM_tally {A} (key : A -> nat) (v c : A -> Z) l blocks :
  (forall a, In a l -> (key a < length blocks)%nat) ->
  exists out, foldM (fun bs a => '(t, k) <- get bs (key a) ;; set bs (key a) (t + v a, k + c a)) l blocks = Ok out /\
    length out = length blocks /\
    forall i, nth i out (0, 0) =
      (if (i <? length blocks)%nat then
       (fst (nth i blocks (0, 0)) + zsum (fun a => if Nat.eqb (key a) i then v a else 0) l,
        snd (nth i blocks (0, 0)) + zsum (fun a => if Nat.eqb (key a) i then c a else 0) l) else (0, 0)).
Proof.
  revert blocks. induction l as [|a l IH]; intros blocks HK; cbn [foldM].
  - exists blocks. split; [reflexivity|]. split; [reflexivity|]. intros i. cbn [zsum]. rewrite !Z.add_0_r.
    destruct (Nat.ltb_spec i (length blocks)); [now destruct (nth i blocks _)|]. now rewrite nth_overflow by lia.
  - assert (Ha := HK a (or_introl eq_refl)). rewrite (get_nth blocks (key a) (0, 0)) by exact Ha. cbn [bind].
    destruct (nth (key a) blocks (0, 0)) as [t k] eqn:E. rewrite set_ok by exact Ha. cbn [bind].
    destruct (IH (update blocks (key a) (t + v a, k + c a))) as (out & E1 & E2 & E3).
    { intros b Hb. rewrite update_length. apply HK. now right. }
    exists out. split; [exact E1|]. rewrite update_length in *. split; [exact E2|]. intros i. rewrite E3.
    destruct (Nat.ltb_spec i (length blocks)) as [Hi|Hi]; [|reflexivity]. cbn [zsum].
    destruct (Nat.eqb_spec (key a) i) as [<-|HN].
    + rewrite (nth_error_nth _ _ _ (nth_error_update_same blocks (key a) (t + v a, k + c a) Ha)), E. cbn [fst snd]. f_equal; lia.
    + assert (X : nth i (update blocks (key a) (t + v a, k + c a)) (0, 0) = nth i blocks (0, 0)).
      { destruct (nth_error blocks i) as [z|] eqn:En.
        - rewrite (nth_error_nth _ _ _ En). apply nth_error_nth. rewrite nth_error_update_other; auto.
        - apply nth_error_None in En. lia. }
      rewrite X. f_equal; lia.
Qed.

(** writing to distinct entries of a vector *)
Lemma foldM_fill {A B} (key : A -> nat) (v : A -> B) l out d :
  (forall a, In a l -> (key a < length out)%nat) -> (forall a b, In a l -> In b l -> key a = key b -> v a = v b) ->
  exists out', foldM (fun m a => set m (key a) (v a)) l out = Ok out' /\ length out' = length out /\
    (forall a, In a l -> nth (key a) out' d = v a) /\
    (forall i, ~ In i (map key l) -> nth i out' d = nth i out d).
Proof.
  revert out. induction l as [|a l IH]; intros out HK HV; cbn [foldM].
  - exists out. split; [reflexivity|]. split; [reflexivity|]. split; [intros a []|auto].
  - assert (Ha := HK a (or_introl eq_refl)). rewrite set_ok by exact Ha. cbn [bind].
    destruct (IH (update out (key a) (v a))) as (out' & E1 & E2 & E3 & E4).
    { intros b Hb. rewrite update_length. apply HK. now right. }
    { intros b c Hb Hc. apply HV; now right. }
    exists out'. rewrite update_length in *. split; [exact E1|]. split; [exact E2|]. split.
    + intros b [->|Hb]; [|auto]. destruct (in_dec Nat.eq_dec (key b) (map key l)) as [HI|HN].
      * apply in_map_iff in HI. destruct HI as (b' & Eb & Hb'). rewrite <- Eb, E3 by exact Hb'.
        apply HV; [now right|now left|exact Eb].
      * rewrite E4 by exact HN. apply nth_error_nth, nth_error_update_same. exact Ha.
    + intros i Hi. cbn [map In] in Hi. rewrite E4 by tauto.
      destruct (nth_error out i) as [z|] eqn:En.
      * rewrite (nth_error_nth _ _ _ En). apply nth_error_nth. rewrite nth_error_update_other; [exact En|]. tauto.
      * apply nth_error_None in En. rewrite !nth_overflow; rewrite ?update_length; auto.
Qed.

Lemma foldM_sums {A} (body : Z * Z -> A -> res (Z * Z)) f h l t c :
  (forall a t c, In a l -> body (t, c) a = Ok (t + f a, c + h a)) ->
  foldM body l (t, c) = Ok (t + zsum f l, c + zsum h l).
Proof.
  revert t c. induction l as [|a l IH]; intros t c H; cbn [foldM zsum]; [now rewrite !Z.add_0_r|].
  rewrite H by (now left). cbn [bind]. rewrite IH by (intros; apply H; now right). f_equal. f_equal; lia.
Qed.

Lemma zsum_pick k a b v : zsum (fun c => if k =? c then v else 0) (zrange a b) = if (a <=? k) && (k <? b) then v else 0.
Proof.
  destruct (Z.le_gt_cases a b) as [Hab|Hab].
  2:{ rewrite zrange_nil by lia. destruct (Z.leb_spec a k), (Z.ltb_spec k b); cbn [andb zsum]; lia. }
  destruct (Z.leb_spec a k) as [H1|H1], (Z.ltb_spec k b) as [H2|H2]; cbn [andb].
  - rewrite (zrange_app a k b), (zrange_cons k b) by lia. rewrite zsum_app. cbn [zsum]. rewrite Z.eqb_refl.
    rewrite (zsum_ext _ (fun _ => 0) (zrange a k)), (zsum_ext _ (fun _ => 0) (zrange (k + 1) b)), !zsum_0; [lia| |].
    + intros x Hx. apply in_zrange in Hx. destruct (Z.eqb_spec k x); lia.
    + intros x Hx. apply in_zrange in Hx. destruct (Z.eqb_spec k x); lia.
  - rewrite (zsum_ext _ (fun _ => 0)); [apply zsum_0|]. intros x Hx. apply in_zrange in Hx. destruct (Z.eqb_spec k x); lia.
  - rewrite (zsum_ext _ (fun _ => 0)); [apply zsum_0|]. intros x Hx. apply in_zrange in Hx. destruct (Z.eqb_spec k x); lia.
  - rewrite (zsum_ext _ (fun _ => 0)); [apply zsum_0|]. intros x Hx. apply in_zrange in Hx. destruct (Z.eqb_spec k x); lia.
Qed.

(** *** the block map *)

(** the sizes with which the preparation works *)
Definition good (cfg : blocked_mean) (w h : Z) : Prop :=
  let bs := block_size cfg in
  1 <= bs /\ 3 <= block_mean_size cfg /\ bs <= w /\ bs <= h /\
  (w / bs + 1) * (h / bs + 1) <= u32_max /\
  w / bs + (block_mean_size cfg - 1) / 2 <= u32_max /\ h / bs + (block_mean_size cfg - 1) / 2 <= u32_max.

Definition idx (bw cx cy : Z) : nat := Z.to_nat (cy * (bw + 1) + cx).

Lemma idx_lt bw bh cx cy : 0 <= cx <= bw -> 0 <= cy <= bh -> (idx bw cx cy < Z.to_nat ((bw + 1) * (bh + 1)))%nat.
Proof. intros H1 H2. unfold idx. apply Z2Nat.inj_lt; nia. Qed.

Lemma idx_inj bw cx cy cx' cy' : 0 <= cx <= bw -> 0 <= cx' <= bw -> 0 <= cy -> 0 <= cy' ->
  idx bw cx cy = idx bw cx' cy' -> cx = cx' /\ cy = cy'.
Proof. intros. unfold idx in *. assert (E : cy * (bw + 1) + cx = cy' * (bw + 1) + cx') by nia.
  destruct (Z.lt_trichotomy cy cy') as [A|[->|A]]; [|lia|].
  - assert ((cy + 1) * (bw + 1) <= cy' * (bw + 1)) by (apply Z.mul_le_mono_nonneg_r; lia). lia.
  - assert ((cy' + 1) * (bw + 1) <= cy * (bw + 1)) by (apply Z.mul_le_mono_nonneg_r; lia). lia.
Qed.

Lemma to_index_ok bw bh cx cy : 0 <= cx <= bw -> 0 <= cy <= bh -> (bw + 1) * (bh + 1) <= u32_max ->
  to_index cx cy bw = Ok (idx bw cx cy).
Proof.
  intros H1 H2 HM. unfold to_index. rewrite (chk_u32_ok (bw + 1)) by nia. cbn [bind].
  rewrite (chk_u32_ok (cy * (bw + 1))) by nia. cbn [bind]. rewrite chk_u32_ok by nia. reflexivity.
Qed.

Lemma block_total_ok bw bh : 0 <= bw -> 0 <= bh -> (bw + 1) * (bh + 1) <= u32_max ->
  block_total bw bh = Ok ((bw + 1) * (bh + 1)).
Proof.
  intros H1 H2 HM. unfold block_total. rewrite (chk_u32_ok (bw + 1)) by nia. cbn [bind].
  rewrite (chk_u32_ok (bh + 1)) by nia. cbn [bind]. apply chk_u32_ok. nia.
Qed.

Lemma as_block_coords_ok x y bs : 1 <= bs -> as_block_coords x y bs = Ok (x / bs, y / bs).
Proof. intros H. unfold as_block_coords, div_u32. destruct (Z.eqb_spec bs 0); [lia|reflexivity]. Qed.

Lemma div_range x w bs : 1 <= bs -> 0 <= x < w -> 0 <= x / bs <= w / bs.
Proof. intros H1 H2. split; [apply Z.div_pos; lia|apply Z.div_le_mono; lia]. Qed.

(** pixels of a block *)
Definition block_sum (bs : Z) (g : gray) (f : Z -> Z -> Z) (cx cy : Z) : Z :=
  zsum (fun '(x, y) => if (x / bs =? cx) && (y / bs =? cy) then f x y else 0) (coords g).

Lemma as_block_map_ok cfg g : wf_gray g -> good cfg (gw g) (gh g) ->
  exists blocks, as_block_map cfg g = Ok blocks /\
    length blocks = Z.to_nat ((gw g / block_size cfg + 1) * (gh g / block_size cfg + 1)) /\
    forall cx cy, 0 <= cx <= gw g / block_size cfg -> 0 <= cy <= gh g / block_size cfg ->
      nth (idx (gw g / block_size cfg) cx cy) blocks (0, 0)
      = (block_sum (block_size cfg) g (fun x y => Z.of_N (pix g x y)) cx cy,
         block_sum (block_size cfg) g (fun _ _ => 1) cx cy).
Proof.
  intros HW (Hbs & Hm & Hw & Hh & HM & _). unfold as_block_map.
  set (bs := block_size cfg) in *. rewrite as_block_coords_ok by exact Hbs. cbn [bind].
  set (bw := gw g / bs) in *. set (bh := gh g / bs) in *.
  assert (0 <= bw) by (apply Z.div_pos; lia). assert (0 <= bh) by (apply Z.div_pos; lia).
  rewrite block_total_ok by auto. cbn [bind].
  destruct (foldM_tally (fun '(x, y) => idx bw (x / bs) (y / bs)) (fun '(x, y) => Z.of_N (pix g x y)) (fun _ => 1)
              (coords g) (repeat (0, 0) (Z.to_nat ((bw + 1) * (bh + 1))))) as (out & E1 & E2 & E3).
  { intros [x y] Hxy. apply in_coords in Hxy. rewrite repeat_length. apply idx_lt; apply div_range; lia. }
  exists out. split; [|split].
  - rewrite <- E1, enumerate_pix by exact HW. rewrite foldM_map. apply foldM_ext. intros s [x y] Hxy. apply in_coords in Hxy.
    rewrite as_block_coords_ok by exact Hbs. cbn [bind].
    rewrite (to_index_ok bw bh); [reflexivity|apply div_range; lia|apply div_range; lia|exact HM].
  - now rewrite E2, repeat_length.
  - intros cx cy Hcx Hcy. rewrite E3, repeat_length.
    destruct (Nat.ltb_spec (idx bw cx cy) (Z.to_nat ((bw + 1) * (bh + 1)))) as [Hi|Hi];
      [|pose proof (idx_lt bw bh cx cy Hcx Hcy); lia].
    assert (EN : nth (idx bw cx cy) (repeat (0, 0) (Z.to_nat ((bw + 1) * (bh + 1)))) (0, 0) = (0, 0)) by apply nth_repeat.
    rewrite EN. cbn [fst snd]. rewrite !Z.add_0_l. unfold block_sum.
    f_equal; apply zsum_ext; intros [x y] Hxy; apply in_coords in Hxy;
      pose proof (div_range x (gw g) bs Hbs ltac:(lia)); pose proof (div_range y (gh g) bs Hbs ltac:(lia));
      fold bw in H1; fold bh in H2.
    + destruct (Nat.eqb_spec (idx bw (x / bs) (y / bs)) (idx bw cx cy)) as [E|E].
      * apply idx_inj in E; [|lia..]. destruct E as [-> ->]. now rewrite !Z.eqb_refl.
      * destruct (Z.eqb_spec (x / bs) cx); [|reflexivity]. destruct (Z.eqb_spec (y / bs) cy); [|reflexivity]. congruence.
    + destruct (Nat.eqb_spec (idx bw (x / bs) (y / bs)) (idx bw cx cy)) as [E|E].
      * apply idx_inj in E; [|lia..]. destruct E as [-> ->]. now rewrite !Z.eqb_refl.
      * destruct (Z.eqb_spec (x / bs) cx); [|reflexivity]. destruct (Z.eqb_spec (y / bs) cy); [|reflexivity]. congruence.
Qed.

(** blocks put together *)
Lemma blocks_rect bs g f x0 x1 y0 y1 : 1 <= bs -> 0 <= x0 <= x1 -> 0 <= y0 <= y1 -> bs * x1 <= gw g -> bs * y1 <= gh g ->
  zsum (fun cx => zsum (fun cy => block_sum bs g f cx cy) (zrange y0 y1)) (zrange x0 x1)
  = rect_sum (Rect (bs * x0) (bs * x1) (bs * y0) (bs * y1)) f.
Proof.
  intros Hbs Hx Hy HW HH. rewrite <- (sum_coords g) by (cbn; nia). cbn [rx0 rx1 ry0 ry1].
  unfold block_sum.
  rewrite (zsum_ext (fun cx => zsum (fun cy => zsum _ (coords g)) (zrange y0 y1))
             (fun cx => zsum (fun '(x, y) => zsum (fun cy => if (x / bs =? cx) && (y / bs =? cy) then f x y else 0) (zrange y0 y1)) (coords g))).
  2:{ intros cx _. rewrite zsum_swap. apply zsum_ext. now intros [x y] _. }
  rewrite zsum_swap. apply zsum_ext. intros [x y] Hxy. apply in_coords in Hxy.
  rewrite (zsum_ext _ (fun cx => if x / bs =? cx then (if (y0 <=? y / bs) && (y / bs <? y1) then f x y else 0) else 0)).
  2:{ intros cx _. destruct (x / bs =? cx); cbn [andb]; [apply zsum_pick|apply zsum_0]. }
  rewrite zsum_pick.
  assert (K : forall z a b, (a <=? z / bs) && (z / bs <? b) = (bs * a <=? z) && (z <? bs * b)).
  { clear - Hbs. intros z a b. pose proof (Z.div_mod z bs ltac:(lia)). pose proof (Z.mod_pos_bound z bs ltac:(lia)).
    f_equal.
    - destruct (Z.leb_spec a (z / bs)), (Z.leb_spec (bs * a) z); try reflexivity; nia.
    - destruct (Z.ltb_spec (z / bs) b), (Z.ltb_spec z (bs * b)); try reflexivity; nia. }
  rewrite !K. destruct ((bs * x0 <=? x) && (x <? bs * x1)); cbn [andb]; reflexivity.
Qed.

(** *** the window of a block *)
Definition window_of (cfg : blocked_mean) (w h bx by_ : Z) : rect :=
  let bs := block_size cfg in let s := (block_mean_size cfg - 1) / 2 in
  Rect (bs * Z.max 0 (bx - s)) (bs * Z.min (w / bs) (bx + s)) (bs * Z.max 0 (by_ - s)) (bs * Z.min (h / bs) (by_ + s)).

Lemma window_shape cfg w h bx by_ : good cfg w h -> 0 <= bx <= w / block_size cfg -> 0 <= by_ <= h / block_size cfg ->
  0 <= rx0 (window_of cfg w h bx by_) < rx1 (window_of cfg w h bx by_) /\ rx1 (window_of cfg w h bx by_) <= w /\
  0 <= ry0 (window_of cfg w h bx by_) < ry1 (window_of cfg w h bx by_) /\ ry1 (window_of cfg w h bx by_) <= h.
Proof.
  intros (Hbs & Hm & Hw & Hh & HM & _) Hbx Hby. unfold window_of. cbn [rx0 rx1 ry0 ry1].
  set (bs := block_size cfg) in *. set (s := (block_mean_size cfg - 1) / 2).
  assert (Hs : 1 <= s) by (apply Z.div_le_lower_bound; lia).
  assert (1 <= w / bs) by (apply Z.div_le_lower_bound; lia). assert (1 <= h / bs) by (apply Z.div_le_lower_bound; lia).
  pose proof (Z.mul_div_le w bs ltac:(lia)). pose proof (Z.mul_div_le h bs ltac:(lia)).
  clearbody s. set (W := w / bs) in *. set (H' := h / bs) in *. clearbody W H'.
  assert (bs * Z.min W (bx + s) <= bs * W) by (apply Z.mul_le_mono_nonneg_l; lia).
  assert (bs * Z.min H' (by_ + s) <= bs * H') by (apply Z.mul_le_mono_nonneg_l; lia).
  assert (Z.max 0 (bx - s) < Z.min W (bx + s)) by lia. assert (Z.max 0 (by_ - s) < Z.min H' (by_ + s)) by lia.
  repeat split; try nia.
Qed.

Lemma brange_ok a b : 1 <= b -> brange a b = Ok (zrange a b).
Proof. intros H. unfold brange. rewrite sub_Z_ok by lia. cbn [bind]. do 2 f_equal. lia. Qed.

Lemma window_ok cfg g blocks bx by_ :
  good cfg (gw g) (gh g) ->
  length blocks = Z.to_nat ((gw g / block_size cfg + 1) * (gh g / block_size cfg + 1)) ->
  (forall cx cy, 0 <= cx <= gw g / block_size cfg -> 0 <= cy <= gh g / block_size cfg ->
      nth (idx (gw g / block_size cfg) cx cy) blocks (0, 0)
      = (block_sum (block_size cfg) g (fun x y => Z.of_N (pix g x y)) cx cy,
         block_sum (block_size cfg) g (fun _ _ => 1) cx cy)) ->
  0 <= bx <= gw g / block_size cfg -> 0 <= by_ <= gh g / block_size cfg ->
  window blocks (gw g / block_size cfg) (gh g / block_size cfg) ((block_mean_size cfg - 1) / 2) bx by_
  = Ok (rect_sum (window_of cfg (gw g) (gh g) bx by_) (fun x y => Z.of_N (pix g x y)),
        rect_count (window_of cfg (gw g) (gh g) bx by_)).
Proof.
  intros HG HL HN Hbx Hby. pose proof (window_shape cfg (gw g) (gh g) bx by_ HG Hbx Hby) as (S1 & S2 & S3 & S4).
  rewrite <- rect_sum_one by lia.
  pose proof HG as (Hbs & Hm & Hw & Hh & HM & HO1 & HO2). unfold window_of in *. cbn [rx0 rx1 ry0 ry1] in *.
  unfold window, saturating_sub. set (bs := block_size cfg) in *. set (s := (block_mean_size cfg - 1) / 2) in *.
  set (bw := gw g / bs) in *. set (bh := gh g / bs) in *.
  assert (Hs : 1 <= s) by (apply Z.div_le_lower_bound; lia).
  rewrite (chk_u32_ok (bx + s)) by lia. cbn [bind]. rewrite (chk_u32_ok (by_ + s)) by lia. cbn [bind].
  assert (1 <= bw) by (apply Z.div_le_lower_bound; lia). assert (1 <= bh) by (apply Z.div_le_lower_bound; lia).
  rewrite brange_ok by lia. cbn [bind].
  replace (Z.max 0 (Z.max 0 (bx - s))) with (Z.max 0 (bx - s)) by lia.
  replace (Z.max 0 (Z.max 0 (by_ - s))) with (Z.max 0 (by_ - s)) by lia.
  rewrite <- !(blocks_rect bs g _ (Z.max 0 (bx - s)) (Z.min bw (bx + s)) (Z.max 0 (by_ - s)) (Z.min bh (by_ + s))) by (auto; lia).
  rewrite (foldM_sums _ (fun cx => zsum (fun cy => block_sum bs g (fun x y => Z.of_N (pix g x y)) cx cy) (zrange (Z.max 0 (by_ - s)) (Z.min bh (by_ + s))))
                        (fun cx => zsum (fun cy => block_sum bs g (fun _ _ => 1) cx cy) (zrange (Z.max 0 (by_ - s)) (Z.min bh (by_ + s))))).
  - reflexivity.
  - intros cx t c Hcx. apply in_zrange in Hcx. rewrite brange_ok by lia. cbn [bind].
    apply foldM_sums. intros cy t' c' Hcy. apply in_zrange in Hcy.
    rewrite (to_index_ok bw bh) by (auto; lia). cbn [bind].
    rewrite (get_nth _ _ (0, 0)) by (rewrite HL; apply idx_lt; lia). cbn [bind].
    rewrite HN by lia. reflexivity.
Qed.

(** *** the mean map and the threshold *)
Definition mean_of (cfg : blocked_mean) (g : gray) (bx by_ : Z) : f64 :=
  fdiv (of_Z (rect_sum (window_of cfg (gw g) (gh g) bx by_) (fun x y => Z.of_N (pix g x y))))
       (of_Z (rect_count (window_of cfg (gw g) (gh g) bx by_))).

Lemma mean_map_ok cfg g blocks :
  good cfg (gw g) (gh g) ->
  length blocks = Z.to_nat ((gw g / block_size cfg + 1) * (gh g / block_size cfg + 1)) ->
  (forall cx cy, 0 <= cx <= gw g / block_size cfg -> 0 <= cy <= gh g / block_size cfg ->
      nth (idx (gw g / block_size cfg) cx cy) blocks (0, 0)
      = (block_sum (block_size cfg) g (fun x y => Z.of_N (pix g x y)) cx cy,
         block_sum (block_size cfg) g (fun _ _ => 1) cx cy)) ->
  exists means, to_block_mean_map cfg blocks (gw g) (gh g) = Ok means /\
    length means = Z.to_nat ((gw g / block_size cfg + 1) * (gh g / block_size cfg + 1)) /\
    forall bx by_, 0 <= bx <= gw g / block_size cfg -> 0 <= by_ <= gh g / block_size cfg ->
      nth (idx (gw g / block_size cfg) bx by_) means (of_Z 0) = mean_of cfg g bx by_.
Proof.
  intros HG HL HN. unfold to_block_mean_map. pose proof HG as (Hbs & Hm & Hw & Hh & HM & HO1 & HO2).
  rewrite sub_Z_ok by lia. cbn [bind]. rewrite as_block_coords_ok by exact Hbs. cbn [bind].
  set (bw := gw g / block_size cfg) in *. set (bh := gh g / block_size cfg) in *.
  assert (0 <= bw) by (apply Z.div_pos; lia). assert (0 <= bh) by (apply Z.div_pos; lia).
  rewrite block_total_ok by auto. cbn [bind].
  set (n := Z.to_nat ((bw + 1) * (bh + 1))) in *.
  set (cells := flat_map (fun bx => map (fun by_ => (bx, by_)) (brange_inc 0 bh)) (brange_inc 0 bw)).
  assert (HC : forall bx by_, In (bx, by_) cells <-> 0 <= bx <= bw /\ 0 <= by_ <= bh).
  { intros bx by_. unfold cells, brange_inc. rewrite in_flat_map. split.
    - intros (bx' & Hx & Hy). apply in_map_iff in Hy. destruct Hy as (by' & [= <- <-] & Hy). apply in_zrange in Hx, Hy. lia.
    - intros [A B]. exists bx. split; [apply in_zrange; lia|]. apply in_map_iff. exists by_. split; [reflexivity|apply in_zrange; lia]. }
  destruct (foldM_fill (fun '(bx, by_) => idx bw bx by_) (fun '(bx, by_) => mean_of cfg g bx by_) cells
              (repeat (of_Z 0) n) (of_Z 0)) as (out & E1 & E2 & E3 & _).
  { intros [bx by_] H'. apply HC in H'. rewrite repeat_length. apply idx_lt; lia. }
  { intros [bx by_] [bx' by'] H1 H2 E. apply HC in H1, H2. apply idx_inj in E; [|lia..]. destruct E as [-> ->]. reflexivity. }
  exists out. split; [|split].
  - rewrite <- E1. unfold cells. rewrite <- foldM_flat_map. apply foldM_ext. intros s bx Hbx.
    rewrite foldM_map. apply foldM_ext. intros s' by_ Hby. unfold brange_inc in *. apply in_zrange in Hbx, Hby.
    unfold bw, bh. rewrite (window_ok cfg g blocks bx by_) by (auto; lia). cbn [bind].
    rewrite (to_index_ok _ bh) by (auto; lia). reflexivity.
  - now rewrite E2, repeat_length.
  - intros bx by_ Hx Hy. apply (E3 (bx, by_)). apply HC. lia.
Qed.

(** the prepared image *)
Theorem prepare_ok cfg g : wf_gray g -> good cfg (gw g) (gh g) ->
  prepare cfg g = Ok (Gray (gw g) (gh g)
    (map (fun '(x, y) => threshold (mean_of cfg g (x / block_size cfg) (y / block_size cfg)) (pix g x y)) (coords g))).
Proof.
  intros HW HG. unfold prepare. destruct (as_block_map_ok cfg g HW HG) as (blocks & -> & HL & HN). cbn [bind].
  destruct (mean_map_ok cfg g blocks HG HL HN) as (means & -> & HL' & HN'). cbn [bind]. unfold to_threshold.
  pose proof HG as (Hbs & Hm & Hw & Hh & HM & HO1 & HO2).
  rewrite (mapM_pure _ (fun '(x, y, p) => threshold (mean_of cfg g (x / block_size cfg) (y / block_size cfg)) p)).
  - cbn [bind]. do 2 f_equal. rewrite enumerate_pix by exact HW. rewrite map_map. apply map_ext. now intros [x y].
  - intros [[x y] p] Hxy. rewrite as_block_coords_ok by exact Hbs. cbn [bind]. rewrite as_block_coords_ok by exact Hbs. cbn [bind].
    unfold enumerate_pixels in Hxy. apply in_combine_l, in_coords in Hxy.
    rewrite (to_index_ok _ (gh g / block_size cfg)); [|apply div_range; lia|apply div_range; lia|exact HM]. cbn [bind].
    rewrite (get_nth _ _ (of_Z 0)) by (rewrite HL'; apply idx_lt; apply div_range; lia). cbn [bind].
    rewrite HN'; [reflexivity|apply div_range; lia..].
Qed.

(** the only sizes that work *)
Theorem prepare_good cfg g g' : wf_gray g -> 0 <= block_size cfg -> 0 <= block_mean_size cfg ->
  prepare cfg g = Ok g' -> good cfg (gw g) (gh g).
Proof.
  intros (Hw & Hh & _) Hb Hm E. unfold prepare in E. apply bind_ok in E. destruct E as (blocks & _ & E).
  apply bind_ok in E. destruct E as (means & E & _). unfold to_block_mean_map in E.
  apply bind_ok in E. destruct E as (m1 & E1 & E).
  unfold sub_Z in E1. destruct (Z.ltb_spec (block_mean_size cfg) 1) as [|Hm1]; [discriminate|]. injection E1 as <-.
  apply bind_ok in E. destruct E as ([bw bh] & E2 & E). unfold as_block_coords, div_u32 in E2.
  destruct (Z.eqb_spec (block_size cfg) 0) as [|Hbs]; [discriminate|]. cbn [bind] in E2. injection E2 as <- <-.
  apply bind_ok in E. destruct E as (n & E3 & E). unfold block_total in E3.
  apply bind_ok in E3. destruct E3 as (w1 & Ew & E3). apply bind_ok in E3. destruct E3 as (h1 & Eh & E3).
  apply chk_u32_inv in Ew, Eh, E3. destruct Ew as [-> _], Eh as [-> _], E3 as [-> HM].
  set (bs := block_size cfg) in *. set (s := (block_mean_size cfg - 1) / 2) in *.
  assert (0 <= gw g / bs) by (apply Z.div_pos; lia). assert (0 <= gh g / bs) by (apply Z.div_pos; lia).
  set (bw := gw g / bs) in *. set (bh := gh g / bs) in *.
  rewrite (foldM_ext _ (fun means bx => foldM (fun means '(bx, by_) =>
             '(total, count) <- window blocks bw bh s bx by_ ;; i <- to_index bx by_ bw ;;
             set means i (fdiv (of_Z total) (of_Z count))) (map (fun by_ => (bx, by_)) (brange_inc 0 bh)) means)) in E
    by (intros; now rewrite foldM_map).
  rewrite foldM_flat_map in E.
  assert (HA : forall bx by_, 0 <= bx <= bw -> 0 <= by_ <= bh -> exists t, window blocks bw bh s bx by_ = Ok t).
  { intros bx by_ Hx Hy.
    assert (HI : In (bx, by_) (flat_map (fun bx => map (fun by_ => (bx, by_)) (brange_inc 0 bh)) (brange_inc 0 bw))).
    { apply in_flat_map. exists bx. unfold brange_inc. split; [apply in_zrange; lia|]. apply in_map_iff. exists by_.
      split; [reflexivity|apply in_zrange; lia]. }
    apply in_split in HI. destruct HI as (l1 & l2 & EL). rewrite EL, foldM_app in E. apply bind_ok in E.
    destruct E as (st & _ & E). cbn [foldM] in E. apply bind_ok in E. destruct E as (st' & E & _).
    apply bind_ok in E. destruct E as (t & E & _). eauto. }
  clear E. unfold s in *. clear s. set (s := (block_mean_size cfg - 1) / 2) in *.
  assert (0 <= s) by (apply Z.div_pos; lia).
  assert (HS : 1 <= Z.min bw s /\ 1 <= Z.min bh s).
  { destruct (HA 0 0 ltac:(lia) ltac:(lia)) as (t & E). unfold window, saturating_sub in E.
    apply bind_ok in E. destruct E as (xs & Ex & E). apply bind_ok in E. destruct E as (ys & Ey & E).
    apply chk_u32_inv in Ex, Ey. destruct Ex as [-> _], Ey as [-> _].
    apply bind_ok in E. destruct E as (rx & Er & E). unfold brange, sub_Z in Er.
    destruct (Z.ltb_spec (Z.min bw (0 + s)) 1) as [|Hx1]; [discriminate|]. cbn [bind] in Er. injection Er as <-.
    rewrite zrange_cons in E by lia. cbn [foldM] in E. apply bind_ok in E. destruct E as (st & E & _).
    apply bind_ok in E. destruct E as (ry & Er & _). unfold brange, sub_Z in Er.
    destruct (Z.ltb_spec (Z.min bh (0 + s)) 1) as [|Hy1]; [discriminate|]. lia. }
  assert (HO : bw + s <= u32_max /\ bh + s <= u32_max).
  { destruct (HA bw bh ltac:(lia) ltac:(lia)) as (t & E). unfold window, saturating_sub in E.
    apply bind_ok in E. destruct E as (xs & Ex & E). apply bind_ok in E. destruct E as (ys & Ey & E).
    apply chk_u32_inv in Ex, Ey. lia. }
  unfold good. fold bs. fold s. fold bw. fold bh.
  assert (1 <= bs) by lia.
  assert (K : forall z, 1 <= z / bs -> bs <= z).
  { intros z Hz. pose proof (Z.mul_div_le z bs ltac:(lia)). nia. }
  assert (3 <= block_mean_size cfg).
  { assert (X : 1 <= (block_mean_size cfg - 1) / 2) by (fold s; lia).
    pose proof (Z.mul_div_le (block_mean_size cfg - 1) 2 ltac:(lia)). lia. }
  repeat split; try lia; apply K; [fold bw|fold bh]; lia.
Qed.

(** preparing never fails with an error *)
Lemma foldM_no_err {A S} (f : S -> A -> res S) l s e : (forall s a e, f s a <> Err e) -> foldM f l s <> Err e.
Proof.
  intros H. revert s. induction l as [|a l IH]; intros s; cbn [foldM]; [discriminate|].
  destruct (f s a) eqn:E; cbn [bind]; [apply IH| |discriminate]. now apply H in E.
Qed.

Lemma mapM_no_err {A B} (f : A -> res B) l e : (forall a e, f a <> Err e) -> mapM f l <> Err e.
Proof.
  intros H. induction l as [|a l IH]; cbn [mapM]; [discriminate|].
  destruct (f a) eqn:E; cbn [bind]; [|now apply H in E|discriminate].
  destruct (mapM f l); cbn [bind]; [discriminate| |discriminate]. congruence.
Qed.

Lemma bind_no_err {A B} (x : res A) (f : A -> res B) e : (forall e, x <> Err e) -> (forall a e, f a <> Err e) -> bind x f <> Err e.
Proof. intros H1 H2. destruct x eqn:E; cbn [bind]; [apply H2| |discriminate]. now contradiction (H1 e0). Qed.

Lemma chk_no_err a e : chk_u32 a <> Err e.
Proof. unfold chk_u32. now destruct (_ && _). Qed.
Lemma sub_no_err a b e : sub_Z a b <> Err e.
Proof. unfold sub_Z. now destruct (_ <? _). Qed.
Lemma set_no_err {A} (v : list A) i a e : set v i a <> Err e.
Proof. unfold set. now destruct (_ <? _)%nat. Qed.
Lemma coords_no_err x y bs e : as_block_coords x y bs <> Err e.
Proof. unfold as_block_coords, div_u32. now destruct (bs =? 0). Qed.
Lemma index_no_err x y w e : to_index x y w <> Err e.
Proof. unfold to_index. repeat (apply bind_no_err; [intros; apply chk_no_err|intros]). discriminate. Qed.
Lemma brange_no_err a b e : brange a b <> Err e.
Proof. unfold brange. apply bind_no_err; [intros; apply sub_no_err|discriminate]. Qed.
Lemma total_no_err w h e : block_total w h <> Err e.
Proof. unfold block_total. repeat (apply bind_no_err; [intros; apply chk_no_err|intros]). apply chk_no_err. Qed.
Lemma window_no_err b w h s x y e : window b w h s x y <> Err e.
Proof.
  unfold window. apply bind_no_err; [intros; apply chk_no_err|intros xs e1].
  apply bind_no_err; [intros; apply chk_no_err|intros ys e2].
  apply bind_no_err; [intros; apply brange_no_err|intros rx e3].
  apply foldM_no_err. intros s' a e4. apply bind_no_err; [intros; apply brange_no_err|intros ry e5].
  apply foldM_no_err. intros [t c] a' e6. apply bind_no_err; [intros; apply index_no_err|intros i e7].
  apply bind_no_err; [intros; apply get_not_err|]. intros [t' c']. discriminate.
Qed.

Theorem prepare_no_err cfg g e : prepare cfg g <> Err e.
Proof.
  unfold prepare. apply bind_no_err; [|intros blocks; intros e1; apply bind_no_err].
  - intros e1. unfold as_block_map. apply bind_no_err; [intros; apply coords_no_err|]. intros [bw bh] e2.
    apply bind_no_err; [intros; apply total_no_err|]. intros n e3. apply foldM_no_err. intros s [[x y] p] e4.
    apply bind_no_err; [intros; apply coords_no_err|]. intros [cx cy] e5. apply bind_no_err; [intros; apply index_no_err|].
    intros i e6. apply bind_no_err; [intros; apply get_not_err|]. intros [t c] e7. apply set_no_err.
  - intros e2. unfold to_block_mean_map. apply bind_no_err; [intros; apply sub_no_err|]. intros m e3.
    apply bind_no_err; [intros; apply coords_no_err|]. intros [bw bh] e4. apply bind_no_err; [intros; apply total_no_err|].
    intros n e5. apply foldM_no_err. intros s x e6. apply foldM_no_err. intros s' y e7.
    apply bind_no_err; [intros; apply window_no_err|]. intros [t c] e8. apply bind_no_err; [intros; apply index_no_err|].
    intros i e9. apply set_no_err.
  - intros means e2. unfold to_threshold. apply bind_no_err; [|discriminate]. intros e3. apply mapM_no_err.
    intros [[x y] p] e4. apply bind_no_err; [intros; apply coords_no_err|]. intros [bw bh] e5.
    apply bind_no_err; [intros; apply coords_no_err|]. intros [cx cy] e6. apply bind_no_err; [intros; apply index_no_err|].
    intros i e7. apply bind_no_err; [intros; apply get_not_err|]. discriminate.
Qed.
