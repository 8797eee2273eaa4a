(** The pictures of the `debug-images` feature: C72. *)
From Coq Require Import NArith ZArith List Lia Bool.
From Verif.Model Require Import Debug.
From Verif.Proofs Require Import BaseP PrepareP DetectP ExtractP AlignP.
Import ListNotations.
Local Open Scope Z_scope.

(** with the feature the outcome is the same, or a panic *)
Definition same_or_panic {A} (a b : res A) : Prop := a = b \/ exists p, a = Panic p.
Lemma sop_refl {A} (a : res A) : same_or_panic a a.
Proof. now left. Qed.
Lemma sop_panic {A} p (b : res A) : same_or_panic (Panic p) b.
Proof. right. eauto. Qed.
Lemma sop_bind {A B} (a b : res A) (f h : A -> res B) : same_or_panic a b -> (forall x, same_or_panic (f x) (h x)) -> same_or_panic (bind a f) (bind b h).
Proof. intros [-> |(p & ->)] H; [|apply sop_panic]. destruct b; cbn [bind]; [apply H|apply sop_refl|apply sop_panic]. Qed.

(** drawings: they succeed or panic *)
Definition drawing (a : res unit) : Prop := a = Ok tt \/ exists p, a = Panic p.
Lemma drawing_bind {A} (a : res A) (f : A -> res unit) : (forall e, a <> Err e) -> (forall x, drawing (f x)) -> drawing (bind a f).
Proof. intros H HF. destruct a as [x|e|p]; cbn [bind]; [apply HF|now destruct (H e)|right; eauto]. Qed.
Lemma sop_draw {A} (a : res unit) (b c : res A) : drawing a -> same_or_panic b c -> same_or_panic (bind a (fun _ => b)) c.
Proof. intros [-> |(p & ->)] H; [exact H|apply sop_panic]. Qed.
Lemma foldM_drawing {A} (f : unit -> A -> res unit) l s : (forall s a, drawing (f s a)) -> drawing (foldM f l s).
Proof.
  intros H. revert s. induction l as [|a l IH]; intros s; cbn [foldM]; [left; now destruct s|].
  destruct (H s a) as [-> |(p & ->)]; cbn [bind]; [apply IH|right; eauto].
Qed.
Lemma each_drawing l f : (forall x, drawing (f x)) -> drawing (each l f).
Proof. intros H. apply foldM_drawing. auto. Qed.
Lemma chk_no_err z e : chk_u32 z <> Err e.
Proof. unfold chk_u32. now destruct (_ && _). Qed.
Lemma sub_no_err a b e : sub_Z a b <> Err e.
Proof. unfold sub_Z. now destruct (_ <? _). Qed.
Lemma put_drawing g x y : drawing (put_pixel g x y).
Proof. unfold put_pixel. destruct (_ && _); [now left|right; eauto]. Qed.
Lemma inside_no_err v s e b err : well_inside v s e b <> Err err.
Proof.
  unfold well_inside. destruct (chk_u32 _) as [lo|e'|p] eqn:E; cbn [bind]; [|now destruct (chk_no_err _ _ E)|discriminate].
  destruct (lo <? v); [|discriminate]. destruct (sub_Z e b) as [hi|e'|p] eqn:E'; cbn [bind]; [discriminate|now destruct (sub_no_err _ _ _ E')|discriminate].
Qed.
Lemma box_drawing g a b c d k : drawing (draw_box g a b c d k).
Proof.
  unfold draw_box. apply each_drawing. intros x. apply each_drawing. intros y. apply drawing_bind; [apply inside_no_err|]. intros i. apply drawing_bind.
  - destruct i; [apply inside_no_err|discriminate].
  - intros []; [now left|apply put_drawing].
Qed.
Lemma search_drawing g p dx dy s : drawing (draw_search g p dx dy s).
Proof.
  unfold draw_search. destruct (_ || _); [now left|]. apply each_drawing. intros i. apply each_drawing. intros j. cbv zeta.
  destruct (_ && _); [apply put_drawing|now left].
Qed.
Lemma sample_drawing g x y : drawing (draw_sample g x y).
Proof.
  unfold draw_sample. apply drawing_bind; [apply chk_no_err|]. intros x2. apply each_drawing. intros i. apply drawing_bind; [apply chk_no_err|]. intros y2.
  apply each_drawing. intros j. apply put_drawing.
Qed.

Lemma detect_sop g : same_or_panic (detect_debug g) (detect g).
Proof.
  unfold detect_debug, detect. apply sop_bind; [apply sop_refl|]. intros cs. apply sop_draw; [|apply sop_refl].
  apply foldM_drawing. intros s c. apply box_drawing.
Qed.
Lemma find_sop g dx dy l : same_or_panic (find_alignment_debug g dx dy l) (find_alignment g dx dy l).
Proof.
  induction l as [|[s p] l IH]; cbn [find_alignment_debug find_alignment]; [apply sop_refl|]. apply sop_draw; [apply search_drawing|].
  apply sop_bind; [apply sop_refl|]. intros []; [apply sop_refl|exact IH].
Qed.
Lemma perspective_sop g v n loc : same_or_panic (determine_perspective_debug g v n loc) (determine_perspective g v n loc).
Proof.
  unfold determine_perspective_debug, determine_perspective. apply sop_bind; [apply sop_refl|]. intros n7. cbv zeta. destruct (v =? 1); [apply sop_refl|].
  apply sop_bind; [apply sop_refl|]. intros n10. apply sop_bind; [apply find_sop|]. intros [p|]; [|apply sop_refl].
  apply sop_bind; [apply sop_refl|]. intros al. apply sop_draw; [apply box_drawing|apply sop_refl].
Qed.
Lemma row_sop g : forall n line dx data, same_or_panic (sample_row_debug n g line dx data) (sample_row n g line dx data).
Proof.
  induction n as [|n IH]; intros line dx data; cbn [sample_row_debug sample_row]; [apply sop_refl|]. cbv zeta. apply sop_bind; [apply sop_refl|]. intros v.
  apply sop_draw; [|apply IH]. destruct (N.eqb v 0); [apply sample_drawing|now left].
Qed.
Lemma rows_sop g p cols : forall n start dx dy data, same_or_panic (sample_rows_debug n cols g p start dx dy data) (sample_rows n cols g p start dx dy data).
Proof.
  induction n as [|n IH]; intros start dx dy data; cbn [sample_rows_debug sample_rows]; [apply sop_refl|]. cbv zeta. apply sop_bind; [apply row_sop|]. intros d. apply IH.
Qed.
Lemma extract_sop g loc : same_or_panic (extract_debug g loc) (extract g loc).
Proof.
  unfold extract_debug, extract. apply sop_bind; [apply sop_refl|]. intros v4. apply sop_bind; [apply sop_refl|]. intros n. apply sop_bind; [apply perspective_sop|].
  intros p. cbv zeta. apply sop_bind; [apply rows_sop|]. intros d. apply sop_refl.
Qed.

(** *** drawings that succeed *)
Lemma each_ok l f : (forall x, In x l -> f x = Ok tt) -> each l f = Ok tt.
Proof.
  unfold each. induction l as [|a l IH]; intros H; cbn [foldM]; [reflexivity|]. rewrite H by now left. cbn [bind]. apply IH. intros x Hx. apply H. now right.
Qed.
Lemma in_zrange x a b : In x (zrange a b) <-> a <= x < b.
Proof.
  unfold zrange. rewrite in_map_iff. split.
  - intros (i & <- & Hi). apply in_seq in Hi. lia.
  - intros H. exists (Z.to_nat (x - a)). split; [lia|]. apply in_seq. lia.
Qed.
Lemma put_ok g x y : x < gw g -> y < gh g -> put_pixel g x y = Ok tt.
Proof. intros Hx Hy. unfold put_pixel. destruct (Z.ltb_spec x (gw g)); [|lia]. destruct (Z.ltb_spec y (gh g)); [reflexivity|lia]. Qed.
Lemma chk_ok z : 0 <= z <= u32_max -> chk_u32 z = Ok z.
Proof. intros H. unfold chk_u32. destruct (Z.leb_spec 0 z); [|lia]. destruct (Z.leb_spec z u32_max); [reflexivity|lia]. Qed.
Lemma inside_ok v s e b : 0 <= s -> 0 <= b <= 3 -> s <= v < e -> e <= 2 ^ 31 -> exists i, well_inside v s e b = Ok i.
Proof.
  intros Hs Hb Hv He. unfold well_inside. rewrite chk_ok by (unfold u32_max; lia). cbn [bind]. destruct (Z.ltb_spec (s + b) v); [|eauto].
  unfold sub_Z. destruct (Z.ltb_spec e b); [lia|]. cbn [bind]. eauto.
Qed.
Lemma box_ok g a b c d k : gw g <= 2 ^ 31 -> gh g <= 2 ^ 31 -> 0 <= a -> 0 <= c -> 0 <= k <= 3 -> b <= gw g -> d <= gh g -> draw_box g a b c d k = Ok tt.
Proof.
  intros HW HH Ha Hc Hk Hb Hd. unfold draw_box. apply each_ok. intros x Hx. apply in_zrange in Hx. apply each_ok. intros y Hy. apply in_zrange in Hy.
  destruct (inside_ok x a b k) as (i & ->); [lia..|]. cbn [bind].
  assert (J : exists j, (if i then well_inside y c d k else Ok false) = Ok j) by (destruct i; [apply inside_ok; lia|eauto]).
  destruct J as (j & ->). cbn [bind]. destruct j; [reflexivity|]. apply put_ok; lia.
Qed.
Lemma to_u32_pos x : 0 <= to_u32 x.
Proof. unfold to_u32, u32_max. destruct x as [| [] | |[] m e]; try lia. destruct (Z.leb_spec 0 e); [pose proof (proj2 (Z.shiftl_nonneg (Z.pos m) e)); lia|pose proof (proj2 (Z.shiftr_nonneg (Z.pos m) (- e))); lia]. Qed.
Lemma search_ok g p dx dy s : draw_search g p dx dy s = Ok tt.
Proof.
  unfold draw_search. destruct (_ || _); [reflexivity|]. apply each_ok. intros i _. apply each_ok. intros j _. cbv zeta.
  destruct (_ <? gw g) eqn:E1; [|reflexivity]. destruct (_ <? gh g) eqn:E2; [|reflexivity]. cbn [andb]. apply put_ok; now apply Z.ltb_lt.
Qed.
Lemma find_same g dx dy l : find_alignment_debug g dx dy l = find_alignment g dx dy l.
Proof.
  induction l as [|[s p] l IH]; cbn [find_alignment_debug find_alignment]; [reflexivity|]. rewrite search_ok. cbn [bind].
  destruct (is_alignment _ _ _ _ _) as [[]| |]; cbn [bind]; auto.
Qed.

(** a mark ends at the row below, unless the image ends before *)
Lemma sample_ok g x y : gw g <= 2 ^ 31 -> gh g <= 2 ^ 31 -> 0 <= x < gw g -> 0 <= y < gh g -> gw g <= gh g \/ y + 2 <= gh g -> draw_sample g x y = Ok tt.
Proof.
  intros HW HH Hx Hy H. unfold draw_sample. rewrite chk_ok by (unfold u32_max; lia). cbn [bind]. apply each_ok. intros i Hi. apply in_zrange in Hi.
  rewrite chk_ok by (unfold u32_max; lia). cbn [bind]. apply each_ok. intros j Hj. apply in_zrange in Hj. apply put_ok; lia.
Qed.
Lemma each_panic l f x : (forall x, drawing (f x)) -> In x l -> f x <> Ok tt -> exists p, each l f = Panic p.
Proof.
  intros HD HI HF. unfold each. induction l as [|a l IH]; [destruct HI|]. cbn [foldM]. destruct (HD a) as [E|(p & E)]; rewrite E; cbn [bind]; [|eauto].
  destruct HI as [-> |HI]; [now destruct HF|auto].
Qed.
Lemma sample_panic g x y : gh g < gw g -> gw g <= 2 ^ 31 -> 0 <= x < gw g -> y = gh g - 1 -> 0 <= y -> exists p, draw_sample g x y = Panic p.
Proof.
  intros HH HW Hx -> Hy. unfold draw_sample. rewrite chk_ok by (unfold u32_max; lia). cbn [bind].
  assert (D : forall i, drawing (y2 <- chk_u32 (gh g - 1 + 2) ;; each (zrange (Z.max 0 (gh g - 1 - 2)) (Z.min (gw g) y2)) (fun j => put_pixel g i j))).
  { intros i. apply drawing_bind; [apply chk_no_err|]. intros y2. apply each_drawing. intros j. apply put_drawing. }
  apply each_panic with x; [exact D|apply in_zrange; lia|]. intros E. rewrite chk_ok in E by (unfold u32_max; lia). cbn [bind] in E.
  destruct (each_panic (zrange (Z.max 0 (gh g - 1 - 2)) (Z.min (gw g) (gh g - 1 + 2))) (fun j => put_pixel g x j) (gh g)) as (p & EP); [intros; apply put_drawing|apply in_zrange; lia| |rewrite EP in E; discriminate].
  unfold put_pixel. destruct (Z.ltb_spec (gh g) (gh g)); [lia|]. rewrite andb_false_r. discriminate.
Qed.

(** *** rows of samples *)
Lemma row_same g : forall n line dx data data', sample_row n g line dx data = Ok data' ->
  (forall i, (i < n)%nat -> let x := round_u32 (steps i (px line) (dlx dx)) in let y := round_u32 (steps i (py line) (dly dx)) in
     get_pixel g x y = Ok 0%N -> draw_sample g x y = Ok tt) -> sample_row_debug n g line dx data = Ok data'.
Proof.
  induction n as [|n IH]; intros line dx data data' E H; cbn [sample_row sample_row_debug] in *; [exact E|]. cbv zeta. apply bind_ok in E. destruct E as (v & E1 & E).
  rewrite E1. cbn [bind]. assert (D : (if N.eqb v 0 then draw_sample g (round_u32 (px line)) (round_u32 (py line)) else Ok tt) = Ok tt).
  { destruct (N.eqb_spec v 0) as [-> |]; [|reflexivity]. apply (H 0%nat); [lia|exact E1]. }
  rewrite D. cbn [bind]. apply IH; [exact E|]. intros i Hi. exact (H (S i) ltac:(lia)).
Qed.
Lemma row_panics g i : forall n line dx data data', sample_row n g line dx data = Ok data' -> (i < n)%nat ->
  let x := round_u32 (steps i (px line) (dlx dx)) in let y := round_u32 (steps i (py line) (dly dx)) in
  get_pixel g x y = Ok 0%N -> (exists p, draw_sample g x y = Panic p) -> exists p, sample_row_debug n g line dx data = Panic p.
Proof.
  induction i as [|i IH]; intros n line dx data data' E Hi x y HP HD; (destruct n as [|n]; [lia|]); cbn [sample_row sample_row_debug] in *; cbv zeta.
  - unfold x, y in *. cbn [steps] in HP, HD. rewrite HP. cbn [bind]. change (N.eqb 0 0) with true. cbv iota. destruct HD as (p & ->). cbn [bind]. eauto.
  - apply bind_ok in E. destruct E as (v & E1 & E). rewrite E1. cbn [bind].
    assert (D : drawing (if N.eqb v 0 then draw_sample g (round_u32 (px line)) (round_u32 (py line)) else Ok tt)) by (destruct (N.eqb v 0); [apply sample_drawing|now left]).
    destruct D as [-> |(p & ->)]; cbn [bind]; [|eauto]. apply (IH n _ _ _ _ E ltac:(lia)); [exact HP|exact HD].
Qed.
Lemma rows_same g p cols : forall n start dx dy data data', sample_rows n cols g p start dx dy data = Ok data' ->
  (forall r c, (r < n)%nat -> (c < cols)%nat ->
     let x := round_u32 (coord (px start) (dlx dx) (dlx (pddx p)) (dlx dy) (dlx (pddy p)) r c) in
     let y := round_u32 (coord (py start) (dly dx) (dly (pddx p)) (dly dy) (dly (pddy p)) r c) in
     get_pixel g x y = Ok 0%N -> draw_sample g x y = Ok tt) -> sample_rows_debug n cols g p start dx dy data = Ok data'.
Proof.
  induction n as [|n IH]; intros start dx dy data data' E H; cbn [sample_rows sample_rows_debug] in *; [exact E|]. cbv zeta in *. apply bind_ok in E. destruct E as (d & E1 & E).
  rewrite (row_same g _ _ _ _ _ E1); [|intros i Hi; exact (H 0%nat i ltac:(lia) Hi)]. cbn [bind]. apply IH; [exact E|]. intros r c Hr Hc. exact (H (S r) c ltac:(lia) Hc).
Qed.
Lemma rows_panic g p cols c r : forall n start dx dy data data', sample_rows n cols g p start dx dy data = Ok data' -> (r < n)%nat -> (c < cols)%nat ->
  let x := round_u32 (coord (px start) (dlx dx) (dlx (pddx p)) (dlx dy) (dlx (pddy p)) r c) in
  let y := round_u32 (coord (py start) (dly dx) (dly (pddx p)) (dly dy) (dly (pddy p)) r c) in
  get_pixel g x y = Ok 0%N -> (exists q, draw_sample g x y = Panic q) -> exists q, sample_rows_debug n cols g p start dx dy data = Panic q.
Proof.
  induction r as [|r IH]; intros n start dx dy data data' E Hr Hc x y HP HD; (destruct n as [|n]; [lia|]); cbn [sample_rows sample_rows_debug] in *; cbv zeta in *; apply bind_ok in E; destruct E as (d & E1 & E).
  - destruct (row_panics g c _ _ _ _ _ E1 Hc HP HD) as (q & ->). cbn [bind]. eauto.
  - destruct (row_sop g cols (psub start (dmul (of_Z 3) dx)) dx data) as [-> |(q & ->)]; cbn [bind]; [|eauto]. rewrite E1. cbn [bind].
    apply (IH n _ _ _ _ _ E ltac:(lia) Hc); [exact HP|exact HD].
Qed.

(** in images that are not wider than high nothing changes *)
Section Tall.
Context (g : gray) (HW : wf_gray g) (HT : gw g <= gh g) (HH : gh g <= 2 ^ 31).
Lemma detect_tall : detect_debug g = detect g.
Proof.
  unfold detect_debug, detect. destruct (find_candidates g) as [cs| |]; cbn [bind]; [|reflexivity|reflexivity].
  assert (D : foldM (fun _ c => draw_candidate g c) cs tt = Ok tt).
  { induction cs as [|c cs IH]; cbn [foldM]; [reflexivity|]. unfold draw_candidate at 1. cbv zeta. rewrite box_ok; [exact IH|..]; try apply to_u32_pos; lia. }
  rewrite D. reflexivity.
Qed.
Lemma perspective_tall v n loc : determine_perspective_debug g v n loc = determine_perspective g v n loc.
Proof.
  unfold determine_perspective_debug, determine_perspective. destruct (sub_Z n 7); cbn [bind]; [|reflexivity|reflexivity]. cbv zeta. destruct (v =? 1); [reflexivity|].
  destruct (sub_Z n 10); cbn [bind]; [|reflexivity|reflexivity]. rewrite find_same. destruct (find_alignment _ _ _ _) as [[p|]| |]; cbn [bind]; [|reflexivity..].
  destruct (centre_alignment g p); cbn [bind]; [|reflexivity|reflexivity]. unfold draw_alignment. cbv zeta. rewrite box_ok; [reflexivity|..]; try apply to_u32_pos; lia.
Qed.
Lemma row_tall : forall n line dx data, sample_row_debug n g line dx data = sample_row n g line dx data.
Proof.
  induction n as [|n IH]; intros line dx data; cbn [sample_row_debug sample_row]; [reflexivity|]. cbv zeta. destruct (get_pixel _ _ _) as [v| |] eqn:E; cbn [bind]; [|reflexivity|reflexivity].
  assert (D : (if N.eqb v 0 then draw_sample g (round_u32 (px line)) (round_u32 (py line)) else Ok tt) = Ok tt).
  { destruct (N.eqb v 0); [|reflexivity]. pose proof (proj1 (round_u32_range (px line))). pose proof (proj1 (round_u32_range (py line))).
    apply get_pixel_in in E; auto. apply sample_ok; lia. }
  rewrite D. cbn [bind]. apply IH.
Qed.
Lemma rows_tall p cols : forall n start dx dy data, sample_rows_debug n cols g p start dx dy data = sample_rows n cols g p start dx dy data.
Proof.
  induction n as [|n IH]; intros start dx dy data; cbn [sample_rows_debug sample_rows]; [reflexivity|]. cbv zeta. rewrite row_tall.
  destruct (sample_row _ _ _ _ _); cbn [bind]; [apply IH|reflexivity|reflexivity].
Qed.
Lemma extract_tall loc : extract_debug g loc = extract g loc.
Proof.
  unfold extract_debug, extract. destruct (chk_u32 _) as [v4| |]; cbn [bind]; [|reflexivity|reflexivity]. destruct (chk_u32 _) as [n| |]; cbn [bind]; [|reflexivity|reflexivity].
  rewrite perspective_tall. destruct (determine_perspective _ _ _ _); cbn [bind]; [|reflexivity|reflexivity]. cbv zeta. now rewrite rows_tall.
Qed.
End Tall.
