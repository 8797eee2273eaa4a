(** Sampling a located symbol: C50 to C54, C56. *)
From Coq Require Import NArith ZArith Reals List Lia Lra Bool Arith Psatz.
From Verif.Model Require Import Prepare Detect Extract Pipeline.
From Flocq Require Import Core.
From Verif.Spec Require Import Bits Segments Symbol Layout Bridge Message Encoder Plane Drawing.
From Verif.Proofs Require Import BaseP FormatP EncodeP EncoderP PrepareP FloatP ApproxP DetectP ExtractP AlignP.
From Verif.Props Require Import PrepareProps DetectProps DecoderProps ReportProps PipelineProps.
Import ListNotations.
Local Open Scope Z_scope.

(** *** C50: what extraction delivers *)

(** [v] is the value of a pixel of the image *)
Definition pixel_value_of (g : gray) (v : N) : Prop :=
  exists x y, 0 <= x < gw g /\ 0 <= y < gh g /\ get_pixel g x y = Ok v.

Lemma in_buf_pixel g v : wf_gray g -> In v (gbuf g) -> pixel_value_of g v.
Proof.
  intros HW HI. pose proof HW as (W1 & W2 & WL & _). apply In_nth_error in HI. destruct HI as (i & Hi).
  assert (B : (i < length (gbuf g))%nat) by (apply nth_error_Some; congruence).
  assert (P : 0 < gw g /\ 0 < gh g) by nia.
  exists (Z.of_nat i mod gw g), (Z.of_nat i / gw g).
  pose proof (Z.mod_pos_bound (Z.of_nat i) (gw g) ltac:(lia)). pose proof (Z.div_mod (Z.of_nat i) (gw g) ltac:(lia)).
  assert (0 <= Z.of_nat i / gw g < gh g) by (split; [apply Z.div_pos; lia|apply Z.div_lt_upper_bound; lia]).
  split; [lia|]. split; [lia|]. unfold get_pixel.
  destruct (Z.ltb_spec (Z.of_nat i mod gw g) (gw g)); [|lia]. destruct (Z.ltb_spec (Z.of_nat i / gw g) (gh g)); [|lia]. cbn [andb].
  unfold get. replace (Z.to_nat (Z.of_nat i / gw g * gw g + Z.of_nat i mod gw g)) with i by lia. now rewrite Hi.
Qed.

Theorem C50_extracted g loc q : wf_gray g -> 0 <= version loc -> extract g loc = Ok q ->
  qversion q = version loc /\ qside q = side_of (version loc) /\
  length (qdata q) = Z.to_nat (side_of (version loc) * side_of (version loc)) /\
  Forall (pixel_value_of g) (qdata q).
Proof.
  intros HW HV E. unfold extract in E. apply bind_ok in E. destruct E as (v4 & E1 & E). apply bind_ok in E. destruct E as (size & E2 & E).
  apply bind_ok in E. destruct E as (p & _ & E). apply bind_ok in E. destruct E as (data & E3 & E).
  assert (C : forall a b, chk_u32 a = Ok b -> b = a) by (intros a b X; unfold chk_u32 in X; destruct (_ && _); congruence).
  apply C in E1, E2. subst v4 size. unfold qrdata_new in E. apply bind_ok in E. destruct E as (m & E4 & E). apply bind_ok in E.
  destruct E as (s & E5 & E). apply C in E4, E5. subst m s. injection E as <-. cbn [qversion qside qdata].
  apply (sample_rows_inv g (pixel_value_of g)) in E3; [|intros x y v G; apply in_buf_pixel; [exact HW|]|constructor].
  - destruct E3 as [F L]. unfold side_of. split; [reflexivity|]. split; [lia|]. split; [|exact F]. rewrite L. cbn [length]. lia.
  - unfold get_pixel in G. destruct (_ && _); [|discriminate]. unfold get in G. destruct (nth_error _ _) eqn:X; [|discriminate].
    injection G as <-. now apply nth_error_In in X.
Qed.

(** so every extracted value stands for a symbol of the location's version: the decoder gets
    what it expects *)
Theorem C50_shows g loc q : wf_gray g -> 0 <= version loc -> extract g loc = Ok q -> exists d, shows (version loc) d q.
Proof.
  intros HW HV E. destruct (C50_extracted g loc q HW HV E) as (A & B & C & _).
  exists (fun x y => N.eqb (nth (Z.to_nat (y * side_of (version loc) + x)) (qdata q) 0%N) 0).
  split; [exact A|]. split; [exact B|]. split; [exact C|]. intros x y Hx Hy. apply N.eqb_eq.
Qed.

(** *** C52: axis-aligned symbols *)

(** [x] and [y] of [p] are the doubles of value rx and ry *)
Definition point_at (p : point) (rx ry : R) : Prop := fin (px p) rx /\ fin (py p) ry.

(** a location whose three corners are the centres of the finder patterns of the drawing, all
    off by the same (ex, ey), at most three eighths of a module *)
Definition located (m ox oy n : Z) (loc : qrloc) : Prop := exists ex ey,
  (Rabs ex <= 3 * IZR m / 8)%R /\ (Rabs ey <= 3 * IZR m / 8)%R /\
  point_at (top_left loc) (middle_of m ox 3 + ex) (middle_of m oy 3 + ey) /\
  point_at (top_right loc) (middle_of m ox (n - 4) + ex) (middle_of m oy 3 + ey) /\
  point_at (bottom_left loc) (middle_of m ox 3 + ex) (middle_of m oy (n - 4) + ey).

(** the symbol (column, row) of a drawing (row, column) *)
Definition symbol_drawn (g : gray) (m ox oy v : Z) (d : matrix) : Prop :=
  drawn (pixel g) m ox oy (side_of v) (fun r c => d c r) /\
  ox + side_of v * m <= 2 ^ 26 /\ oy + side_of v * m <= 2 ^ 26.

Lemma rows_show v n d : 0 <= v -> n = side_of v ->
  shows v d (mkQRData (rows (fun r c => colour (d (Z.of_nat c) (Z.of_nat r))) (Z.to_nat n)) v n).
Proof.
  intros Hv ->. pose proof (deliver_shows v d Hv) as S. unfold deliver in S.
  replace (rows _ _) with (flat_map (fun y => map (fun x => if d (Z.of_nat x) (Z.of_nat y) then 0%N else 255%N) (seq 0 (Z.to_nat (side_of v)))) (seq 0 (Z.to_nat (side_of v)))) by reflexivity.
  exact S.
Qed.

Theorem C52_sampled g m ox oy d loc : symbol_drawn g m ox oy 1 d -> located m ox oy 21 loc -> version loc = 1 ->
  exists q, extract g loc = Ok q /\ shows 1 d q /\
    (* not only dark or light, but the very values of the pixels *)
    qdata q = flat_map (fun r => map (fun c => if d (Z.of_nat c) (Z.of_nat r) then 0%N else 255%N) (seq 0 21)) (seq 0 21).
Proof.
  intros (HD & WX & WY) (ex & ey & HE & HE' & A & B & C) HV. change (side_of 1) with 21 in *.
  eexists. split; [exact (extract_drawn_1 g m ox oy (fun r c => d c r) loc ex ey HD WX WY HE HE' A B C HV)|].
  split; [exact (rows_show 1 21 d ltac:(lia) eq_refl)|reflexivity].
Qed.

(** *** C56: all versions *)

(** the alignment pattern nearest to the bottom right corner *)
Theorem C56_sampled g m ox oy v d loc : wf_gray g -> 2 <= v <= 40 -> symbol_drawn g m ox oy v d ->
  bottom_right_alignment (side_of v) (fun r c => d c r) -> located m ox oy (side_of v) loc -> version loc = v ->
  exists q, extract g loc = Ok q /\ shows v d q.
Proof.
  intros HW Hv (HD & WX & WY) HA (ex & ey & HE & HE' & A & B & C) HV.
  assert (HS : side_of v = 17 + 4 * version loc) by (unfold side_of; lia). assert (HN : 25 <= side_of v <= 177) by (unfold side_of; lia).
  eexists. split; [exact (extract_drawn g m ox oy (side_of v) (fun r c => d c r) loc ex ey HD WX WY HE HE' A B C HA HN HW HS)|].
  rewrite HV. apply rows_show; lia.
Qed.

(** with the codewords of a text in it, the drawing is decoded to the text *)
Theorem C56_decoded g m ox oy v l mask segs texts base d loc : wf_gray g -> 1 <= v <= 40 -> (mask < 8)%N ->
  symbol_drawn g m ox oy v d -> (v = 1 \/ bottom_right_alignment (side_of v) (fun r c => d c r)) ->
  Forall (raw_wf v) segs -> Forall2 raw_text segs texts -> (length (segment_bits v segs) <= 8 * data_codewords v l)%nat ->
  (forall x y, data_module v x y -> d x y = encode_symbol v l mask segs base x y) -> carries d copy1 (format_word l mask) ->
  located m ox oy (side_of v) loc -> version loc = v ->
  qr_decode (extract g loc) = Ok (concat texts).
Proof.
  intros HW Hv Hm HD HA HS HT HL HM HF HLoc HV.
  assert (E : exists q, extract g loc = Ok q /\ shows v d q).
  { destruct (Z.eq_dec v 1) as [->|NV].
    - destruct (C52_sampled g m ox oy d loc HD HLoc HV) as (q & E & S & _). eauto.
    - apply (C56_sampled g m ox oy v d loc); auto; [lia|]. destruct HA; [lia|assumption]. }
  destruct E as (q & -> & S). eapply C30_roundtrip; eauto.
Qed.

(** images with a drawing: every module [m] by [m] pixels, white around *)
Definition image_of (w h : Z) (f : Z -> Z -> N) : gray :=
  Gray w h (flat_map (fun y => map (fun x => f (Z.of_nat x) (Z.of_nat y)) (seq 0 (Z.to_nat w))) (seq 0 (Z.to_nat h))).
Definition painted (w h m ox oy v : Z) (d : matrix) : gray := image_of w h (fun x y =>
  let c := (x - ox) / m in let r := (y - oy) / m in
  if (0 <=? c) && (c <? side_of v) && (0 <=? r) && (r <? side_of v) && d c r then 0%N else 255%N).

Lemma image_of_pixel w h f x y : 0 <= x < w -> 0 <= y < h -> get_pixel (image_of w h f) x y = Ok (f x y).
Proof.
  intros Hx Hy. unfold get_pixel. cbn [gw gh image_of gbuf]. destruct (Z.ltb_spec x w); [|lia]. destruct (Z.ltb_spec y h); [|lia]. cbn [andb].
  unfold get. rewrite (nth_error_nth' _ 0%N).
  - replace (Z.to_nat (y * w + x)) with (Z.to_nat y * Z.to_nat w + Z.to_nat x)%nat by nia.
    rewrite (nth_grid (fun x y => f (Z.of_nat x) (Z.of_nat y))) by lia. now rewrite !Z2Nat.id by lia.
  - rewrite (length_grid (fun x y => f (Z.of_nat x) (Z.of_nat y))). nia.
Qed.
Lemma image_of_wf w h f : 0 <= w <= u32_max -> 0 <= h <= u32_max -> (forall x y, (f x y < 256)%N) -> wf_gray (image_of w h f).
Proof.
  intros Hw Hh HF. unfold wf_gray. cbn [gw gh gbuf image_of]. repeat split; try lia.
  - rewrite (length_grid (fun x y => f (Z.of_nat x) (Z.of_nat y))). nia.
  - apply Forall_forall. intros b Hb. apply in_flat_map in Hb. destruct Hb as (y & _ & Hb). apply in_map_iff in Hb. destruct Hb as (x & <- & _). apply HF.
Qed.
Lemma painted_wf w h m ox oy v d : 0 <= w <= u32_max -> 0 <= h <= u32_max -> wf_gray (painted w h m ox oy v d).
Proof. intros. apply image_of_wf; auto. intros x y. cbv zeta. now destruct (_ && _). Qed.
Lemma painted_drawn w h m ox oy v d : 0 <= ox -> 0 <= oy -> 1 <= m -> 0 <= v -> ox + side_of v * m <= w -> oy + side_of v * m <= h ->
  w <= 2 ^ 26 -> h <= 2 ^ 26 -> symbol_drawn (painted w h m ox oy v d) m ox oy v d.
Proof.
  intros Hx Hy Hm Hv Ww Wh W2 H2. split; [|lia]. split; [lia|]. split; [lia|]. split; [lia|].
  intros r c i j Hr Hc Hi Hj. unfold pixel, painted. assert (c * m + m <= side_of v * m) by nia. assert (r * m + m <= side_of v * m) by nia.
  rewrite image_of_pixel by nia. cbv zeta.
  replace ((ox + c * m + i - ox) / m) with c by (apply Z.div_unique with i; lia).
  replace ((oy + r * m + j - oy) / m) with r by (apply Z.div_unique with j; lia).
  destruct (Z.leb_spec 0 c); [|lia]. destruct (Z.ltb_spec c (side_of v)); [|lia]. destruct (Z.leb_spec 0 r); [|lia]. destruct (Z.ltb_spec r (side_of v)); [|lia].
  reflexivity.
Qed.

(** the finder centres, off to the right and down by half a pixel: whole numbers for even [m] *)
Definition located_at (m ox oy v : Z) : qrloc :=
  let at_ r c := Pt (of_Z (ox + c * m + m / 2)) (of_Z (oy + r * m + m / 2)) in
  mkQRLoc (at_ 3 3) (at_ 3 (side_of v - 4)) (at_ (side_of v - 4) 3) (of_Z m) v.
Lemma located_at_ok m ox oy v : 0 <= ox <= 2 ^ 26 -> 0 <= oy <= 2 ^ 26 -> 2 <= m <= 2 ^ 26 -> m mod 2 = 0 -> 1 <= v <= 40 ->
  located m ox oy (side_of v) (located_at m ox oy v).
Proof.
  intros Hx Hy Hm HE Hv. exists (/2)%R, (/2)%R. assert (2 <= IZR m)%R by (apply IZR_le; lia).
  rewrite Rabs_pos_eq by lra. split; [lra|]. split; [lra|].
  pose proof (Z.div_mod m 2 ltac:(lia)) as DM. rewrite HE, Z.add_0_r in DM.
  assert (K : forall o k, 0 <= o <= 2 ^ 26 -> 0 <= k <= 177 -> fin (of_Z (o + k * m + m / 2)) (middle_of m o k + / 2)).
  { intros o k Ho Hk. assert (0 <= k * m <= 177 * 2 ^ 26) by nia. assert (0 <= m / 2 <= 2 ^ 26) by lia.
    replace (middle_of m o k + / 2)%R with (IZR (o + k * m + m / 2)); [apply fin_of_Z; lia|].
    unfold middle_of. rewrite !plus_IZR, mult_IZR. apply (f_equal IZR) in DM. rewrite mult_IZR in DM. lra. }
  unfold side_of. split; [|split]; split; cbn [located_at top_left top_right bottom_left px py]; apply K; unfold side_of; lia.
Qed.

(** a complete symbol of version 2: two pixels per module in an image of 60 by 56 pixels *)
Definition base_2 : matrix := fun x y =>
  let ring cx cy k := Z.max (Z.abs (x - cx)) (Z.abs (y - cy)) =? k in
  let finder cx cy := ring cx cy 0 || ring cx cy 1 || ring cx cy 3 in
  finder 3 3 || finder 21 3 || finder 3 21 || ring 18 18 0 || ring 18 18 2
  || (Z.eqb x 6 || Z.eqb y 6) && Z.even (x + y) && (7 <? x + y - 6) && (x + y - 6 <? 17).
Definition symbol_2 : matrix := encode_symbol 2 M 3 [encode_alnum [72; 69; 76; 76; 79]%N] base_2.

Example C56_example : symbol_drawn (painted 60 56 2 5 4 2 symbol_2) 2 5 4 2 symbol_2 /\
  bottom_right_alignment (side_of 2) (fun r c => symbol_2 c r) /\ located 2 5 4 (side_of 2) (located_at 2 5 4 2) /\
  qr_decode (extract (painted 60 56 2 5 4 2 symbol_2) (located_at 2 5 4 2)) = Ok [72; 69; 76; 76; 79]%N.
Proof.
  assert (H1 : symbol_drawn (painted 60 56 2 5 4 2 symbol_2) 2 5 4 2 symbol_2) by (apply painted_drawn; unfold side_of; lia).
  assert (H2 : bottom_right_alignment (side_of 2) (fun r c => symbol_2 c r)).
  { intros i j Hi Hj. assert (A : i = -2 \/ i = -1 \/ i = 0 \/ i = 1 \/ i = 2) by lia. assert (B : j = -2 \/ j = -1 \/ j = 0 \/ j = 1 \/ j = 2) by lia.
    destruct A as [->|[->|[->|[->| ->]]]], B as [->|[->|[->|[->| ->]]]]; vm_compute; reflexivity. }
  assert (H3 : located 2 5 4 (side_of 2) (located_at 2 5 4 2)) by (apply located_at_ok; (reflexivity || lia)).
  split; [exact H1|]. split; [exact H2|]. split; [exact H3|].
  apply (C56_decoded _ 2 5 4 2 M 3 [encode_alnum [72; 69; 76; 76; 79]%N] [[72; 69; 76; 76; 79]%N] base_2 symbol_2); auto; try lia.
  - apply painted_wf; unfold u32_max; lia.
  - constructor; [|constructor]. apply encode_alnum_wf; [|vm_compute; reflexivity]. repeat (constructor; [vm_compute; tauto|]). constructor.
  - constructor; [|constructor]. split; [|vm_compute; reflexivity]. vm_compute. repeat constructor.
  - vm_compute. lia.
  - apply encode_format. lia.
Qed.

(** *** C53: no alignment pattern *)

(** every probed point is refused *)
Theorem C53_refused g loc : 2 <= version loc <= 2 ^ 29 ->
  let size := 17 + 4 * version loc in
  let dx := ddiv (pdiff (top_right loc) (top_left loc)) (of_Z (size - 7)) in
  let dy := ddiv (pdiff (bottom_left loc) (top_left loc)) (of_Z (size - 7)) in
  (forall s p, In (s, p) (search_points (estimate loc dx dy (size - 10)) dx dy) -> is_alignment g p dx dy s = Ok false) ->
  extract g loc = Err ENoAlignmentPattern.
Proof.
  intros HV size dx dy H. unfold extract. rewrite !chk_u32_ok by (unfold u32_max; lia). cbn [bind]. rewrite chk_u32_ok by (unfold u32_max; lia). cbn [bind].
  replace (17 + version loc * 4) with size by (unfold size; lia). unfold determine_perspective. rewrite sub_Z_ok by (unfold size; lia). cbn [bind].
  destruct (Z.eqb_spec (version loc) 1) as [|_]; [lia|]. rewrite sub_Z_ok by (unfold size; lia). cbn [bind]. fold dx dy.
  assert (E : forall l, (forall s p, In (s, p) l -> is_alignment g p dx dy s = Ok false) -> find_alignment g dx dy l = Ok None).
  { induction l as [|[s p] l IH]; intros Hl; [reflexivity|]. cbn [find_alignment]. rewrite (Hl s p) by now left. cbn [bind].
    apply IH. intros s' p' Hp. apply Hl. now right. }
  rewrite E by exact H. reflexivity.
Qed.

Lemma found_accepted g dx dy l p : find_alignment g dx dy l = Ok (Some p) -> exists s, In (s, p) l /\ is_alignment g p dx dy s = Ok true.
Proof.
  induction l as [|[s p'] l IH]; cbn [find_alignment]; [discriminate|]. intros E. apply bind_ok in E. destruct E as (b & E1 & E).
  destruct b; [injection E as ->; exists s; split; [now left|exact E1]|]. destruct (IH E) as (s' & H1 & H2). exists s'. split; [now right|exact H2].
Qed.

Lemma accepted_pixels g p dx dy s : is_alignment g p dx dy s = Ok true ->
  pixel_at g p = Ok 0%N /\
  (exists v, pixel_at g (psub p (dmul s dy)) = Ok v /\ v <> 0%N) /\ (exists v, pixel_at g (padd p (dmul s dy)) = Ok v /\ v <> 0%N).
Proof.
  unfold is_alignment. destruct (_ || _); [discriminate|]. destruct (_ || _); [discriminate|]. destruct (_ || _); [discriminate|].
  intros E. apply bind_ok in E. destruct E as (b & E1 & E). destruct b; [|discriminate].
  apply bind_ok in E. destruct E as (v & E2 & E). injection E as E. apply N.eqb_eq in E. subst v. split; [exact E2|].
  assert (A : forall l, all_ok l = Ok true -> Forall (fun c => c = Ok true) l).
  { induction l as [|c l IH]; intros X; [constructor|]. cbn [all_ok] in X. apply bind_ok in X. destruct X as (b & X1 & X). destruct b; [|discriminate].
    constructor; auto. }
  apply A in E1. rewrite app_assoc in E1. apply Forall_app in E1. destruct E1 as [_ E1]. inversion E1 as [|? ? P1 P2]; subst. inversion P2 as [|? ? P3 _]; subst.
  assert (B : forall q, not_black g q = Ok true -> exists v, pixel_at g q = Ok v /\ v <> 0%N).
  { intros q X. unfold not_black in X. apply bind_ok in X. destruct X as (v & X1 & X). injection X as X. exists v. split; [exact X1|].
    intros ->. discriminate. }
  split; now apply B.
Qed.

(** data is delivered only when there is something like an alignment pattern: a black pixel
    and pixels that are not black in the image *)
Theorem C53_evidence g loc q : wf_gray g -> version loc <> 1 -> extract g loc = Ok q ->
  pixel_value_of g 0 /\ exists v, v <> 0%N /\ pixel_value_of g v.
Proof.
  intros HW HV E. unfold extract in E. apply bind_ok in E. destruct E as (v4 & _ & E). apply bind_ok in E. destruct E as (size & _ & E).
  apply bind_ok in E. destruct E as (p & E & _). unfold determine_perspective in E. apply bind_ok in E. destruct E as (s7 & _ & E).
  destruct (Z.eqb_spec (version loc) 1) as [|_]; [contradiction|]. apply bind_ok in E. destruct E as (s10 & _ & E).
  apply bind_ok in E. destruct E as (found & E & E'). destruct found as [al|]; [|discriminate].
  apply found_accepted in E. destruct E as (s & _ & E). apply accepted_pixels in E. destruct E as (P0 & (v & P1 & NV) & _).
  assert (K : forall q v, pixel_at g q = Ok v -> pixel_value_of g v).
  { intros q' v' X. apply in_buf_pixel; [exact HW|]. unfold pixel_at, get_pixel in X. destruct (_ && _); [|discriminate].
    unfold get in X. destruct (nth_error _ _) eqn:Y; [|discriminate]. injection X as <-. now apply nth_error_In in Y. }
  split; [eauto|]. exists v. eauto.
Qed.

(** *** C51: panics *)
Definition C51_statement : Prop := forall g loc p, wf_gray g -> 0 <= version loc -> extract g loc <> Panic p.

(** three finder patterns of a symbol sheared by one module, two pixels per module, the bottom
    edge of the image right below the lower pattern *)
Definition sheared : gray :=
  Gray 46 44 (flat_map (fun y => map (fun x =>
    let i := y / 2 - 1 in let j := x / 2 - 1 in
    if in_finder i j || in_finder (i - 14) j || in_finder (i - 1) (j - 14) then 0%N else 255%N) (zrange 0 46)) (zrange 0 44)).

Lemma sheared_wf : wf_gray sheared.
Proof. apply wf_check. vm_compute. reflexivity. Qed.
Lemma sheared_located : match detect sheared with
  | Ok [loc] => version loc = 1 /\ extract sheared loc = Panic PIndex
  | _ => False
  end.
Proof. vm_compute. auto. Qed.

(** the location is one that detection reports for the image *)
Theorem C51_refuted : ~ C51_statement.
Proof.
  intros H. pose proof sheared_located as L. destruct (detect sheared) as [[|loc [|]]| |]; try contradiction. destruct L as [V E].
  exact (H sheared loc PIndex sheared_wf ltac:(lia) E).
Qed.

(** where version 1 samples module (r, c): the parallelogram given by the corners *)
Definition sample_point (tl tr bl : vec) (r c : nat) : vec :=
  let at_ f := (f tl + (INR c - 3) * ((f tr - f tl) / 14) + (INR r - 3) * ((f bl - f tl) / 14))%R in Vec (at_ vx) (at_ vy).
Definition corners_at (loc : qrloc) (tl tr bl : vec) : Prop :=
  point_at (top_left loc) (vx tl) (vy tl) /\ point_at (top_right loc) (vx tr) (vy tr) /\ point_at (bottom_left loc) (vx bl) (vy bl).

(** for version 1, up to a 64th of a pixel: extraction panics when a sample point is beyond the
    right or the lower edge of the image and only then (negative coordinates are taken as 0).
    Missing from the full statement: those panics; for versions above 1 only drawn symbols are
    covered (C56). *)
Theorem C51_inside_partial g loc tl tr bl : wf_gray g -> 0 < gw g <= 2 ^ 26 -> 0 < gh g <= 2 ^ 26 -> version loc = 1 -> corners_at loc tl tr bl ->
  (forall r c, (r < 21)%nat -> (c < 21)%nat -> let p := sample_point tl tr bl r c in
     (- 67108864 <= vx p < IZR (gw g) - /2 - /64 /\ - 67108864 <= vy p < IZR (gh g) - /2 - /64)%R) ->
  exists q, extract g loc = Ok q.
Proof.
  intros HW HX HY HV ([A1 A2] & [B1 B2] & [C1 C2]) H. pose proof (IZR_le _ _ (proj2 HX)) as W. pose proof (IZR_le _ _ (proj2 HY)) as W'.
  change (IZR (2 ^ 26)) with 67108864%R in *.
  assert (E : forall r c, grid_x1 (vx tl) (vx tr) (vx bl) r c = vx (sample_point tl tr bl r c) /\ grid_y1 (vy tl) (vy tr) (vy bl) r c = vy (sample_point tl tr bl r c))
    by (intros; unfold grid_x1, grid_y1, grid, sample_point; cbn [vx vy]; split; lra).
  destruct (inside_1 g loc _ _ _ _ _ _ HV A1 A2 B1 B2 C1 C2) as (data & ->); try (exact HW || lia); [| |eauto].
  - intros r c Hr Hc. destruct (E r c) as [-> ->]. specialize (H r c Hr Hc). cbv zeta in H. split; apply Rabs_le; lra.
  - intros r c Hr Hc. destruct (E r c) as [-> ->]. specialize (H r c Hr Hc). cbv zeta in H. unfold slack. lra.
Qed.

Theorem C51_outside_partial g loc tl tr bl r c : wf_gray g -> version loc = 1 -> corners_at loc tl tr bl ->
  (forall r c, (r < 21)%nat -> (c < 21)%nat -> let p := sample_point tl tr bl r c in (Rabs (vx p) <= 67108864 /\ Rabs (vy p) <= 67108864)%R) ->
  (r < 21)%nat -> (c < 21)%nat -> let p := sample_point tl tr bl r c in
  (IZR (gw g) - /2 + /64 <= vx p \/ IZR (gh g) - /2 + /64 <= vy p)%R ->
  exists e, extract g loc = Panic e.
Proof.
  intros HW HV ([A1 A2] & [B1 B2] & [C1 C2]) HB Hr Hc p HO.
  assert (E : forall r c, grid_x1 (vx tl) (vx tr) (vx bl) r c = vx (sample_point tl tr bl r c) /\ grid_y1 (vy tl) (vy tr) (vy bl) r c = vy (sample_point tl tr bl r c))
    by (intros; unfold grid_x1, grid_y1, grid, sample_point; cbn [vx vy]; split; lra).
  apply (outside_1 g loc _ _ _ _ _ _ HV A1 A2 B1 B2 C1 C2) with (r := r) (c := c); auto.
  - intros r' c' Hr' Hc'. destruct (E r' c') as [-> ->]. now apply HB.
  - destruct (E r c) as [-> ->]. exact HO.
Qed.

(** *** C54: the whole decoder *)
Definition C54_statement : Prop := forall (D : Type) (to_gray : D -> gray) d img,
  wf_gray (to_gray img) -> default_decoder to_gray = Ok d -> exists rs, decode d img = Ok rs.

(** what is left to panic for images that preparation accepts (C42) is the sampling of a found
    location, or the alphanumeric overrun of C33.  Missing from the full statement: those and
    the images that preparation does not accept. *)
Theorem C54_causes_partial {D : Type} (to_gray : D -> gray) d img g' p : wf_gray (to_gray img) -> gw (to_gray img) <= 2 ^ 31 -> gh (to_gray img) <= 2 ^ 31 ->
  default_decoder to_gray = Ok d -> prepare default_prepare (to_gray img) = Ok g' -> decode d img = Panic p ->
  exists locs loc, detect g' = Ok locs /\ In loc locs /\
    (extract g' loc = Panic p \/
     exists q dm l m all segs texts s rest, extract g' loc = Ok q /\ 1 <= version loc <= 40 /\ shows (version loc) dm q /\ p = PIndex /\
       reads (version loc) l m dm q all /\ Forall (raw_wf (version loc)) segs /\ Forall2 raw_text segs texts /\ raw_wf (version loc) s /\ overrun s /\
       bits all = concat (map (raw_bits (version loc)) segs) ++ raw_bits (version loc) s ++ rest).
Proof.
  intros HW HX HY HD EP E. injection HD as <-. apply C39_aborts in E. cbn [d_prepare d_detect] in E.
  rewrite EP in E. destruct E as [E|(g & E1 & E)]; [discriminate|]. injection E1 as <-.
  destruct (C41_black_white _ _ _ HW EP) as (HW' & EW & EH & _).
  destruct E as [E|(before & loc & after & E & AB & _)].
  { destruct (C46_no_panic g' HW' ltac:(lia) ltac:(lia)) as (locs & X). congruence. }
  exists (before ++ loc :: after), loc. split; [exact E|]. split; [apply in_elt|].
  unfold aborts_at in AB. cbn [d_extract d_decode] in AB. destruct AB as [AB|[NP AB]]; [now left|].
  destruct (C47_locations g' _ loc HW' ltac:(lia) ltac:(lia) E (in_elt _ _ _)) as (V1 & _).
  destruct (extract g' loc) as [q|e|p'] eqn:EX; [|discriminate|now contradiction (NP p')].
  right. destruct (C50_shows g' loc q HW' ltac:(lia) EX) as (dm & S). destruct (Z_le_dec (version loc) 40) as [V2|V2].
  - apply (C33_panics_partial (version loc) dm q p ltac:(lia) S) in AB. destruct AB as (-> & l & m & all & segs & texts & s & rest & R).
    exists q, dm, l, m, all, segs, texts, s, rest. split; [reflexivity|]. split; [lia|]. split; [exact S|]. split; [reflexivity|]. exact R.
  - exfalso. exact (C33_unknown_versions_partial (version loc) dm q p ltac:(lia) ltac:(lia) S AB).
Qed.

(** an image that preparation accepts, of 46 by 44 pixels *)
Lemma sheared_panics : decode (mkDecoder (fun g : gray => prepare default_prepare g) detect extract qr_decode) sheared = Panic PIndex.
Proof. vm_compute. reflexivity. Qed.

Theorem C54_refuted : ~ C54_statement.
Proof.
  intros H. destruct (H gray (fun g => g) _ sheared sheared_wf eq_refl) as (rs & E). rewrite sheared_panics in E. discriminate.
Qed.

(** *** concrete cases *)
Example C52_example d : symbol_drawn (painted 60 56 2 5 4 1 d) 2 5 4 1 d /\ located 2 5 4 21 (located_at 2 5 4 1) /\ version (located_at 2 5 4 1) = 1.
Proof.
  split; [apply painted_drawn; unfold side_of; lia|]. split; [|reflexivity]. change 21 with (side_of 1). apply located_at_ok; (reflexivity || lia).
Qed.

(** an extraction that succeeds, also for C50 and C53_evidence *)
Example C50_example : exists q, extract (painted 60 56 2 5 4 2 symbol_2) (located_at 2 5 4 2) = Ok q /\
  wf_gray (painted 60 56 2 5 4 2 symbol_2) /\ version (located_at 2 5 4 2) = 2.
Proof.
  destruct C56_example as (H1 & H2 & H3 & _).
  destruct (C56_sampled _ 2 5 4 2 symbol_2 (located_at 2 5 4 2) (painted_wf 60 56 2 5 4 2 symbol_2 ltac:(unfold u32_max; lia) ltac:(unfold u32_max; lia)) ltac:(lia) H1 H2 H3 eq_refl) as (q & E & _).
  exists q. split; [exact E|]. split; [apply painted_wf; unfold u32_max; lia|reflexivity].
Qed.

(** a white image *)
Example C53_example :
  let g := image_of 60 56 (fun _ _ => 255%N) in let loc := located_at 2 5 4 2 in
  let dx := ddiv (pdiff (top_right loc) (top_left loc)) (of_Z 18) in
  let dy := ddiv (pdiff (bottom_left loc) (top_left loc)) (of_Z 18) in
  (forall s p, In (s, p) (search_points (estimate loc dx dy 15) dx dy) -> is_alignment g p dx dy s = Ok false) /\
  extract g loc = Err ENoAlignmentPattern.
Proof.
  intros g loc dx dy.
  assert (A : forall s p, In (s, p) (search_points (estimate loc dx dy 15) dx dy) -> is_alignment g p dx dy s = Ok false).
  { assert (F : forallb (fun '(s, p) => match is_alignment g p dx dy s with Ok false => true | _ => false end) (search_points (estimate loc dx dy 15) dx dy) = true)
      by (vm_compute; reflexivity).
    rewrite forallb_forall in F. intros s p HI. specialize (F _ HI). cbv beta iota in F. destruct (is_alignment g p dx dy s) as [[]| |]; congruence. }
  split; [exact A|]. apply C53_refused; [cbn [loc located_at version]; lia|exact A].
Qed.

(** a location of version 1 inside an image of 60 by 56 pixels; in one of 46 by 56 the rightmost
    columns are outside *)
Example C51_example : let loc := located_at 2 5 4 1 in
  let tl := Vec 12 11 in let tr := Vec 40 11 in let bl := Vec 12 39 in
  corners_at loc tl tr bl /\
  (forall r c, (r < 21)%nat -> (c < 21)%nat -> let p := sample_point tl tr bl r c in (0 <= vx p <= 46 /\ 0 <= vy p <= 45)%R) /\
  vx (sample_point tl tr bl 0 20) = 46%R /\ vy (sample_point tl tr bl 0 20) = 5%R.
Proof.
  assert (K : forall z, Z.abs z <= 2 ^ 53 -> fin (of_Z z) (IZR z)) by (intros; now apply fin_of_Z).
  split; [|split; [|split]].
  - split; [|split]; split; cbn [located_at top_left top_right bottom_left px py vx vy]; apply K; lia.
  - intros r c Hr Hc. unfold sample_point. cbn [vx vy]. 
    assert (K20 : forall k, (k < 21)%nat -> (0 <= INR k <= 20)%R).
    { intros k Hk. split; [apply pos_INR|]. replace 20%R with (INR 20) by (simpl; lra). apply le_INR. lia. }
    pose proof (K20 r Hr). pose proof (K20 c Hc).
    lra.
  - unfold sample_point. cbn [vx vy]. replace (INR 20) with 20%R by (simpl; lra). simpl (INR 0). lra.
  - unfold sample_point. cbn [vx vy]. replace (INR 20) with 20%R by (simpl; lra). simpl (INR 0). lra.
Qed.
