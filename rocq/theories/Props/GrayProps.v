(** Symbols printed on gray paper: C86. *)
From Coq Require Import NArith ZArith List Lia Bool.
From Verif.Model Require Import Prepare Detect Extract Pipeline.
From Verif.Spec Require Import Window Bits Segments Symbol Layout Bridge Message Encoder Drawing Slant Margin.
From Verif.Proofs Require Import BaseP PrepareP DrawP AlignP CornersP.
From Verif.Props Require Import PrepareProps DetectProps DecoderProps PipelineProps ExtractProps CleanProps FinderProps WholeProps TurnProps MarginProps.
Import ListNotations.
Local Open Scope Z_scope.

(** *** single pixels *)

(** a square of [s] by [s] pixels of the tone [c] that is not far away *)
Lemma patch_count g x y c u v s : wf_gray g -> 0 <= x < gw g -> 0 <= y < gh g -> 0 <= s ->
  0 <= u -> u + s <= gw g - gw g mod 5 -> x - 15 <= u -> u + s <= x + 11 -> 0 <= v -> v + s <= gh g - gh g mod 5 -> y - 15 <= v -> v + s <= y + 11 ->
  (forall i j, 0 <= i < s -> 0 <= j < s -> get_pixel g (u + i) (v + j) = Ok c) -> s * s <= count_of g (window_at g x y) c.
Proof.
  intros HW Hx Hy S0 U1 U2 U3 U4 V1 V2 V3 V4 HS. set (r := window_at g x y).
  pose proof HW as (W1 & W2 & _). pose proof (Z.mod_pos_bound (gw g) 5 ltac:(lia)). pose proof (Z.mod_pos_bound (gh g) 5 ltac:(lia)).
  transitivity (rect_sum (Rect u (u + s) v (v + s)) (fun x y => if N.eqb (pix g x y) c then 1 else 0)).
  - rewrite (rect_sum_ext _ _ (fun _ _ => 1)).
    + rewrite rect_sum_one by (cbn [rx0 rx1 ry0 ry1]; lia). unfold rect_count. cbn [rx0 rx1 ry0 ry1]. nia.
    + intros a b [A B]. cbn [rx0 rx1 ry0 ry1] in *. specialize (HS (a - u) (b - v) ltac:(lia) ltac:(lia)).
      replace (u + (a - u)) with a in HS by lia. replace (v + (b - v)) with b in HS by lia. rewrite get_pixel_pix in HS by (auto; lia).
      injection HS as ->. now rewrite N.eqb_refl.
  - unfold count_of. apply rect_sum_sub; unfold r, window_at, used_window; cbn [rx0 rx1 ry0 ry1]; change ((7 - 1) / 2) with 3;
      try (pose proof (Z.div_mod x 5 ltac:(lia)); pose proof (Z.mod_pos_bound x 5 ltac:(lia));
           pose proof (Z.div_mod y 5 ltac:(lia)); pose proof (Z.mod_pos_bound y 5 ltac:(lia)); lia).
    intros a b _. destruct (N.eqb _ _); lia.
Qed.

Section Tones.
Context (g g' : gray) (a b : N) (HW : wf_gray g) (E : prepare default_prepare g = Ok g') (AB : (a < b)%N) (B : (b <= 250)%N).
Context (HT : forall x y, 0 <= x < gw g -> 0 <= y < gh g -> get_pixel g x y = Ok a \/ get_pixel g x y = Ok b).

(** the ink becomes black *)
Theorem C86_ink x y : 0 <= x < gw g -> 0 <= y < gh g -> get_pixel g x y = Ok a -> get_pixel g' x y = Ok 0%N.
Proof.
  intros Hx Hy P. destruct (C57_two_tones g g' a b x y HW E AB HT Hx Hy) as (NA & NB & N1 & D & _). rewrite (D P).
  set (na := count_of g (window_at g x y) a) in *. set (nb := count_of g (window_at g x y) b) in *. clearbody na nb.
  destruct (Z.leb_spec (Z.of_N a * na + Z.of_N b * nb) (250 * (na + nb))); [reflexivity|]. exfalso. nia.
Qed.

(** the paper becomes white if there is ink in its window; if the ink is nearly black, enough paper has to be there too *)
Theorem C86_paper x y u w : 0 <= x < gw g -> 0 <= y < gh g -> get_pixel g x y = Ok b -> get_pixel g u w = Ok a -> Window.inside (window_at g x y) u w ->
  ((5 <= a)%N \/ exists s t q, 4500 <= Z.of_N b * (q * q) /\ 0 <= q /\ 0 <= s /\ s + q <= gw g - gw g mod 5 /\ x - 15 <= s /\ s + q <= x + 11 /\
     0 <= t /\ t + q <= gh g - gh g mod 5 /\ y - 15 <= t /\ t + q <= y + 11 /\ forall i j, 0 <= i < q -> 0 <= j < q -> get_pixel g (s + i) (t + j) = Ok b) ->
  get_pixel g' x y = Ok 255%N.
Proof.
  intros Hx Hy P Q UW HL. destruct (C57_two_tones g g' a b x y HW E AB HT Hx Hy) as (NA & NB & N1 & _ & L). rewrite (L P).
  assert (K : 1 <= count_of g (window_at g x y) a).
  { transitivity (rect_sum (Rect u (u + 1) w (w + 1)) (fun x y => if N.eqb (pix g x y) a then 1 else 0)).
    - rewrite (rect_sum_ext _ _ (fun _ _ => 1)).
      + rewrite rect_sum_one by (cbn [rx0 rx1 ry0 ry1]; lia). unfold rect_count. cbn [rx0 rx1 ry0 ry1]. lia.
      + intros x1 y1 [A1 B1]. cbn [rx0 rx1 ry0 ry1] in *. replace x1 with u by lia. replace y1 with w by lia. destruct UW as [U1 U2].
        pose proof (window_inside g g' x y HW E Hx Hy) as S. cbv zeta in S. rewrite get_pixel_pix in Q by (auto; lia). injection Q as ->. now rewrite N.eqb_refl.
    - destruct UW as [U1 U2]. unfold count_of. apply rect_sum_sub; cbn [rx0 rx1 ry0 ry1]; try lia. intros x1 y1 _. destruct (N.eqb _ _); lia. }
  assert (K' : (5 <= a)%N \/ 4500 <= Z.of_N b * count_of g (window_at g x y) b).
  { destruct HL as [HL|(s & t & q & H1 & H2 & H3 & H4 & H5 & H6 & H7 & H8 & H9 & H10 & H11)]; [now left|right].
    pose proof (patch_count g x y b s t q HW Hx Hy H2 H3 H4 H5 H6 H7 H8 H9 H10 H11). nia. }
  set (na := count_of g (window_at g x y) a) in *. set (nb := count_of g (window_at g x y) b) in *. clearbody na nb.
  destruct (Z.leb_spec 1 na); [|lia]. destruct (Z.leb_spec (5 * (na + nb)) (Z.of_N a * na + Z.of_N b * nb)); [now rewrite andb_true_r, orb_true_r|]. exfalso.
  destruct K' as [K'|K']; nia.
Qed.

(** that is, at least as far as 15 pixels to the right of and below the ink, and 10 pixels to the left of and above it *)
Theorem C86_close x y u w : 0 <= x < gw g -> 0 <= y < gh g -> get_pixel g x y = Ok b -> get_pixel g u w = Ok a ->
  0 <= u < gw g - gw g mod 5 -> 0 <= w < gh g - gh g mod 5 -> x - 15 <= u <= x + 10 -> y - 15 <= w <= y + 10 ->
  ((5 <= a)%N \/ exists s t q, 4500 <= Z.of_N b * (q * q) /\ 0 <= q /\ 0 <= s /\ s + q <= gw g - gw g mod 5 /\ x - 15 <= s /\ s + q <= x + 11 /\
     0 <= t /\ t + q <= gh g - gh g mod 5 /\ y - 15 <= t /\ t + q <= y + 11 /\ forall i j, 0 <= i < q -> 0 <= j < q -> get_pixel g (s + i) (t + j) = Ok b) ->
  get_pixel g' x y = Ok 255%N.
Proof.
  intros Hx Hy P Q U1 W1 U2 W2 HL. apply (C86_paper x y u w); auto.
  unfold Window.inside, window_at, used_window. cbn [rx0 rx1 ry0 ry1]. change ((7 - 1) / 2) with 3.
  pose proof (Z.div_mod x 5 ltac:(lia)). pose proof (Z.mod_pos_bound x 5 ltac:(lia)). pose proof (Z.div_mod y 5 ltac:(lia)). pose proof (Z.mod_pos_bound y 5 ltac:(lia)). lia.
Qed.

(** paper with no ink in its window becomes black *)
Theorem C86_blank x y : 0 <= x < gw g -> 0 <= y < gh g ->
  (forall u w, Window.inside (window_at g x y) u w -> get_pixel g u w = Ok b) -> get_pixel g x y = Ok b -> get_pixel g' x y = Ok 0%N.
Proof.
  intros Hx Hy HB P. destruct (C57_two_tones g g' a b x y HW E AB HT Hx Hy) as (NA & NB & N1 & _ & L). rewrite (L P).
  assert (Z0 : count_of g (window_at g x y) a = 0).
  { unfold count_of. rewrite (rect_sum_ext _ _ (fun _ _ => 0)).
    - rewrite rect_sum_zsum. rewrite (zsum_ext _ (fun _ => 0)); [now rewrite zsum_0|]. intros u _. apply zsum_0.
    - intros u w I. pose proof (window_inside g g' x y HW E Hx Hy) as S. cbv zeta in S. pose proof I as (I1 & I2).
      specialize (HB u w I). rewrite get_pixel_pix in HB by (auto; lia). injection HB as ->. destruct (N.eqb_spec b a); [lia|reflexivity]. }
  rewrite Z0 in *. set (nb := count_of g (window_at g x y) b) in *. clearbody nb.
  destruct (Z.ltb_spec (250 * (0 + nb)) (Z.of_N a * 0 + Z.of_N b * nb)); [nia|]. reflexivity.
Qed.
End Tones.

(** next to every light module of a finder pattern or of the ring around it there is a dark one *)
Lemma dark_beside r c : -1 <= r < 8 -> -1 <= c < 8 -> (0 <=? r) && (r <? 7) && (0 <=? c) && (c <? 7) && finder_dark r c = false ->
  exists r' c', 0 <= r' < 7 /\ 0 <= c' < 7 /\ finder_dark r' c' = true /\ -1 <= r' - r <= 1 /\ -1 <= c' - c <= 1.
Proof.
  intros Hr Hc H.
  exists (if r <=? 1 then 0 else if 5 <=? r then 6 else r), (if c <=? 1 then 0 else if 5 <=? c then 6 else c).
  assert (R : r = -1 \/ r = 0 \/ r = 1 \/ r = 2 \/ r = 3 \/ r = 4 \/ r = 5 \/ r = 6 \/ r = 7) by lia.
  assert (C : c = -1 \/ c = 0 \/ c = 1 \/ c = 2 \/ c = 3 \/ c = 4 \/ c = 5 \/ c = 6 \/ c = 7) by lia.
  destruct R as [->|[->|[->|[->|[->|[->|[->|[->| ->]]]]]]]]; destruct C as [->|[->|[->|[->|[->|[->|[->|[->| ->]]]]]]]]; try discriminate H;
    (split; [cbv [Z.leb Z.compare Pos.compare Pos.compare_cont CompOpp]; lia|]); (split; [cbv [Z.leb Z.compare Pos.compare Pos.compare_cont CompOpp]; lia|]); (split; [reflexivity|cbv [Z.leb Z.compare Pos.compare Pos.compare_cont CompOpp]; lia]).
Qed.

(** *** symbols *)
Section Printed.
Context (g g' : gray) (a b : N) (HW : wf_gray g) (E : prepare default_prepare g = Ok g') (AB : (a < b)%N) (B : (b <= 250)%N).
Context (HT : forall x y, 0 <= x < gw g -> 0 <= y < gh g -> get_pixel g x y = Ok a \/ get_pixel g x y = Ok b).
Context (k : nat) (m ox oy v : Z) (d : matrix) (Hk : (k < 4)%nat) (Hv : 1 <= v <= 40) (Hm : 2 <= m <= 10).
Let n := side_of v.
Let dark := turned k n (fun r c => d c r).
Context (HI : inked (pixel g) a b m ox oy n dark) (MX : m <= ox) (MY : m <= oy) (RX : ox + (n + 1) * m + 4 <= gw g) (RY : oy + (n + 1) * m + 4 <= gh g).
Context (HL : (5 <= a)%N \/ 4500 <= Z.of_N b * (m * m)) (HF : finder_corners n (fun r c => d c r)).

Lemma prepared_size : wf_gray g' /\ gw g' = gw g /\ gh g' = gh g.
Proof. destruct (C41_black_white default_prepare g g' HW E) as (W & X & Y & _). auto. Qed.

Definition printed_dark r c : bool := (0 <=? r) && (r <? n) && (0 <=? c) && (c <? n) && dark r c.
Lemma printed_place c i : -1 <= c <= n -> 0 <= i < m -> 0 <= c * m + m /\ c * m + m <= (n + 1) * m.
Proof. intros. nia. Qed.
Lemma printed_at r c i j : -1 <= r <= n -> -1 <= c <= n -> 0 <= i < m -> 0 <= j < m -> get_pixel g (ox + c * m + i) (oy + r * m + j) = Ok (if printed_dark r c then a else b).
Proof. intros Hr Hc Hi Hj. apply pixel_get. now apply HI. Qed.

Lemma printed_ink r c i j : -1 <= r <= n -> -1 <= c <= n -> 0 <= i < m -> 0 <= j < m -> printed_dark r c = true -> pixel g' (ox + c * m + i) (oy + r * m + j) = Some 0%N.
Proof.
  intros Hr Hc Hi Hj D. pose proof (printed_place c i Hc Hi). pose proof (printed_place r j Hr Hj). unfold pixel.
  rewrite (C86_ink g g' a b HW E AB B HT); auto; try lia. now rewrite printed_at, D.
Qed.

Lemma printed_paper r c r' c' i j : -1 <= r <= n -> -1 <= c <= n -> 0 <= i < m -> 0 <= j < m -> printed_dark r c = false ->
  -1 <= r' <= n -> -1 <= c' <= n -> printed_dark r' c' = true -> -15 <= (r' - r) * m <= 10 -> -15 <= (c' - c) * m <= 10 ->
  pixel g' (ox + c * m + i) (oy + r * m + j) = Some 255%N.
Proof.
  intros Hr Hc Hi Hj D Hr' Hc' D' NR NC. pose proof (printed_place c i Hc Hi). pose proof (printed_place r j Hr Hj). pose proof (printed_place c' i Hc' Hi). pose proof (printed_place r' j Hr' Hj).
  pose proof (Z.mod_pos_bound (gw g) 5 ltac:(lia)). pose proof (Z.mod_pos_bound (gh g) 5 ltac:(lia)). unfold pixel.
  rewrite (C86_close g g' a b HW E AB B HT (ox + c * m + i) (oy + r * m + j) (ox + c' * m + i) (oy + r' * m + j)); auto; try lia.
  - now rewrite printed_at, D.
  - now rewrite printed_at, D'.
  - destruct HL as [L|L]; [now left|right]. exists (ox + c * m), (oy + r * m), m. repeat split; try lia.
    intros i' j' Hi' Hj'. now rewrite printed_at, D.
Qed.

(** the prepared picture shows the symbol in black and white *)
Theorem C86_drawn : ink_near m n dark -> drawn (pixel g') m ox oy n dark.
Proof.
  intros HN. assert (N : 21 <= n) by (unfold n, side_of; lia). split; [lia|]. split; [lia|]. split; [lia|]. intros r c i j Hr Hc Hi Hj.
  assert (PD : forall r c, 0 <= r < n -> 0 <= c < n -> printed_dark r c = dark r c).
  { intros r1 c1 H1 H2. unfold printed_dark. destruct (Z.leb_spec 0 r1); [|lia]. destruct (Z.ltb_spec r1 n); [|lia]. destruct (Z.leb_spec 0 c1); [|lia]. destruct (Z.ltb_spec c1 n); [|lia]. reflexivity. }
  destruct (dark r c) eqn:D.
  - apply printed_ink; try lia. now rewrite PD.
  - destruct (HN r c Hr Hc D) as (r' & c' & Hr' & Hc' & D' & NR & NC). apply (printed_paper r c r' c'); try lia; now rewrite PD.
Qed.

Theorem C86_apart fx fy : In (fx, fy) (turned_corners k m ox oy v) -> finder_apart (pixel g') m fx fy.
Proof.
  intros HC. destruct (inked_block _ a b k m ox oy v d Hk Hv HI HF fx fy HC) as ((X1 & X2) & (Y1 & Y2) & Q). fold n in X2, Y2. apply ringed_apart; [lia..|].
  intros r c i j Hr Hc Hi Hj.
  assert (PL : forall c i, -1 <= c < 8 -> 0 <= i < m -> - m <= c * m + i < 8 * m /\ - m <= c * m /\ c * m + m <= 8 * m) by (intros; nia).
  pose proof (PL c i Hc Hi). pose proof (PL r j Hr Hj).
  pose proof (Z.mod_pos_bound (gw g) 5 ltac:(lia)). pose proof (Z.mod_pos_bound (gh g) 5 ltac:(lia)).
  destruct ((0 <=? r) && (r <? 7) && (0 <=? c) && (c <? 7) && finder_dark r c) eqn:D.
  - unfold pixel. rewrite (C86_ink g g' a b HW E AB B HT); auto; try lia. apply pixel_get. rewrite Q by lia. now rewrite D.
  - destruct (dark_beside r c Hr Hc D) as (r' & c' & Hr' & Hc' & D' & NR & NC). unfold pixel.
    pose proof (PL c' i ltac:(lia) Hi). pose proof (PL r' j ltac:(lia) Hj).
    assert (-15 <= (r' - r) * m <= 10 /\ -15 <= (c' - c) * m <= 10) by (clear - Hm NR NC; nia).
    assert (c' * m + m <= 7 * m /\ r' * m + m <= 7 * m) by (clear - Hm Hr' Hc'; nia). assert (8 * m = 7 * m + m) by lia. assert ((n + 1) * m = n * m + m) by ring.
    rewrite (C86_close g g' a b HW E AB B HT (fx + c * m + i) (fy + r * m + j) (fx + c' * m + i) (fy + r' * m + j)); auto; try lia.
    + apply pixel_get. rewrite Q by lia. now rewrite D.
    + apply pixel_get. rewrite Q by lia. rewrite D'. destruct (Z.leb_spec 0 r'); [|lia]. destruct (Z.ltb_spec r' 7); [|lia]. destruct (Z.leb_spec 0 c'); [|lia]. destruct (Z.ltb_spec c' 7); [|lia]. reflexivity.
    + destruct HL as [L|L]; [now left|right]. exists (fx + c * m), (fy + r * m), m. repeat split; try lia.
      intros i' j' Hi' Hj'. apply pixel_get. rewrite Q by lia. now rewrite D.
Qed.

Theorem C86_near : ink_near m n dark -> gw g <= 2 ^ 26 -> gh g <= 2 ^ 26 ->
  (forall fx fy, In (fx, fy) (turned_corners k m ox oy v) -> steady (fun x => pix g' x (fy + 2 * m)) (fx + m)) -> symbol_near g' k m ox oy v d.
Proof.
  intros HN BX BY HS. destruct prepared_size as (W' & EX & EY). split; [now apply C86_drawn|]. rewrite EX, EY. split; [exact BX|]. split; [exact BY|].
  intros fx fy HC. split; [now apply C86_apart|now apply HS].
Qed.
End Printed.

(** a picture in two tones with a symbol printed with ink of the tone [a] on paper of the tone [b], modules of two to ten pixels *)
Definition gray_print (g : gray) (a b : N) (k : nat) (m ox oy v : Z) (d : matrix) : Prop :=
  let n := side_of v in let dark := turned k n (fun r c => d c r) in
  (a < b)%N /\ (b <= 250)%N /\ (forall x y, 0 <= x < gw g -> 0 <= y < gh g -> get_pixel g x y = Ok a \/ get_pixel g x y = Ok b) /\
  2 <= m <= 10 /\ inked (pixel g) a b m ox oy n dark /\ m <= ox /\ m <= oy /\ ox + (n + 1) * m + 4 <= gw g /\ oy + (n + 1) * m + 4 <= gh g /\ gw g <= 2 ^ 26 /\ gh g <= 2 ^ 26 /\
  ((5 <= a)%N \/ 4500 <= Z.of_N b * (m * m)) /\ finder_corners n (fun r c => d c r) /\ ink_near m n dark.

Theorem C86_shown g g' a b k m ox oy v d : wf_gray g -> prepare default_prepare g = Ok g' -> (k < 4)%nat -> 1 <= v <= 40 -> gray_print g a b k m ox oy v d ->
  drawn (pixel g') m ox oy (side_of v) (turned k (side_of v) (fun r c => d c r)) /\ forall fx fy, In (fx, fy) (turned_corners k m ox oy v) -> finder_apart (pixel g') m fx fy.
Proof.
  intros HW E Hk Hv (AB & B & HT & Hm & HI & MX & MY & RX & RY & BX & BY & HL & HF & HN). split.
  - now apply (C86_drawn g g' a b HW E AB B HT k m ox oy v d Hk Hv Hm HI MX MY RX RY HL).
  - intros fx fy. now apply (C86_apart g g' a b HW E AB B HT k m ox oy v d Hk Hv Hm HI MX MY RX RY HL HF).
Qed.

Theorem C86_text {D : Type} (to_gray : D -> gray) (img : D) dec g' a b k m ox oy v d t cs : default_decoder to_gray = Ok dec ->
  wf_gray (to_gray img) -> prepare default_prepare (to_gray img) = Ok g' -> (k < 4)%nat -> 1 <= v <= 40 -> gray_print (to_gray img) a b k m ox oy v d ->
  (forall fx fy, In (fx, fy) (turned_corners k m ox oy v) -> steady (fun x => pix g' x (fy + 2 * m)) (fx + m)) ->
  (v = 1 \/ bottom_right_alignment (side_of v) (fun r c => d c r)) -> holds_text v d t ->
  find_candidates g' = Ok cs -> none_in_the_way m (turned_corners k m ox oy v) cs ->
  (forall rs, decode dec img = Ok rs -> In (inl t) rs) /\ (length cs = 3%nat -> decode dec img = Ok [inl t]).
Proof.
  intros HD HW E Hk Hv HG HS HA HX EC ND. assert (HU : usual dec) by (injection HD as <-; repeat split).
  assert (HP : d_prepare dec img = Ok g') by (injection HD as <-; exact E). clear HD.
  destruct HG as (AB & B & HT & Hm & HI & MX & MY & RX & RY & BX & BY & HL & HF & HN).
  pose proof (C86_near _ g' a b HW E AB B HT k m ox oy v d Hk Hv Hm HI MX MY RX RY HL HF HN BX BY HS) as NR.
  assert (W' : wf_gray g') by (destruct (C41_black_white default_prepare _ g' HW E) as (W & _); exact W).
  assert (R : readable_near g' k m ox oy v d t) by (split; [exact Hk|]; split; [exact Hv|]; split; [lia|]; auto).
  split.
  - intros rs ER. exact (C85_among dec img g' HU W' HP k m ox oy v d t R cs rs EC ND ER).
  - intros H3. exact (C85_one dec img g' HU W' HP k m ox oy v d t R cs EC ND H3).
Qed.

(** *** upright symbols with no ink to the left of them *)
Section Left.
Context (g g' : gray) (a b : N) (HW : wf_gray g) (E : prepare default_prepare g = Ok g') (m ox oy v : Z) (d : matrix) (Hv : 1 <= v <= 40) (HG : gray_print g a b 0 m ox oy v d).
Context (HX : forall x y, 0 <= x < ox -> 0 <= y < gh g -> get_pixel g x y = Ok b).
Let n := side_of v.

Lemma left_row R F : 0 <= R < n -> 1 <= F <= n -> d 0 R = true -> (forall c, 0 <= c -> c + 11 <= F -> exists k, 0 < k <= 10 /\ d (c + k) R <> d c R) ->
  steady (fun x => pix g' x (oy + R * m)) (ox + F * m).
Proof.
  intros HR HF D0 HV. pose proof (C86_shown g g' a b 0 m ox oy v d HW E ltac:(lia) Hv HG) as ((_ & _ & _ & DR) & _). fold n in DR.
  destruct HG as (AB & B & HT & Hm & HI & MX & MY & RX & RY & BX & BY & HL & _ & _). fold n in HI, RX, RY. assert (N : 21 <= n) by (unfold n, side_of; lia).
  destruct (C41_black_white default_prepare g g' HW E) as (W' & EX & EY & _).
  pose proof (Z.mod_pos_bound (gw g) 5 ltac:(lia)) as MW. pose proof (Z.mod_pos_bound (gh g) 5 ltac:(lia)) as MH.
  assert (RM : 0 <= R * m /\ R * m + m <= n * m) by (clear - HR Hm; nia). assert (NM : (n + 1) * m = n * m + m) by ring. assert (0 <= n * m) by (clear - N Hm; nia).
  assert (GP : forall x c, 0 <= x < gw g -> get_pixel g' x (oy + R * m) = Ok c -> pix g' x (oy + R * m) = c).
  { intros x c Hx P. rewrite get_pixel_pix in P by (auto; lia). now injection P. }
  set (t := Z.max 0 (5 * (ox / 5 - 2))). pose proof (Z.div_mod ox 5 ltac:(lia)) as DO. pose proof (Z.mod_pos_bound ox 5 ltac:(lia)) as MO.
  apply (steady_raster _ m t ox F 0%N (fun c => d c R)); try lia; try assumption.
  - intros x Hx. apply GP; [lia|]. apply (C86_blank g g' a b HW E AB B HT); try lia; [|apply HX; lia]. intros u w (U & W).
    pose proof (window_inside g g' x (oy + R * m) HW E ltac:(lia) ltac:(lia)) as S. cbv zeta in S.
    assert (rx1 (window_at g x (oy + R * m)) <= ox).
    { unfold window_at, used_window. cbn [rx1]. change ((7 - 1) / 2) with 3. pose proof (Z.div_mod x 5 ltac:(lia)). pose proof (Z.mod_pos_bound x 5 ltac:(lia)). lia. }
    apply HX; lia.
  - intros x Hx. apply GP; [lia|]. destruct HI as (_ & HI).
    assert (PO : get_pixel g ox (oy + R * m) = Ok a).
    { specialize (HI R 0 0 0 ltac:(lia) ltac:(lia) ltac:(lia) ltac:(lia)). rewrite Z.mul_0_l, !Z.add_0_r in HI. apply pixel_get in HI. rewrite HI.
      destruct (Z.leb_spec 0 R); [|lia]. destruct (Z.ltb_spec R n); [|lia]. destruct (Z.ltb_spec 0 n); [|lia]. cbn [andb Z.leb Z.compare turned Nat.iter nat_rect]. now rewrite D0. }
    apply (C86_paper g g' a b HW E AB B HT x (oy + R * m) ox (oy + R * m)); try lia; auto.
    + apply HX; lia.
    + unfold Window.inside, window_at, used_window. cbn [rx0 rx1 ry0 ry1]. change ((7 - 1) / 2) with 3.
      pose proof (Z.div_mod x 5 ltac:(lia)). pose proof (Z.mod_pos_bound x 5 ltac:(lia)). pose proof (Z.div_mod (oy + R * m) 5 ltac:(lia)). pose proof (Z.mod_pos_bound (oy + R * m) 5 ltac:(lia)). lia.
    + destruct HL as [L|L]; [now left|right]. exists (Z.min x (ox - m)), (oy + R * m), m. repeat split; try lia. intros i j Hi Hj. apply HX; lia.
  - intros c i Hc Hi. assert (0 <= c * m /\ c * m + m <= n * m) by (clear - Hc Hi HF; nia). apply GP; [lia|]. specialize (DR R c i 0 ltac:(lia) ltac:(lia) Hi ltac:(lia)).
    rewrite Z.add_0_r in DR. apply pixel_get in DR. exact DR.
Qed.

Theorem C86_left : third_row_varied n (fun r c => d c r) -> forall fx fy, In (fx, fy) (turned_corners 0 m ox oy v) -> steady (fun x => pix g' x (fy + 2 * m)) (fx + m).
Proof.
  intros TV fx fy HC. assert (N : 21 <= n) by (unfold n, side_of; lia). pose proof HG as (_ & _ & _ & _ & _ & _ & _ & _ & _ & _ & _ & _ & HF & _). fold n in HF.
  change (turned_corners 0 m ox oy v) with [(ox + (3 - 3) * m, oy + (3 - 3) * m); (ox + (n - 4 - 3) * m, oy + (3 - 3) * m); (ox + (3 - 3) * m, oy + (n - 4 - 3) * m)] in HC.
  cbn [In] in HC. destruct HC as [H|[H|[H|[]]]]; injection H as <- <-.
  - replace (oy + (3 - 3) * m + 2 * m) with (oy + 2 * m) by ring. replace (ox + (3 - 3) * m + m) with (ox + 1 * m) by ring. apply left_row; try lia.
    destruct (HF 2 0 ltac:(lia) ltac:(lia)) as (K & _). exact K.
  - replace (oy + (3 - 3) * m + 2 * m) with (oy + 2 * m) by ring. replace (ox + (n - 4 - 3) * m + m) with (ox + (n - 6) * m) by ring. apply left_row; try lia.
    + destruct (HF 2 0 ltac:(lia) ltac:(lia)) as (K & _). exact K.
    + intros c C0 C1. destruct (Z_le_gt_dec (c + 11) (n - 7)) as [L|L]; [now apply TV|]. assert (c = n - 17) as -> by lia.
      destruct (HF 2 6 ltac:(lia) ltac:(lia)) as (_ & K6 & _). destruct (HF 2 7 ltac:(lia) ltac:(lia)) as (_ & K7 & _).
      replace (n - 1 - 6) with (n - 7) in K6 by lia. replace (n - 1 - 7) with (n - 8) in K7 by lia. cbn in K6, K7.
      destruct (d (n - 17) 2) eqn:D.
      * exists 9. split; [lia|]. replace (n - 17 + 9) with (n - 8) by lia. now rewrite K7.
      * exists 10. split; [lia|]. replace (n - 17 + 10) with (n - 7) by lia. now rewrite K6.
  - replace (oy + (n - 4 - 3) * m + 2 * m) with (oy + (n - 5) * m) by ring. replace (ox + (3 - 3) * m + m) with (ox + 1 * m) by ring. apply left_row; try lia.
    destruct (HF 4 0 ltac:(lia) ltac:(lia)) as (_ & _ & K). replace (n - 1 - 4) with (n - 5) in K by lia. exact K.
Qed.
End Left.

Theorem C86_lone {D : Type} (to_gray : D -> gray) (img : D) dec g' a b m ox oy v d t cs : default_decoder to_gray = Ok dec ->
  wf_gray (to_gray img) -> prepare default_prepare (to_gray img) = Ok g' -> 1 <= v <= 40 -> gray_print (to_gray img) a b 0 m ox oy v d ->
  (forall x y, 0 <= x < ox -> 0 <= y < gh (to_gray img) -> get_pixel (to_gray img) x y = Ok b) -> third_row_varied (side_of v) (fun r c => d c r) ->
  (v = 1 \/ bottom_right_alignment (side_of v) (fun r c => d c r)) -> holds_text v d t ->
  find_candidates g' = Ok cs -> none_in_the_way m (turned_corners 0 m ox oy v) cs ->
  (forall rs, decode dec img = Ok rs -> In (inl t) rs) /\ (length cs = 3%nat -> decode dec img = Ok [inl t]).
Proof.
  intros HD HW E Hv HG HX TV HA HT EC ND. apply (C86_text to_gray img dec g' a b 0 m ox oy v d t cs); auto; try lia.
  now apply (C86_left (to_gray img) g' a b HW E m ox oy v d Hv HG HX).
Qed.

(** *** large modules: with 34 pixels or more, the middle of every light module is taken for ink *)
Theorem C86_large g g' a b m ox oy n dark r c : wf_gray g -> prepare default_prepare g = Ok g' -> (a < b)%N -> (b <= 250)%N ->
  (forall x y, 0 <= x < gw g -> 0 <= y < gh g -> get_pixel g x y = Ok a \/ get_pixel g x y = Ok b) -> inked (pixel g) a b m ox oy n dark -> 34 <= m -> 0 <= ox -> 0 <= oy ->
  0 <= r < n -> 0 <= c < n -> dark r c = false -> exists i j, 15 <= i < 20 /\ 15 <= j < 20 /\
    get_pixel g (ox + c * m + i) (oy + r * m + j) = Ok b /\ get_pixel g' (ox + c * m + i) (oy + r * m + j) = Ok 0%N.
Proof.
  intros HW E AB B HT (_ & P) Hm OX OY Hr Hc D.
  assert (Q : forall i j, 0 <= i < m -> 0 <= j < m -> get_pixel g (ox + c * m + i) (oy + r * m + j) = Ok b).
  { intros i j Hi Hj. apply pixel_get. rewrite P by lia. rewrite D. now rewrite andb_false_r. }
  assert (AL : forall s, exists i, 15 <= i < 20 /\ 5 * ((s + i) / 5) = s + i).
  { intros s. exists (15 + (- (s + 15)) mod 5). pose proof (Z.mod_pos_bound (- (s + 15)) 5 ltac:(lia)). split; [lia|].
    pose proof (Z.div_mod (- (s + 15)) 5 ltac:(lia)) as DM. set (q := - (s + 15) / 5) in *. set (e := (- (s + 15)) mod 5) in *.
    assert (X : s + (15 + e) = (- q) * 5) by lia. rewrite X, Z.div_mul by lia. lia. }
  destruct (AL (ox + c * m)) as (i & Hi & Ei). destruct (AL (oy + r * m)) as (j & Hj & Ej). exists i, j. split; [exact Hi|]. split; [exact Hj|]. split; [apply Q; lia|].
  assert (0 <= c * m /\ 0 <= r * m) by (clear - Hr Hc Hm; nia).
  pose proof (P r c (m - 1) (m - 1) ltac:(lia) ltac:(lia) ltac:(lia) ltac:(lia)) as PI. apply pixel_inside in PI.
  apply (C86_blank g g' a b HW E AB B HT); try lia; [|apply Q; lia]. intros u w (U & W). revert U W. unfold window_at, used_window. cbn [rx0 rx1 ry0 ry1]. change ((7 - 1) / 2) with 3.
  set (X := (ox + c * m + i) / 5) in *. set (Y := (oy + r * m + j) / 5) in *. intros U W.
  specialize (Q (u - (ox + c * m)) (w - (oy + r * m)) ltac:(lia) ltac:(lia)). replace (ox + c * m + (u - (ox + c * m))) with u in Q by lia. replace (oy + r * m + (w - (oy + r * m))) with w in Q by lia. exact Q.
Qed.

(** *** examples *)
Definition tinted (a b : N) (w h m ox oy v : Z) (d : matrix) : gray := image_of w h (fun x y =>
  let c := (x - ox) / m in let r := (y - oy) / m in if (0 <=? r) && (r <? side_of v) && (0 <=? c) && (c <? side_of v) && d c r then a else b).

Lemma tinted_wf a b w h m ox oy v d : (a < 256)%N -> (b < 256)%N -> 0 <= w <= u32_max -> 0 <= h <= u32_max -> wf_gray (tinted a b w h m ox oy v d).
Proof. intros HA HB Hw Hh. apply image_of_wf; auto. intros x y. cbv zeta. now destruct (_ && d _ _). Qed.
Lemma tinted_tones a b w h m ox oy v d x y : 0 <= x < gw (tinted a b w h m ox oy v d) -> 0 <= y < gh (tinted a b w h m ox oy v d) ->
  get_pixel (tinted a b w h m ox oy v d) x y = Ok a \/ get_pixel (tinted a b w h m ox oy v d) x y = Ok b.
Proof. intros Hx Hy. unfold tinted in *. rewrite image_of_pixel by exact Hx || exact Hy. cbv zeta. destruct (_ && d _ _); auto. Qed.
Lemma tinted_inked a b w h m ox oy v d : 1 <= m -> m <= ox -> m <= oy -> ox + (side_of v + 1) * m <= w -> oy + (side_of v + 1) * m <= h ->
  inked (pixel (tinted a b w h m ox oy v d)) a b m ox oy (side_of v) (fun r c => d c r).
Proof.
  intros Hm MX MY WX WY. split; [exact Hm|]. intros r c i j Hr Hc Hi Hj. unfold pixel, tinted. rewrite image_of_pixel by nia. cbv zeta.
  replace ((ox + c * m + i - ox) / m) with c by (apply Z.div_unique with i; lia). replace ((oy + r * m + j - oy) / m) with r by (apply Z.div_unique with j; lia). reflexivity.
Qed.
Lemma tinted_left a b w h m ox oy v d x y : 1 <= m -> 0 <= x < ox -> ox <= w -> 0 <= y < h -> get_pixel (tinted a b w h m ox oy v d) x y = Ok b.
Proof.
  intros Hm Hx Hw Hy. unfold tinted. rewrite image_of_pixel by lia. cbv zeta. assert ((x - ox) / m < 0) by (apply Z.div_lt_upper_bound; lia).
  destruct (Z.leb_spec 0 ((x - ox) / m)); [lia|]. now rewrite andb_false_r.
Qed.

Definition check_near (m n : Z) (dark : Z -> Z -> bool) : bool :=
  forallb (fun r => forallb (fun c => dark r c || existsb (fun r' => existsb (fun c' => dark r' c' && (-15 <=? (r' - r) * m) && ((r' - r) * m <=? 10) && (-15 <=? (c' - c) * m) && ((c' - c) * m <=? 10)) (upto n)) (upto n)) (upto n)) (upto n).
Lemma check_near_ok m n dark : check_near m n dark = true -> ink_near m n dark.
Proof.
  intros H r c Hr Hc D. unfold check_near in H. rewrite forallb_forall in H. specialize (H r (in_upto n r Hr)). rewrite forallb_forall in H. specialize (H c (in_upto n c Hc)).
  rewrite D in H. cbn [orb] in H. apply existsb_exists in H as (r' & Ir & H). apply existsb_exists in H as (c' & Ic & H). rewrite !andb_true_iff in H. destruct H as ((((K & L1) & L2) & L3) & L4).
  apply Z.leb_le in L1, L2, L3, L4. exists r', c'. unfold upto in Ir, Ic. apply in_map_iff in Ir as (i & <- & Ii). apply in_map_iff in Ic as (j & <- & Ij). apply in_seq in Ii, Ij. repeat split; try lia. exact K.
Qed.

(** HELLO with modules of two pixels, printed in a dark gray on a light gray *)
Definition gray_paper : gray := tinted 60 200 54 54 2 6 6 1 modules_1.
Definition result_or (r : res gray) (g : gray) : gray := match r with Ok g' => g' | _ => g end.
Definition gray_prepared : gray := result_or (prepare default_prepare gray_paper) gray_paper.
Definition gray_candidates : list finder_pos := [candidate_at 2 26 12; candidate_at 2 82 12; candidate_at 2 26 40].
Lemma gray_wf : wf_gray gray_paper.
Proof. apply tinted_wf; try reflexivity; unfold u32_max; lia. Qed.
Lemma gray_prepares : prepare default_prepare gray_paper = Ok gray_prepared.
Proof. destruct (C42_default_partial gray_paper gray_wf) as (g' & E); try (cbn; lia). unfold gray_prepared. rewrite E. reflexivity. Qed.
Lemma gray_found : find_candidates gray_prepared = Ok gray_candidates.
Proof. vm_compute. reflexivity. Qed.
Lemma gray_printed : gray_print gray_paper 60 200 0 2 6 6 1 modules_1.
Proof.
  assert (S : side_of 1 = 21) by reflexivity. split; [reflexivity|]. split; [discriminate|]. split; [exact (tinted_tones 60 200 54 54 2 6 6 1 modules_1)|]. split; [lia|].
  split; [apply (tinted_inked 60 200 54 54 2 6 6 1 modules_1); lia|]. split; [lia|]. split; [lia|]. split; [cbn; lia|]. split; [cbn; lia|]. split; [cbn; lia|]. split; [cbn; lia|].
  split; [left; discriminate|]. split; [apply check_corners_ok; vm_compute; reflexivity|]. apply check_near_ok. vm_compute. reflexivity.
Qed.

Example C86_example : exists dec, default_decoder (fun g => g) = Ok dec /\ decode dec gray_paper = Ok [inl [72; 69; 76; 76; 79]%N].
Proof.
  eexists. split; [reflexivity|].
  refine (proj2 (C86_lone (fun g => g) gray_paper _ gray_prepared 60 200 2 6 6 1 modules_1 _ gray_candidates eq_refl gray_wf gray_prepares _ gray_printed _ _ _ hello_text gray_found _) eq_refl).
  - lia.
  - intros x y Hx Hy. apply tinted_left; (lia || exact Hy).
  - intros c C0 C1. change (side_of 1) with 21 in C1. assert (C : c = 0 \/ c = 1 \/ c = 2 \/ c = 3) by lia. destruct C as [->|[->|[->| ->]]].
    + exists 1. split; [lia|vm_compute; discriminate].
    + exists 1. split; [lia|vm_compute; discriminate].
    + exists 3. split; [lia|vm_compute; discriminate].
    + exists 2. split; [lia|vm_compute; discriminate].
  - now left.
  - change (turned_corners 0 2 6 6 1) with [(6, 6); (34, 6); (6, 34)]. apply C63_not_in_the_way; [lia| |].
    + intros fx fy fx' fy' H H'. cbn [In] in H, H'. destruct H as [E|[E|[E|[]]]]; injection E as <- <-; destruct H' as [E|[E|[E|[]]]]; injection E as <- <-; (now left) || (right; lia).
    + unfold gray_candidates. constructor; [|constructor; [|constructor; [|constructor]]].
      * exists 6, 6. split; [cbn; auto|]. apply candidate_centre; (reflexivity || lia).
      * exists 34, 6. split; [cbn; auto|]. apply candidate_centre; (reflexivity || lia).
      * exists 6, 34. split; [cbn; auto|]. apply candidate_centre; (reflexivity || lia).
Qed.

(** the same symbol with modules of 34 pixels: the separator of the upper left finder pattern gets black spots *)
Example C86_large_example : exists g g', wf_gray g /\ prepare default_prepare g = Ok g' /\ inked (pixel g) 60 200 34 136 136 21 (fun r c => modules_1 c r) /\
  ~ drawn (pixel g') 34 136 136 21 (fun r c => modules_1 c r).
Proof.
  assert (S : side_of 1 = 21) by reflexivity. set (g := tinted 60 200 986 986 34 136 136 1 modules_1). exists g.
  assert (HW : wf_gray g) by (apply tinted_wf; try reflexivity; unfold u32_max; lia).
  assert (W : gw g = 986 /\ gh g = 986) by (split; reflexivity). destruct W as [W1 W2].
  destruct (C42_default_partial g HW) as (g' & E); rewrite ?W1, ?W2; try lia. exists g'. split; [exact HW|]. split; [exact E|].
  assert (HI : inked (pixel g) 60 200 34 136 136 21 (fun r c => modules_1 c r)) by (apply (tinted_inked 60 200 986 986 34 136 136 1 modules_1); lia).
  split; [exact HI|]. intros (_ & _ & _ & DR).
  destruct (C86_large g g' 60 200 34 136 136 21 _ 7 3 HW E ltac:(reflexivity) ltac:(discriminate) (tinted_tones 60 200 986 986 34 136 136 1 modules_1) HI ltac:(lia) ltac:(lia) ltac:(lia) ltac:(lia) ltac:(lia) eq_refl)
    as (i & j & Hi & Hj & _ & P).
  specialize (DR 7 3 i j ltac:(lia) ltac:(lia) ltac:(lia) ltac:(lia)). apply pixel_get in DR. rewrite P in DR. discriminate.
Qed.
