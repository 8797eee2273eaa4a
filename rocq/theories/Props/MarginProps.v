(** Symbols with a margin of one module are read, whatever surrounds them: C85. *)
From Coq Require Import NArith ZArith Reals List Lia Lra Bool Arith Psatz.
From Verif.Model Require Import Prepare Detect Extract Pipeline.
From Flocq Require Import Core.
From Verif.Spec Require Import Bits Segments Symbol Layout Bridge Message Encoder Plane Drawing Slant Margin.
From Verif.Proofs Require Import BaseP CountP DrawP FormatP EncodeP EncoderP PrepareP FloatP ApproxP DetectP GeometryP ExtractP AlignP RefineP RefineF ScanP LocateP CornersP WholeP MarginP.
From Verif.Props Require Import PrepareProps DetectProps DecoderProps PipelineProps ExtractProps CleanProps FinderProps WholeProps TurnProps.
Import ListNotations.
Local Open Scope Z_scope.

(** *** the finder patterns *)
Theorem C85_found g m fx fy cs : wf_gray g -> finder_apart (pixel g) m fx fy -> 2 <= m -> gw g <= 2 ^ 26 -> gh g <= 2 ^ 26 ->
  steady (fun x => pix g x (fy + 2 * m)) (fx + m) -> find_candidates g = Ok cs ->
  exists c, In c cs /\ (centre_found m fx fy c \/ in_the_way m fx fy c).
Proof.
  intros HW HD Hm WX WY HR E. destruct (apart_scanned g m fx fy HW HD Hm WX WY cs HR E) as (c & Hc & [A|A]); exists c; (split; [exact Hc|]).
  - left. now apply at_centre_found.
  - right. pose proof (apart_top g m fx fy HW HD Hm WX) as T. pose proof (apart_bounds g m fx fy HW HD Hm) as B.
    destruct (find_candidates_ok g HW) as (cs' & E' & HC). rewrite E in E'. injection E' as <-.
    unfold cands_ok in HC. rewrite Forall_forall in HC. destruct (HC c Hc) as (_ & x & y & X & Y & BX & BY).
    assert (W1 : (IZR (gw g - 1) <= 67108864)%R) by (apply IZR_le; lia). assert (W2 : (IZR (gh g - 1) <= 67108864)%R) by (apply IZR_le; lia).
    exists (Vec x y). split; [split; now apply fin_value|].
    set (v := Vec (IZR fx + 7 / 2 * IZR m) (IZR (fy + 2 * m))).
    assert (M : (2 <= IZR m <= 10000000)%R) by (split; apply IZR_le; lia).
    assert (X0 : (0 <= IZR fx <= 67108864)%R) by (split; apply IZR_le; lia). assert (Y0 : (0 <= IZR (fy + 2 * m) <= 67108864)%R) by (split; apply IZR_le; lia).
    destruct (dist_ok (scan_point m fx fy) (fp_location c) v (Vec x y)) as (l & F & L & L1 & _).
    { apply scan_point_at; lia. } { split; [exact X|exact Y]. }
    { unfold box, v; cbn [vx vy]; lra. } { unfold box; cbn [vx vy]; lra. }
    assert (G : fi (fmul (of_Z 7) (est_of (7 * m))) (7 * m)).
    { apply fi_mul; [apply fi_Z; unfold ib; lia|apply est_exact; lia|unfold ib; lia]. }
    rewrite (flt_R _ _ _ _ F G) in A. destruct (Rlt_bool_spec l (IZR (7 * m))) as [A'|A']; [|discriminate]. rewrite mult_IZR in A'.
    apply Rnot_le_lt. intros N. set (n := norm (minus v (Vec x y))) in *. specialize (L1 ltac:(lra)).
    unfold u53 in L1. rabs; lra.
Qed.

Corollary C85_alone g m fx fy cs : wf_gray g -> finder_apart (pixel g) m fx fy -> 2 <= m -> gw g <= 2 ^ 26 -> gh g <= 2 ^ 26 ->
  steady (fun x => pix g x (fy + 2 * m)) (fx + m) -> find_candidates g = Ok cs ->
  (forall c, In c cs -> in_the_way m fx fy c -> centre_found m fx fy c) -> exists c, In c cs /\ centre_found m fx fy c.
Proof.
  intros HW HD Hm WX WY HR E HN. destruct (C85_found g m fx fy cs HW HD Hm WX WY HR E) as (c & Hc & [A|A]); exists c; auto.
Qed.

(** *** whole symbols
    [d column row], turned [k] times and drawn at (ox, oy); white one module wide around its finder patterns, and, left of each of them, no
    run of the row through its third row of modules that is shorter than a tenth of the run before it *)
Definition symbol_near (g : gray) (k : nat) (m ox oy v : Z) (d : matrix) : Prop :=
  drawn (pixel g) m ox oy (side_of v) (turned k (side_of v) (fun r c => d c r)) /\ gw g <= 2 ^ 26 /\ gh g <= 2 ^ 26 /\
  forall fx fy, In (fx, fy) (turned_corners k m ox oy v) -> finder_apart (pixel g) m fx fy /\ steady (fun x => pix g x (fy + 2 * m)) (fx + m).

Section Near.
Context (g : gray) (k : nat) (m ox oy v : Z) (d : matrix) (HW : wf_gray g) (Hk : (k < 4)%nat) (Hv : 1 <= v <= 40) (Hm : 2 <= m) (HA : symbol_near g k m ox oy v d).
Let n := side_of v.

Lemma near_side : 21 <= n /\ n - 7 = 4 * v + 10.
Proof. unfold n, side_of. lia. Qed.
Lemma near_inside : 0 <= ox /\ 0 <= oy /\ ox + n * m <= gw g /\ oy + n * m <= gh g /\ gw g <= 2 ^ 26 /\ gh g <= 2 ^ 26.
Proof.
  destruct HA as ((X & Y & M & D) & B & B' & _). destruct near_side as [N _]. fold n in D.
  pose proof (D (n - 1) (n - 1) (m - 1) (m - 1) ltac:(lia) ltac:(lia) ltac:(lia) ltac:(lia)) as P. apply pixel_inside in P.
  replace (oy + (n - 1) * m + (m - 1)) with (oy + n * m - 1) in P by ring. replace (ox + (n - 1) * m + (m - 1)) with (ox + n * m - 1) in P by ring. lia.
Qed.

Lemma near_found cs r c : find_candidates g = Ok cs -> none_in_the_way m (turned_corners k m ox oy v) cs -> In (r, c) (finder_centres n) ->
  exists p, In p cs /\ at_centre m (corner_x k m ox n r c) (corner_y k m oy n r c) p.
Proof.
  intros E ND HI. destruct near_inside as (X & Y & XR & YB & BX & BY).
  assert (IC : In (corner_x k m ox n r c, corner_y k m oy n r c) (turned_corners k m ox oy v)).
  { unfold turned_corners. fold n. apply in_map_iff. exists (r, c). auto. }
  destruct HA as (_ & _ & _ & RF). destruct (RF _ _ IC) as [FA ST].
  destruct (C85_alone g m _ _ cs HW FA Hm BX BY ST E) as (p & Hp & F).
  - intros p Hp. now apply ND.
  - exists p. split; [exact Hp|]. now apply (centre_back g m HW cs).
Qed.

Lemma near_three cs : find_candidates g = Ok cs -> none_in_the_way m (turned_corners k m ox oy v) cs ->
  exists ux uy wx wy c1 c2 c3, heading ux uy wx wy /\ In c1 cs /\ In c2 cs /\ In c3 cs /\
    let L := (4 * v + 10) * m in let fx := corner_x k m ox n 3 3 in let fy := corner_y k m oy n 3 3 in
    L <= 2 ^ 26 /\ m <= 10000000 /\ 0 <= fx /\ 0 <= fy /\
    at_centre m fx fy c1 /\ at_centre m (fx + L * ux) (fy + L * uy) c2 /\ at_centre m (fx + L * wx) (fy + L * wy) c3 /\
    forall loc, made_from c1 c2 c3 v loc -> located_turned k m ox oy n loc /\ version loc = v.
Proof.
  intros E ND. destruct near_inside as (X & Y & XR & YB & BX & BY). destruct near_side as [N N7].
  destruct (near_found cs 3 3 E ND) as (c1 & I1 & A1); [left; reflexivity|]. destruct (near_found cs 3 (n - 4) E ND) as (c2 & I2 & A2); [right; left; reflexivity|].
  destruct (near_found cs (n - 4) 3 E ND) as (c3 & I3 & A3); [right; right; left; reflexivity|].
  destruct (frame k n Hk) as (kx & ux & wx & ky & uy & wy & HQ & EC & ER & _ & HP).
  exists ux, uy, wx, wy, c1, c2, c3. split; [exact HQ|]. split; [exact I1|]. split; [exact I2|]. split; [exact I3|]. cbv zeta.
  assert (LN : (4 * v + 10) * m + 7 * m = n * m) by (rewrite <- N7; ring).
  destruct (turned_ends k n 3 3 Hk ltac:(lia) ltac:(lia)) as [E1 E2].
  split; [lia|]. split; [nia|]. split; [unfold corner_x; nia|]. split; [unfold corner_y; nia|]. split; [exact A1|]. split; [|split].
  - replace (corner_x k m ox n 3 3 + (4 * v + 10) * m * ux) with (corner_x k m ox n 3 (n - 4)); [replace (corner_y k m oy n 3 3 + (4 * v + 10) * m * uy) with (corner_y k m oy n 3 (n - 4)); [exact A2|]|].
    + unfold corner_y. rewrite !ER. unfold mrow. rewrite <- N7. ring.
    + unfold corner_x. rewrite !EC. unfold mcol. rewrite <- N7. ring.
  - replace (corner_x k m ox n 3 3 + (4 * v + 10) * m * wx) with (corner_x k m ox n (n - 4) 3); [replace (corner_y k m oy n 3 3 + (4 * v + 10) * m * wy) with (corner_y k m oy n (n - 4) 3); [exact A3|]|].
    + unfold corner_y. rewrite !ER. unfold mrow. rewrite <- N7. ring.
    + unfold corner_x. rewrite !EC. unfold mcol. rewrite <- N7. ring.
  - intros loc M. now apply (turned_located k m ox oy v Hk Hm c1 c2 c3).
Qed.

Theorem C85_located cs locs : find_candidates g = Ok cs -> none_in_the_way m (turned_corners k m ox oy v) cs -> detect g = Ok locs ->
  exists loc, In loc locs /\ located_turned k m ox oy n loc /\ version loc = v.
Proof.
  intros E ND ED. destruct (near_three cs E ND) as (ux & uy & wx & wy & c1 & c2 & c3 & HQ & I1 & I2 & I3 & LB & MB & FX & FY & A1 & A2 & A3 & HL).
  unfold detect in ED. rewrite E in ED. cbn [bind] in ED.
  destruct (triple_in m _ _ v ltac:(lia) ltac:(lia) LB ux uy wx wy HQ c1 c2 c3 A1 A2 A3 cs locs I1 I2 I3 ED) as (loc & IL & M).
  exists loc. split; [exact IL|]. now apply HL.
Qed.

Theorem C85_only cs : find_candidates g = Ok cs -> none_in_the_way m (turned_corners k m ox oy v) cs -> length cs = 3%nat ->
  exists loc, detect g = Ok [loc] /\ located_turned k m ox oy n loc /\ version loc = v.
Proof.
  intros E ND H3. destruct (near_three cs E ND) as (ux & uy & wx & wy & c1 & c2 & c3 & HQ & I1 & I2 & I3 & LB & MB & FX & FY & A1 & A2 & A3 & HL).
  destruct (triple_only m _ _ v ltac:(lia) ltac:(lia) LB ux uy wx wy HQ c1 c2 c3 A1 A2 A3 cs I1 I2 I3 H3) as (loc & EL & M).
  exists loc. split; [unfold detect; now rewrite E|]. now apply HL.
Qed.
End Near.

(** *** the text *)
Definition readable_near (g : gray) (k : nat) (m ox oy v : Z) (d : matrix) (t : list N) : Prop :=
  (k < 4)%nat /\ 1 <= v <= 40 /\ 2 <= m /\ symbol_near g k m ox oy v d /\
  (v = 1 \/ bottom_right_alignment (side_of v) (fun r c => d c r)) /\ holds_text v d t.

Lemma near_text g k m ox oy v d t loc : wf_gray g -> readable_near g k m ox oy v d t ->
  located_turned k m ox oy (side_of v) loc -> version loc = v -> qr_decode (extract g loc) = Ok t.
Proof.
  intros HW (Hk & Hv & Hm & HA & HAl & l & mask & segs & texts & base & H1 & H2 & H3 & H4 & H5 & H6 & ->) HL HV.
  destruct (near_inside g k m ox oy v d Hk Hv Hm HA) as (X & Y & XR & YB & BX & BY).
  destruct (C62_sampled g k m ox oy v d loc HW Hk Hv) as (q & -> & S); auto; try lia.
  - exact (proj1 HA).
  - eapply C30_roundtrip; eauto.
Qed.

Section Text.
Context {D : Type} (dec : decoder D gray (list N)) (img : D) (g : gray) (HU : usual dec) (HW : wf_gray g) (HP : d_prepare dec img = Ok g).
Context (k : nat) (m ox oy v : Z) (d : matrix) (t : list N) (HR : readable_near g k m ox oy v d t).

Theorem C85_among cs rs : find_candidates g = Ok cs -> none_in_the_way m (turned_corners k m ox oy v) cs -> decode dec img = Ok rs -> In (inl t) rs.
Proof.
  intros E ND ER. apply C39_one_each in ER as (g' & locs & E1 & E2 & F). rewrite HP in E1. injection E1 as <-.
  destruct HU as (U1 & U2 & U3). rewrite U1 in E2. pose proof HR as (Hk & Hv & Hm & HA & _).
  destruct (C85_located g k m ox oy v d HW Hk Hv Hm HA cs locs E ND E2) as (loc & IL & L & V).
  destruct (Forall2_in_left _ _ _ _ F IL) as (r & Er & (_ & R)).
  rewrite U2, U3, (near_text g k m ox oy v d t loc HW HR L V) in R. destruct r as [t'|e]; [|discriminate]. injection R as <-.
  exact Er.
Qed.

Theorem C85_one cs : find_candidates g = Ok cs -> none_in_the_way m (turned_corners k m ox oy v) cs -> length cs = 3%nat -> decode dec img = Ok [inl t].
Proof.
  intros E ND H3. apply C39_one_each. destruct HU as (U1 & U2 & U3). pose proof HR as (Hk & Hv & Hm & HA & _).
  destruct (C85_only g k m ox oy v d HW Hk Hv Hm HA cs E ND H3) as (loc & EL & L & V). exists g, [loc]. split; [exact HP|]. split; [now rewrite U1|].
  constructor; [|constructor]. pose proof (near_text g k m ox oy v d t loc HW HR L V) as T. split; rewrite U2; [|rewrite U3; exact T].
  intros p EP. rewrite EP in T. discriminate.
Qed.
End Text.

(** *** several symbols, as close to each other as one module *)
Theorem C85_all {D : Type} (dec : decoder D gray (list N)) (img : D) g syms cs rs : usual dec -> wf_gray g -> d_prepare dec img = Ok g ->
  Forall (fun s => readable_near g (s_turn s) (s_module s) (s_x s) (s_y s) (s_version s) (s_modules s) (s_text s)) syms ->
  find_candidates g = Ok cs -> Forall (fun s => none_in_the_way (s_module s) (corners_in s) cs) syms ->
  decode dec img = Ok rs -> incl (map (fun s => inl (s_text s)) syms) rs.
Proof.
  intros HU HW HP HR E ND ER r Hr. apply in_map_iff in Hr as (s & <- & Hs). rewrite Forall_forall in HR, ND.
  exact (C85_among dec img g HU HW HP _ _ _ _ _ _ _ (HR s Hs) cs rs E (ND s Hs) ER).
Qed.

(** *** the rows: paper of any colour, then [ox] - [t] white pixels, then modules of which no eleven are alike *)
Lemma steady_raster f m t ox E (c0 : N) (dark : Z -> bool) : 1 <= m -> 0 <= t <= ox -> ox - t <= 10 * m \/ t = 0 ->
  (forall x, 0 <= x < t -> f x = c0) -> (forall x, t <= x < ox -> f x = 255%N) ->
  (forall c i, 0 <= c < E -> 0 <= i < m -> f (ox + c * m + i) = if dark c then 0%N else 255%N) -> dark 0 = true -> 1 <= E ->
  (forall c, 0 <= c -> c + 11 <= E -> exists k, 0 < k <= 10 /\ dark (c + k) <> dark c) -> steady f (ox + E * m).
Proof.
  intros Hm Ht HT F0 F1 F2 D0 HE HV.
  assert (BR : forall p, 0 < p <= ox + E * m -> f (p - 1) <> f p -> p = t \/ exists c, 0 <= c <= E /\ p = ox + c * m).
  { intros p Hp N. destruct (Z_lt_le_dec p ox) as [L|L].
    - left. destruct (Z.lt_trichotomy p t) as [K|[K|K]]; [|exact K|]; exfalso; apply N.
      + now rewrite !F0 by lia.
      + now rewrite !F1 by lia.
    - right. pose proof (Z.div_mod (p - ox) m ltac:(lia)) as DM. pose proof (Z.mod_pos_bound (p - ox) m ltac:(lia)) as MB.
      set (c := (p - ox) / m) in *. set (i := (p - ox) mod m) in *. assert (C0 : 0 <= c) by (apply Z.div_pos; lia).
      assert (CE : c <= E) by nia. exists c. split; [lia|]. destruct (Z.eq_dec i 0) as [I0|I0]; [lia|]. exfalso. apply N.
      assert (c < E) by nia. replace p with (ox + c * m + i) by lia. replace (ox + c * m + i - 1) with (ox + c * m + (i - 1)) by lia. now rewrite !F2 by lia. }
  assert (X0 : f ox = 0%N) by (specialize (F2 0 0 ltac:(lia) ltac:(lia)); rewrite D0 in F2; now replace (ox + 0 * m + 0) with ox in F2 by lia).
  intros a b d HA HB RA NA NB RB ND.
  assert (PA : (a = t /\ t < ox) \/ exists c, 0 <= c <= E /\ a = ox + c * m).
  { destruct (BR a ltac:(lia) NA) as [->|H]; [|now right]. destruct (Z.eq_dec t ox) as [->|NE]; [right; exists 0; lia|left; lia]. }
  assert (PB : b = t \/ exists c, 0 <= c <= E /\ b = ox + c * m) by (apply BR; [lia|]; rewrite (RA (b - 1)) by lia; congruence).
  assert (PD : d = t \/ exists c, 0 <= c <= E /\ d = ox + c * m) by (apply BR; [lia|]; rewrite (RB (d - 1)) by lia; congruence).
  destruct PB as [->|(c' & HC' & ->)]; [exfalso; destruct PA as [[-> _]|(c & HC & ->)]; nia|].
  destruct PD as [->|(c2 & HC2 & ->)]; [exfalso; nia|]. assert (c' < c2) by nia.
  destruct PA as [[-> HL]|(c & HC & ->)].
  - assert (c' = 0).
    { destruct (Z.eq_dec c' 0) as [Z0|Z0]; [exact Z0|]. exfalso. specialize (RA ox ltac:(nia)). rewrite X0, F1 in RA by lia. discriminate. }
    subst c'. destruct HT as [HT|HT]; [nia|lia].
  - assert (c < c') by nia. destruct (Z_le_gt_dec (c' - c) 10) as [L|L]; [nia|]. exfalso. destruct (HV c ltac:(lia) ltac:(lia)) as (k & Hk & NK). apply NK.
    specialize (RA (ox + (c + k) * m) ltac:(nia)). replace (ox + (c + k) * m) with (ox + (c + k) * m + 0) in RA by lia. replace (ox + c * m) with (ox + c * m + 0) in RA by lia.
    rewrite !F2 in RA by lia. destruct (dark (c + k)), (dark c); auto; discriminate.
Qed.

(** *** black ink, white paper, and white at least one module wide around the symbol: the rest of the picture does not matter *)
Lemma ringed_apart g m fx fy : 1 <= m -> m <= fx -> m <= fy ->
  (forall r c i j, -1 <= r < 8 -> -1 <= c < 8 -> 0 <= i < m -> 0 <= j < m ->
    pixel g (fx + c * m + i) (fy + r * m + j) = Some (if (0 <=? r) && (r <? 7) && (0 <=? c) && (c <? 7) && finder_dark r c then 0%N else 255%N)) -> finder_apart (pixel g) m fx fy.
Proof.
  intros M FX FY Q. split; [|split; [lia|split; [lia|split]]].
  - split; [lia|]. split; [lia|]. split; [lia|]. intros r c i j Hr Hc Hi Hj. rewrite Q by lia.
    destruct (Z.leb_spec 0 r); [|lia]. destruct (Z.ltb_spec r 7); [|lia]. destruct (Z.leb_spec 0 c); [|lia]. destruct (Z.ltb_spec c 7); [|lia]. reflexivity.
  - specialize (Q 7 7 0 0 ltac:(lia) ltac:(lia) ltac:(lia) ltac:(lia)). rewrite !Z.add_0_r in Q. exact Q.
  - intros x y u Hx Hy HO _ _ PU.
    pose proof (Z.div_mod (x - fx) m ltac:(lia)) as DX. pose proof (Z.mod_pos_bound (x - fx) m ltac:(lia)) as RX.
    pose proof (Z.div_mod (y - fy) m ltac:(lia)) as DY. pose proof (Z.mod_pos_bound (y - fy) m ltac:(lia)) as RY.
    set (c := (x - fx) / m) in *. set (i := (x - fx) mod m) in *. set (r := (y - fy) / m) in *. set (j := (y - fy) mod m) in *. clearbody c i r j.
    assert (-1 <= c < 8) by nia. assert (-1 <= r < 8) by nia. assert (~ (0 <= c < 7 /\ 0 <= r < 7)) by nia.
    specialize (Q r c i j ltac:(lia) ltac:(lia) RX RY). replace (fx + c * m + i) with x in Q by lia. replace (fy + r * m + j) with y in Q by lia.
    rewrite PU in Q. injection Q as ->.
    destruct (Z.leb_spec 0 r); [|reflexivity]. destruct (Z.ltb_spec r 7); [|reflexivity]. destruct (Z.leb_spec 0 c); [|reflexivity]. destruct (Z.ltb_spec c 7); [lia|reflexivity].
Qed.

(** the finder patterns of an inked symbol, with the ring around them *)
Lemma inked_block pixel a b k m ox oy v (d : matrix) : (k < 4)%nat -> 1 <= v <= 40 -> inked pixel a b m ox oy (side_of v) (turned k (side_of v) (fun r c => d c r)) ->
  finder_corners (side_of v) (fun r c => d c r) -> forall fx fy, In (fx, fy) (turned_corners k m ox oy v) ->
  (ox <= fx /\ fx + 7 * m <= ox + side_of v * m) /\ (oy <= fy /\ fy + 7 * m <= oy + side_of v * m) /\
  forall r c i j, -1 <= r < 8 -> -1 <= c < 8 -> 0 <= i < m -> 0 <= j < m ->
    pixel (fx + c * m + i) (fy + r * m + j) = Some (if (0 <=? r) && (r <? 7) && (0 <=? c) && (c <? 7) && finder_dark r c then a else b).
Proof.
  intros Hk Hv (M & P) HF fx fy HI. unfold turned_corners in HI. set (n := side_of v) in *. assert (N : 21 <= n) by (unfold n, side_of; lia).
  apply in_map_iff in HI as ((r & c) & E & HI). cbn [fst snd] in E. injection E as <- <-.
  assert (HC : corner_at n (r - 3) (c - 3)) by (unfold corner_at; cbn [finder_centres In] in HI; destruct HI as [E|[E|[E|[]]]]; injection E as <- <-; lia).
  pose proof (turned_block k n _ _ _ (corner_block n _ _ _ N HF HC)) as B. replace (r - 3 + 3) with r in B by lia. replace (c - 3 + 3) with c in B by lia.
  destruct (turned_ends k n r c Hk) as [E1 E2]; [unfold corner_at in HC; lia..|]. unfold corner_x, corner_y.
  set (cr := fst (place_of k n r c) - 3) in *. set (cc := snd (place_of k n r c) - 3) in *. set (dk := turned k n (fun r c => d c r)) in *. clearbody cr cc dk. clear r c HI HC.
  split; [nia|]. split; [nia|].
  intros r c i j Hr Hc Hi Hj. replace (ox + cc * m + c * m + i) with (ox + (cc + c) * m + i) by ring. replace (oy + cr * m + r * m + j) with (oy + (cr + r) * m + j) by ring.
  rewrite P by lia. f_equal.
  destruct (Z.leb_spec 0 (cr + r)); [destruct (Z.ltb_spec (cr + r) n); [destruct (Z.leb_spec 0 (cc + c)); [destruct (Z.ltb_spec (cc + c) n)|]|]|]; cbn [andb];
    try (rewrite (B r c) by lia; reflexivity);
    destruct (Z.leb_spec 0 r); cbn [andb]; try reflexivity; destruct (Z.ltb_spec r 7); cbn [andb]; try reflexivity;
    destruct (Z.leb_spec 0 c); cbn [andb]; try reflexivity; destruct (Z.ltb_spec c 7); cbn [andb]; try reflexivity; lia.
Qed.

Theorem C85_framed g k m ox oy v (d : matrix) : (k < 4)%nat -> 1 <= v <= 40 -> inked (pixel g) 0 255 m ox oy (side_of v) (turned k (side_of v) (fun r c => d c r)) ->
  m <= ox -> m <= oy -> gw g <= 2 ^ 26 -> gh g <= 2 ^ 26 -> finder_corners (side_of v) (fun r c => d c r) ->
  (forall fx fy, In (fx, fy) (turned_corners k m ox oy v) -> steady (fun x => pix g x (fy + 2 * m)) (fx + m)) -> symbol_near g k m ox oy v d.
Proof.
  intros Hk Hv HP MX MY BX BY HF HS. pose proof HP as (M & P). split; [|split; [exact BX|split; [exact BY|]]].
  - split; [lia|]. split; [lia|]. split; [lia|]. intros r c i j Hr Hc Hi Hj. rewrite P by lia.
    destruct (Z.leb_spec 0 r); [|lia]. destruct (Z.ltb_spec r (side_of v)); [|lia]. destruct (Z.leb_spec 0 c); [|lia]. destruct (Z.ltb_spec c (side_of v)); [|lia]. reflexivity.
  - intros fx fy HI. split; [|now apply HS]. destruct (inked_block _ 0 255 k m ox oy v d Hk Hv HP HF fx fy HI) as ((X & _) & (Y & _) & Q). apply ringed_apart; (lia || exact Q).
Qed.

(** *** the pictures of C62 and C63 are among these, unless the symbol touches the border on the left, at the top or at the bottom *)
Theorem C85_covers g k m ox oy v d : wf_gray g -> (k < 4)%nat -> 1 <= v <= 40 -> 2 <= m -> symbol_in g k m ox oy v d ->
  1 <= ox -> 1 <= oy -> oy + side_of v * m < gh g -> symbol_near g k m ox oy v d.
Proof.
  intros HW Hk Hv Hm HA OX OY HB. pose proof HA as (D & F & Q & WX & BX & BY & RF). split; [exact D|]. split; [exact BX|]. split; [exact BY|].
  intros fx fy HI. specialize (RF fx fy HI). pose proof HI as HI'. unfold turned_corners in HI'. apply in_map_iff in HI' as ((r & c) & E & HI'). cbn [fst snd] in E. injection E as <- <-.
  pose proof (turned_finder g k m ox oy v d HW Hk Hv Hm HA r c HI') as (FD & FR & _).
  set (n := side_of v) in *. assert (N : 21 <= n) by (unfold n, side_of; lia).
  assert (HC : corner_at n (r - 3) (c - 3)) by (unfold corner_at; cbn [finder_centres In] in HI'; destruct HI' as [E|[E|[E|[]]]]; injection E as <- <-; lia).
  destruct (turned_ends k n r c Hk) as [E1 E2]; [unfold corner_at in HC; lia..|].
  assert (CX : ox <= corner_x k m ox n r c /\ corner_x k m ox n r c + 7 * m <= ox + n * m) by (unfold corner_x; nia).
  assert (CY : oy <= corner_y k m oy n r c /\ corner_y k m oy n r c + 7 * m <= oy + n * m) by (unfold corner_y; nia).
  set (fx := corner_x k m ox n r c) in *. set (fy := corner_y k m oy n r c) in *. clearbody fx fy. split.
  - split; [exact FD|]. split; [lia|]. split; [lia|]. split; [|exact FR].
    assert (P := pixel_some g (fx + 7 * m) (fy + 7 * m) HW ltac:(lia) ltac:(lia)). rewrite P. f_equal. apply (FR (fx + 7 * m) (fy + 7 * m)); auto; lia.
  - set (f := fun x => pix g x (fy + 2 * m)) in *.
    assert (RI : forall i, 0 <= i < m -> f (fx + i) = 0%N).
    { intros i Hi. destruct FD as (_ & _ & _ & FD). specialize (FD 2 0 i 0 ltac:(lia) ltac:(lia) ltac:(lia) ltac:(lia)). rewrite Z.mul_0_l, !Z.add_0_r in FD.
      pose proof (pixel_some g (fx + i) (fy + 2 * m) HW ltac:(lia) ltac:(lia)) as P. rewrite P in FD. injection FD as FD. exact FD. }
    intros a b e HA1 HB1 RA NA NB RB NE.
    destruct (Z_le_gt_dec b fx) as [L|L].
    + pose proof (RF a b ltac:(lia) L RA NA NB) as K. destruct (Z_le_gt_dec e fx) as [L'|L'].
      * pose proof (RF b e ltac:(lia) L' RB ltac:(rewrite (RA (b - 1)) by lia; congruence) NE). lia.
      * assert (e = fx + m); [|lia]. destruct (Z.eq_dec e (fx + m)) as [X|X]; [exact X|]. exfalso. apply NE.
        assert (fb : f b = 0%N) by (rewrite <- (RB fx) by lia; specialize (RI 0 ltac:(lia)); now rewrite Z.add_0_r in RI).
        rewrite fb. replace e with (fx + (e - fx)) by lia. apply RI. lia.
    + exfalso. assert (f b = 0%N) by (replace b with (fx + (b - fx)) by lia; apply RI; lia).
      assert (f (b - 1) = 0%N) by (replace (b - 1) with (fx + (b - 1 - fx)) by lia; apply RI; lia). rewrite (RA (b - 1)) in * by lia. congruence.
Qed.

(** a symbol with its margin of one module, and [s x y] everywhere else *)
Definition framed (w h m ox oy v : Z) (d : matrix) (s : Z -> Z -> N) : gray := image_of w h (fun x y =>
  let c := (x - ox) / m in let r := (y - oy) / m in
  if (-1 <=? c) && (c <=? side_of v) && (-1 <=? r) && (r <=? side_of v) then (if (0 <=? r) && (r <? side_of v) && (0 <=? c) && (c <? side_of v) && d c r then 0%N else 255%N) else s x y).

Lemma framed_inked w h m ox oy v d s : 1 <= m -> m <= ox -> m <= oy -> ox + (side_of v + 1) * m <= w -> oy + (side_of v + 1) * m <= h ->
  inked (pixel (framed w h m ox oy v d s)) 0 255 m ox oy (side_of v) (fun r c => d c r).
Proof.
  intros Hm MX MY WX WY. split; [exact Hm|]. intros r c i j Hr Hc Hi Hj. unfold pixel, framed. rewrite image_of_pixel by nia. cbv zeta.
  replace ((ox + c * m + i - ox) / m) with c by (apply Z.div_unique with i; lia). replace ((oy + r * m + j - oy) / m) with r by (apply Z.div_unique with j; lia).
  destruct (Z.leb_spec (-1) c); [|lia]. destruct (Z.leb_spec c (side_of v)); [|lia]. destruct (Z.leb_spec (-1) r); [|lia]. destruct (Z.leb_spec r (side_of v)); [|lia]. reflexivity.
Qed.

Definition black_frame : gray := framed 54 54 2 6 6 1 modules_1 (fun _ _ => 0%N).
Definition frame_candidates : list finder_pos := [candidate_at 2 26 12; candidate_at 2 82 12; candidate_at 2 26 40].
Lemma frame_found : find_candidates black_frame = Ok frame_candidates.
Proof. vm_compute. reflexivity. Qed.
Lemma frame_wf : wf_gray black_frame.
Proof. unfold black_frame, framed. apply image_of_wf; [unfold u32_max; lia|unfold u32_max; lia|]. intros x y. cbv zeta. now repeat match goal with |- context [if ?b then _ else _] => destruct b end. Qed.

Lemma frame_steady R E : 0 <= R < 21 -> 1 <= E <= 21 -> modules_1 0 R = true -> (forall c, 0 <= c -> c + 11 <= E -> exists k, 0 < k <= 10 /\ modules_1 (c + k) R <> modules_1 c R) ->
  steady (fun x => pix black_frame x (6 + R * 2)) (6 + E * 2).
Proof.
  intros HR HE H0 HV. assert (S : side_of 1 = 21) by reflexivity.
  assert (PX : forall x, 0 <= x < 54 -> get_pixel black_frame x (6 + R * 2) = Ok (pix black_frame x (6 + R * 2))).
  { intros x Hx. apply get_pixel_pix; [exact frame_wf|cbn; lia|cbn; lia]. }
  assert (IN := framed_inked 54 54 2 6 6 1 modules_1 (fun _ _ => 0%N) ltac:(lia) ltac:(lia) ltac:(lia) ltac:(lia) ltac:(lia)). fold black_frame in IN. destruct IN as (_ & IN). rewrite S in IN.
  assert (PY : forall c i, -1 <= c <= 21 -> 0 <= i < 2 -> pix black_frame (6 + c * 2 + i) (6 + R * 2) = if (0 <=? c) && (c <? 21) && modules_1 c R then 0%N else 255%N).
  { intros c i Hc Hi. specialize (IN R c i 0 ltac:(lia) Hc Hi ltac:(lia)). rewrite Z.add_0_r in IN. unfold pixel in IN. rewrite PX in IN by lia. injection IN as ->.
    destruct (Z.leb_spec 0 R); [|lia]. destruct (Z.ltb_spec R 21); [|lia]. reflexivity. }
  apply (steady_raster _ 2 4 6 E 0 (fun c => modules_1 c R)); try lia; try assumption.
  - intros x Hx. specialize (PX x ltac:(lia)). unfold black_frame at 1, framed in PX. rewrite image_of_pixel in PX by lia. cbv zeta in PX.
    assert (D : (x - 6) / 2 <= -2) by (apply Z.lt_succ_r, Z.div_lt_upper_bound; lia).
    destruct (Z.leb_spec (-1) ((x - 6) / 2)) as [L|L]; [exfalso; apply (Z.lt_irrefl (-1)), (Z.le_lt_trans _ _ _ L), (Z.le_lt_trans _ _ _ D); reflexivity|]. cbn [andb] in PX. now injection PX.
  - intros x Hx. replace x with (6 + (-1) * 2 + (x - 4)) by lia. rewrite PY by lia. reflexivity.
  - intros c i Hc Hi. rewrite PY by lia. destruct (Z.leb_spec 0 c); [|lia]. destruct (Z.ltb_spec c 21); [|lia]. reflexivity.
Qed.

Lemma frame_readable : readable_near black_frame 0 2 6 6 1 modules_1 [72; 69; 76; 76; 79]%N.
Proof.
  assert (S : side_of 1 = 21) by reflexivity. split; [lia|]. split; [lia|]. split; [lia|]. split; [|split; [now left|exact hello_text]].
  apply C85_framed; try lia; try (cbn; lia).
  - apply (framed_inked 54 54 2 6 6 1 modules_1); lia.
  - apply check_corners_ok. vm_compute. reflexivity.
  - intros fx fy HI. change (turned_corners 0 2 6 6 1) with [(6, 6); (34, 6); (6, 34)] in HI. cbn [In] in HI. destruct HI as [H|[H|[H|[]]]]; injection H as <- <-.
    + apply (frame_steady 2 1); try lia; reflexivity.
    + apply (frame_steady 2 15); [lia|lia|reflexivity|]. intros c C0 C1. assert (C : c = 0 \/ c = 1 \/ c = 2 \/ c = 3 \/ c = 4) by lia. destruct C as [->|[->|[->|[->| ->]]]].
      * exists 1. split; [lia|vm_compute; discriminate].
      * exists 1. split; [lia|vm_compute; discriminate].
      * exists 3. split; [lia|vm_compute; discriminate].
      * exists 2. split; [lia|vm_compute; discriminate].
      * exists 1. split; [lia|vm_compute; discriminate].
    + apply (frame_steady 16 1); try lia; reflexivity.
Qed.

Example C85_example : decode plain_decoder black_frame = Ok [inl [72; 69; 76; 76; 79]%N].
Proof.
  apply (C85_one plain_decoder black_frame black_frame ltac:(repeat split) frame_wf eq_refl 0%nat 2 6 6 1 modules_1 _ frame_readable frame_candidates frame_found); [|reflexivity].
  change (turned_corners 0 2 6 6 1) with [(6, 6); (34, 6); (6, 34)]. apply C63_not_in_the_way; [lia| |].
  - intros fx fy fx' fy' H H'. cbn [In] in H, H'. destruct H as [E|[E|[E|[]]]]; injection E as <- <-; destruct H' as [E|[E|[E|[]]]]; injection E as <- <-; (now left) || (right; lia).
  - unfold frame_candidates. constructor; [|constructor; [|constructor; [|constructor]]].
    + exists 6, 6. split; [cbn; auto|]. apply candidate_centre; (reflexivity || lia).
    + exists 34, 6. split; [cbn; auto|]. apply candidate_centre; (reflexivity || lia).
    + exists 6, 34. split; [cbn; auto|]. apply candidate_centre; (reflexivity || lia).
Qed.

(** Without the margin there is nothing to see: the same symbol with the black right up to it. *)
Definition no_margin : gray := image_of 54 54 (fun x y => let c := (x - 6) / 2 in let r := (y - 6) / 2 in
  if (0 <=? c) && (c <? 21) && (0 <=? r) && (r <? 21) && negb (modules_1 c r) then 255%N else 0%N).
Theorem C85_margin_needed : wf_gray no_margin /\ drawn (pixel no_margin) 2 6 6 21 (fun r c => modules_1 c r) /\ decode plain_decoder no_margin = Ok [].
Proof.
  split; [|split].
  - unfold no_margin. apply image_of_wf; [unfold u32_max; lia|unfold u32_max; lia|]. intros x y. cbv zeta. now repeat match goal with |- context [if ?b then _ else _] => destruct b end.
  - split; [lia|]. split; [lia|]. split; [lia|]. intros r c i j Hr Hc Hi Hj. unfold pixel, no_margin. rewrite image_of_pixel by lia. cbv zeta.
    replace ((6 + c * 2 + i - 6) / 2) with c by (apply Z.div_unique with i; lia). replace ((6 + r * 2 + j - 6) / 2) with r by (apply Z.div_unique with j; lia).
    destruct (Z.leb_spec 0 c); [|lia]. destruct (Z.ltb_spec c 21); [|lia]. destruct (Z.leb_spec 0 r); [|lia]. destruct (Z.ltb_spec r 21); [|lia]. now destruct (modules_1 c r).
  - vm_compute. reflexivity.
Qed.
