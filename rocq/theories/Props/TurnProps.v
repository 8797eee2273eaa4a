(** Symbols turned by quarter turns, and several of them in one picture: C62, C63. *)
From Coq Require Import NArith ZArith Reals List Lia Lra Bool Arith Psatz.
From Verif.Model Require Import Prepare Detect Extract Pipeline.
From Flocq Require Import Core.
From Verif.Spec Require Import Bits Segments Symbol Layout Bridge Message Encoder Plane Drawing.
From Verif.Proofs Require Import BaseP CountP DrawP FormatP EncodeP EncoderP PrepareP FloatP ApproxP DetectP GeometryP ExtractP AlignP RefineP RefineF ScanP LocateP CornersP WholeP.
From Verif.Props Require Import PrepareProps DetectProps DecoderProps PipelineProps ExtractProps CleanProps FinderProps WholeProps.
Import ListNotations.
Local Open Scope Z_scope.

(** the centres of the three finder patterns, as (row, column) of the symbol *)
Definition finder_centres (n : Z) : list (Z * Z) := [(3, 3); (3, n - 4); (n - 4, 3)].

(** the upper left pixel of the finder pattern with its centre in row [r] and column [c] *)
Definition corner_x (k : nat) (m ox n r c : Z) : Z := ox + (snd (place_of k n r c) - 3) * m.
Definition corner_y (k : nat) (m oy n r c : Z) : Z := oy + (fst (place_of k n r c) - 3) * m.
Definition turned_corners (k : nat) (m ox oy v : Z) : list (Z * Z) :=
  map (fun p => (corner_x k m ox (side_of v) (fst p) (snd p), corner_y k m oy (side_of v) (fst p) (snd p))) (finder_centres (side_of v)).

(** a symbol [d column row], turned [k] times and drawn at (ox, oy) with a quiet zone; in the rows
    through the finder patterns, the runs left of them are not too long for the scan *)
Definition symbol_in (g : gray) (k : nat) (m ox oy v : Z) (d : matrix) : Prop :=
  drawn (pixel g) m ox oy (side_of v) (turned k (side_of v) (fun r c => d c r)) /\
  finder_corners (side_of v) (fun r c => d c r) /\ quiet_zone (pixel g) m ox oy (side_of v) /\
  ox + side_of v * m < gw g /\ gw g <= 2 ^ 26 /\ gh g <= 2 ^ 26 /\
  forall fx fy, In (fx, fy) (turned_corners k m ox oy v) -> runs_fit (fun x => pix g x (fy + 2 * m)) m fx.

(** a location whose corners are the centres of the finder patterns of the turned symbol, all off
    by the same (ex, ey), at most three eighths of a module *)
Definition located_turned (k : nat) (m ox oy n : Z) (loc : qrloc) : Prop := exists ex ey,
  let seen p r c := point_at p (middle_of m ox (snd (place_of k n r c)) + ex) (middle_of m oy (fst (place_of k n r c)) + ey) in
  (Rabs ex <= 3 * IZR m / 8)%R /\ (Rabs ey <= 3 * IZR m / 8)%R /\
  seen (top_left loc) 3 3 /\ seen (top_right loc) 3 (n - 4) /\ seen (bottom_left loc) (n - 4) 3.

(** nothing else looks like a finder pattern close to one of those at the [corners] *)
Definition none_in_the_way (m : Z) (corners : list (Z * Z)) (cs : list finder_pos) : Prop := forall c fx fy,
  In c cs -> In (fx, fy) corners -> in_the_way m fx fy c -> centre_found m fx fy c.

(** *** the four directions *)
Lemma frame k n : (k < 4)%nat -> exists kx ux wx ky uy wy, heading ux uy wx wy /\
  (forall r c, snd (place_of k n r c) = mcol kx ux wx r c) /\ (forall r c, fst (place_of k n r c) = mrow ky uy wy r c) /\
  (forall dark r c, turned k n dark (mrow ky uy wy r c) (mcol kx ux wx r c) = dark r c) /\
  (forall r c, 0 <= r < n -> 0 <= c < n -> 0 <= mcol kx ux wx r c < n /\ 0 <= mrow ky uy wy r c < n).
Proof.
  intros Hk. destruct k as [|[|[|[|k]]]]; [..|lia].
  - exists 0, 1, 0, 0, 0, 1. split; [unfold heading; lia|]. unfold place_of, turned, quarter, turn_module, mcol, mrow, Nat.iter. cbn [nat_rect fst snd].
    split; [intros; lia|]. split; [intros; lia|]. split; [intros; f_equal; lia|intros; lia].
  - exists (n - 1), 0, (-1), 0, 1, 0. split; [unfold heading; lia|]. unfold place_of, turned, quarter, turn_module, mcol, mrow, Nat.iter. cbn [nat_rect fst snd].
    split; [intros; lia|]. split; [intros; lia|]. split; [intros; f_equal; lia|intros; lia].
  - exists (n - 1), (-1), 0, (n - 1), 0, (-1). split; [unfold heading; lia|]. unfold place_of, turned, quarter, turn_module, mcol, mrow, Nat.iter. cbn [nat_rect fst snd].
    split; [intros; lia|]. split; [intros; lia|]. split; [intros; f_equal; lia|intros; lia].
  - exists 0, 0, 1, (n - 1), (-1), 0. split; [unfold heading; lia|]. unfold place_of, turned, quarter, turn_module, mcol, mrow, Nat.iter. cbn [nat_rect fst snd].
    split; [intros; lia|]. split; [intros; lia|]. split; [intros; f_equal; lia|intros; lia].
Qed.

Lemma turned_block k n dark cr cc : finder_block n dark cr cc ->
  finder_block n (turned k n dark) (fst (place_of k n (cr + 3) (cc + 3)) - 3) (snd (place_of k n (cr + 3) (cc + 3)) - 3).
Proof.
  intros H. induction k as [|k IH].
  - cbn. replace (cr + 3 - 3) with cr by lia. now replace (cc + 3 - 3) with cc by lia.
  - apply quarter_block in IH. change (turned (S k) n dark) with (quarter n (turned k n dark)).
    change (place_of (S k) n (cr + 3) (cc + 3)) with (turn_module n (place_of k n (cr + 3) (cc + 3))). unfold turn_module. cbn [fst snd].
    replace (n - 1 - fst (place_of k n (cr + 3) (cc + 3)) - 3) with (n - 7 - (fst (place_of k n (cr + 3) (cc + 3)) - 3)) by lia. exact IH.
Qed.

Lemma turned_ends k n r c : (k < 4)%nat -> (r = 3 \/ r = n - 4) -> (c = 3 \/ c = n - 4) ->
  (fst (place_of k n r c) - 3 = 0 \/ fst (place_of k n r c) - 3 = n - 7) /\ (snd (place_of k n r c) - 3 = 0 \/ snd (place_of k n r c) - 3 = n - 7).
Proof.
  intros Hk Hr Hc. induction k as [|k IH]; [cbn; lia|]. change (place_of (S k) n r c) with (turn_module n (place_of k n r c)). unfold turn_module. cbn [fst snd].
  specialize (IH ltac:(lia)). lia.
Qed.

(** *** C62: where a turned symbol is found *)
Section Turned.
Context (g : gray) (k : nat) (m ox oy v : Z) (d : matrix) (HW : wf_gray g) (Hk : (k < 4)%nat) (Hv : 1 <= v <= 40) (Hm : 2 <= m) (HA : symbol_in g k m ox oy v d).
Let n := side_of v.

Lemma turned_side : 21 <= n /\ n - 7 = 4 * v + 10.
Proof. unfold n, side_of. lia. Qed.
Lemma turned_inside : 0 <= ox /\ 0 <= oy /\ ox + n * m < gw g /\ oy + n * m <= gh g /\ gw g <= 2 ^ 26 /\ gh g <= 2 ^ 26.
Proof.
  destruct HA as ((X & Y & M & D) & _ & _ & R & B & B' & _). destruct turned_side as [N _]. fold n in D, R. repeat split; try lia.
  pose proof (D (n - 1) 0 0 (m - 1) ltac:(lia) ltac:(lia) ltac:(lia) ltac:(lia)) as P. apply pixel_inside in P.
  replace (oy + (n - 1) * m + (m - 1)) with (oy + n * m - 1) in P by ring. lia.
Qed.

Lemma turned_finder r c : In (r, c) (finder_centres n) -> finder_drawn (pixel g) m (corner_x k m ox n r c) (corner_y k m oy n r c).
Proof.
  intros HI. destruct HA as (D & F & Q & R & _). fold n in D, F, Q, R. destruct turned_inside as (X & Y & XR & YB & _). destruct turned_side as [N _].
  assert (HC : corner_at n (r - 3) (c - 3)) by (unfold corner_at; cbn [finder_centres In] in HI; destruct HI as [E|[E|[E|[]]]]; injection E as <- <-; lia).
  pose proof (turned_block k n _ _ _ (corner_block n _ _ _ N F HC)) as B. replace (r - 3 + 3) with r in B by lia. replace (c - 3 + 3) with c in B by lia.
  destruct (turned_ends k n r c Hk) as [E1 E2]; [unfold corner_at in HC; lia..|].
  apply (block_drawn (pixel g) m ox oy n _ D Q N _ _ B E1 E2).
  intros E y Hy. assert (0 <= fst (place_of k n r c) - 3 <= n - 7) by lia. set (q := fst (place_of k n r c) - 3) in *.
  assert (0 <= q * m) by nia. assert (q * m + 7 * m <= n * m) by nia.
  assert (P := pixel_some g (ox + n * m) y HW ltac:(nia) ltac:(lia)). rewrite P. f_equal. apply (Q (ox + n * m) y); auto; nia.
Qed.

Lemma turned_found cs r c : find_candidates g = Ok cs -> none_in_the_way m (turned_corners k m ox oy v) cs -> In (r, c) (finder_centres n) ->
  exists p, In p cs /\ at_centre m (corner_x k m ox n r c) (corner_y k m oy n r c) p.
Proof.
  intros E ND HI. destruct turned_inside as (X & Y & XR & YB & BX & BY).
  assert (IC : In (corner_x k m ox n r c, corner_y k m oy n r c) (turned_corners k m ox oy v)).
  { unfold turned_corners. fold n. apply in_map_iff. exists (r, c). auto. }
  assert (RF : runs_fit (fun x => pix g x (corner_y k m oy n r c + 2 * m)) m (corner_x k m ox n r c)) by (destruct HA as (_ & _ & _ & _ & _ & _ & RF); now apply RF).
  destruct (C58_alone g m _ _ cs HW (turned_finder r c HI) Hm BX BY RF E) as (p & Hp & F).
  - intros p Hp. now apply ND.
  - exists p. split; [exact Hp|]. now apply (centre_back g m HW cs).
Qed.

Lemma turned_located c1 c2 c3 loc : at_centre m (corner_x k m ox n 3 3) (corner_y k m oy n 3 3) c1 ->
  at_centre m (corner_x k m ox n 3 (n - 4)) (corner_y k m oy n 3 (n - 4)) c2 -> at_centre m (corner_x k m ox n (n - 4) 3) (corner_y k m oy n (n - 4) 3) c3 ->
  made_from c1 c2 c3 v loc -> located_turned k m ox oy n loc /\ version loc = v.
Proof.
  intros A1 A2 A3 (E1 & E2 & E3 & EV). split; [|exact EV].
  assert (M : (2 <= IZR m)%R) by (apply IZR_le; lia).
  exists (/ 2)%R, (IZR ((7 * m - 1) / 2) - (7 * IZR m - 1) / 2)%R. cbv zeta.
  assert (B : (Rabs (IZR ((7 * m - 1) / 2) - (7 * IZR m - 1) / 2) <= / 2)%R).
  { pose proof (Z.div_mod (7 * m - 1) 2 ltac:(lia)) as DM. pose proof (Z.mod_pos_bound (7 * m - 1) 2 ltac:(lia)) as MB.
    set (q := (7 * m - 1) / 2) in *. set (r := (7 * m - 1) mod 2) in *.
    assert (DR : (7 * IZR m - 1 = 2 * IZR q + IZR r)%R) by (rewrite <- !mult_IZR, <- minus_IZR, <- plus_IZR; f_equal; lia).
    assert (0 <= IZR r <= 1)%R by (split; apply IZR_le; lia). rabs; lra. }
  split; [rewrite Rabs_pos_eq; lra|]. split; [lra|].
  assert (K : forall p r c, at_centre m (corner_x k m ox n r c) (corner_y k m oy n r c) p ->
    point_at (fp_location p) (middle_of m ox (snd (place_of k n r c)) + / 2) (middle_of m oy (fst (place_of k n r c)) + (IZR ((7 * m - 1) / 2) - (7 * IZR m - 1) / 2))).
  { intros p r c (_ & X1 & Y1). unfold corner_x, corner_y in X1, Y1. set (a := snd (place_of k n r c)) in *. set (b := fst (place_of k n r c)) in *. split.
    - replace (middle_of m ox a + / 2)%R with (IZR (2 * (ox + (a - 3) * m) + 7 * m) / 2)%R; [exact X1|]. unfold middle_of. rewrite plus_IZR, !mult_IZR, plus_IZR, mult_IZR, minus_IZR. lra.
    - apply fin_hf in Y1. replace (middle_of m oy b + _)%R with (IZR (oy + (b - 3) * m + (7 * m - 1) / 2)); [exact Y1|]. unfold middle_of. rewrite !plus_IZR, mult_IZR, minus_IZR. lra. }
  rewrite E1, E2, E3. split; [|split]; now apply K.
Qed.

Lemma turned_three cs : find_candidates g = Ok cs -> none_in_the_way m (turned_corners k m ox oy v) cs ->
  exists ux uy wx wy c1 c2 c3, heading ux uy wx wy /\ In c1 cs /\ In c2 cs /\ In c3 cs /\
    let L := (4 * v + 10) * m in let fx := corner_x k m ox n 3 3 in let fy := corner_y k m oy n 3 3 in
    L <= 2 ^ 26 /\ m <= 10000000 /\ 0 <= fx /\ 0 <= fy /\
    at_centre m fx fy c1 /\ at_centre m (fx + L * ux) (fy + L * uy) c2 /\ at_centre m (fx + L * wx) (fy + L * wy) c3 /\
    forall loc, made_from c1 c2 c3 v loc -> located_turned k m ox oy n loc /\ version loc = v.
Proof.
  intros E ND. destruct turned_inside as (X & Y & XR & YB & BX & BY). destruct turned_side as [N N7].
  destruct (turned_found cs 3 3 E ND) as (c1 & I1 & A1); [left; reflexivity|]. destruct (turned_found cs 3 (n - 4) E ND) as (c2 & I2 & A2); [right; left; reflexivity|].
  destruct (turned_found cs (n - 4) 3 E ND) as (c3 & I3 & A3); [right; right; left; reflexivity|].
  destruct (frame k n Hk) as (kx & ux & wx & ky & uy & wy & HQ & EC & ER & _ & HP).
  exists ux, uy, wx, wy, c1, c2, c3. split; [exact HQ|]. split; [exact I1|]. split; [exact I2|]. split; [exact I3|]. cbv zeta.
  assert (LN : (4 * v + 10) * m + 7 * m = n * m) by (rewrite <- N7; ring).
  destruct (turned_ends k n 3 3 Hk ltac:(lia) ltac:(lia)) as [E1 E2].
  split; [lia|]. split; [nia|]. split; [unfold corner_x; nia|]. split; [unfold corner_y; nia|]. split; [exact A1|]. split; [|split].
  - replace (corner_x k m ox n 3 3 + (4 * v + 10) * m * ux) with (corner_x k m ox n 3 (n - 4)); [replace (corner_y k m oy n 3 3 + (4 * v + 10) * m * uy) with (corner_y k m oy n 3 (n - 4)); [exact A2|]|].
    + unfold corner_y. rewrite !ER. unfold mrow. rewrite <- N7. ring.
    + unfold corner_x. rewrite !EC. unfold mcol. rewrite <- N7. ring.
  - replace (corner_x k m ox n 3 3 + (4 * v + 10) * m * wx) with (corner_x k m ox n (n - 4) 3); [replace (corner_y k m oy n 3 3 + (4 * v + 10) * m * wy) with (corner_y k m oy n (n - 4) 3); [exact A3|]|].
    + unfold corner_y. rewrite !ER. unfold mrow. rewrite <- N7. ring.
    + unfold corner_x. rewrite !EC. unfold mcol. rewrite <- N7. ring.
  - intros loc M. now apply (turned_located c1 c2 c3).
Qed.

Theorem C62_located cs locs : find_candidates g = Ok cs -> none_in_the_way m (turned_corners k m ox oy v) cs -> detect g = Ok locs ->
  exists loc, In loc locs /\ located_turned k m ox oy n loc /\ version loc = v.
Proof.
  intros E ND ED. destruct (turned_three cs E ND) as (ux & uy & wx & wy & c1 & c2 & c3 & HQ & I1 & I2 & I3 & LB & MB & FX & FY & A1 & A2 & A3 & HL).
  unfold detect in ED. rewrite E in ED. cbn [bind] in ED.
  destruct (triple_in m _ _ v ltac:(lia) ltac:(lia) LB ux uy wx wy HQ c1 c2 c3 A1 A2 A3 cs locs I1 I2 I3 ED) as (loc & IL & M).
  exists loc. split; [exact IL|]. now apply HL.
Qed.

Theorem C62_only cs : find_candidates g = Ok cs -> none_in_the_way m (turned_corners k m ox oy v) cs -> length cs = 3%nat ->
  exists loc, detect g = Ok [loc] /\ located_turned k m ox oy n loc /\ version loc = v.
Proof.
  intros E ND H3. destruct (turned_three cs E ND) as (ux & uy & wx & wy & c1 & c2 & c3 & HQ & I1 & I2 & I3 & LB & MB & FX & FY & A1 & A2 & A3 & HL).
  destruct (triple_only m _ _ v ltac:(lia) ltac:(lia) LB ux uy wx wy HQ c1 c2 c3 A1 A2 A3 cs I1 I2 I3 H3) as (loc & EL & M).
  exists loc. split; [unfold detect; now rewrite E|]. now apply HL.
Qed.
End Turned.

(** *** C62: and what is read there: the symbol as it was before it was turned *)
Lemma turned_exact g k m ox oy v d loc : wf_gray g -> (k < 4)%nat -> 1 <= v <= 40 ->
  drawn (pixel g) m ox oy (side_of v) (turned k (side_of v) (fun r c => d c r)) -> ox + side_of v * m <= 2 ^ 26 -> oy + side_of v * m <= 2 ^ 26 ->
  (v = 1 \/ bottom_right_alignment (side_of v) (fun r c => d c r)) ->
  located_turned k m ox oy (side_of v) loc -> version loc = v ->
  extract g loc = Ok (deliver v d).
Proof.
  intros HW Hk Hv HD WX WY HAl (ex & ey & HE & HE' & A & B & C) HV.
  destruct (frame k (side_of v) Hk) as (kx & ux & wx & ky & uy & wy & HQ & EC & ER & EP & HP).
  set (n := side_of v) in *. set (dark := fun r c => d c r) in *. set (pic := turned k n dark) in *.
  assert (HM : forall r c, module pic kx ux wx ky uy wy r c = dark r c) by (intros r c; unfold module; apply EP).
  assert (NV : n = 17 + 4 * v) by (unfold n, side_of; lia).
  unfold point_at in A, B, C. rewrite EC, ER in A, B, C.
  assert (S : deliver v d = mkQRData (rows (fun r c => colour (module pic kx ux wx ky uy wy (Z.of_nat r) (Z.of_nat c))) (Z.to_nat n)) v n).
  { erewrite rows_ext; [reflexivity|]. intros r c. now rewrite HM. }
  rewrite S. clear S.
  destruct (Z.eq_dec v 1) as [V1|V1].
  - assert (N21 : n = 21) by lia. assert (V1' : version loc = 1) by lia. clear HV NV. clearbody pic. clearbody n. subst n v. exact (extract_turned_1 g m ox oy pic kx ux wx ky uy wy loc ex ey HD WX WY HP HE HE' V1' A B C).
  - destruct HAl as [|HAl]; [contradiction|].
    assert (HU : Z.abs ux + Z.abs wx = 1) by (unfold heading in HQ; lia). assert (HU' : Z.abs uy + Z.abs wy = 1) by (unfold heading in HQ; lia).
    rewrite <- HV. apply (extract_turned g m ox oy n pic HD ltac:(lia) WX WY kx ux wx ky uy wy HU HU' HP loc ex ey HE HE' A B C); try lia; auto.
    + intros i j Hi Hj. rewrite HM. now apply HAl.
    + intros i j Hi Hj. unfold Xc, Yc.
      set (i' := ux * i + uy * j). set (j' := wx * i + wy * j).
      assert (R : mrow ky uy wy (n - 7) (n - 7) + j = mrow ky uy wy (n - 7 + j') (n - 7 + i') /\ mcol kx ux wx (n - 7) (n - 7) + i = mcol kx ux wx (n - 7 + j') (n - 7 + i') /\
        -2 <= i' <= 2 /\ -2 <= j' <= 2 /\ Z.max (Z.abs j') (Z.abs i') = Z.max (Z.abs j) (Z.abs i)).
      { unfold i', j', mrow, mcol. destruct HQ as [(-> & -> & -> & ->)|[(-> & -> & -> & ->)|[(-> & -> & -> & ->)|(-> & -> & -> & ->)]]]; lia. }
      destruct R as (-> & -> & Hi' & Hj' & RM). unfold pic. rewrite EP. rewrite (HAl j' i') by assumption. now rewrite RM.
    + unfold Xc. destruct (HP (n - 1) (n - 1) ltac:(lia) ltac:(lia)) as [P1 P2]. destruct (HP 0 0 ltac:(lia) ltac:(lia)) as [P3 P4]. destruct (HP 0 (n - 1) ltac:(lia) ltac:(lia)) as [P5 P6].
      unfold mcol, mrow in *. destruct HQ as [(-> & -> & -> & ->)|[(-> & -> & -> & ->)|[(-> & -> & -> & ->)|(-> & -> & -> & ->)]]]; lia.
    + unfold Yc. destruct (HP (n - 1) (n - 1) ltac:(lia) ltac:(lia)) as [P1 P2]. destruct (HP 0 0 ltac:(lia) ltac:(lia)) as [P3 P4]. destruct (HP 0 (n - 1) ltac:(lia) ltac:(lia)) as [P5 P6].
      unfold mcol, mrow in *. destruct HQ as [(-> & -> & -> & ->)|[(-> & -> & -> & ->)|[(-> & -> & -> & ->)|(-> & -> & -> & ->)]]]; lia.
Qed.

Theorem C62_sampled g k m ox oy v d loc : wf_gray g -> (k < 4)%nat -> 1 <= v <= 40 ->
  drawn (pixel g) m ox oy (side_of v) (turned k (side_of v) (fun r c => d c r)) -> ox + side_of v * m <= 2 ^ 26 -> oy + side_of v * m <= 2 ^ 26 ->
  (v = 1 \/ bottom_right_alignment (side_of v) (fun r c => d c r)) ->
  located_turned k m ox oy (side_of v) loc -> version loc = v ->
  exists q, extract g loc = Ok q /\ shows v d q.
Proof. intros. exists (deliver v d). split; [now apply (turned_exact g k m ox oy)|apply deliver_shows; lia]. Qed.

(** *** the text *)

(** the symbol [d] of version [v] holds the text [t] *)
Definition holds_text (v : Z) (d : matrix) (t : list N) : Prop := exists l mask segs texts base,
  (mask < 8)%N /\ Forall (raw_wf v) segs /\ Forall2 raw_text segs texts /\ (length (segment_bits v segs) <= 8 * data_codewords v l)%nat /\
  (forall x y, data_module v x y -> d x y = encode_symbol v l mask segs base x y) /\ carries d copy1 (format_word l mask) /\ t = concat texts.

(** a complete symbol in the picture *)
Definition readable (g : gray) (k : nat) (m ox oy v : Z) (d : matrix) (t : list N) : Prop :=
  (k < 4)%nat /\ 1 <= v <= 40 /\ 2 <= m /\ symbol_in g k m ox oy v d /\
  (v = 1 \/ bottom_right_alignment (side_of v) (fun r c => d c r)) /\ holds_text v d t.

(** a decoder that detects, extracts and decodes like the default one; preparation may be another *)
Definition usual {D : Type} (dec : decoder D gray (list N)) : Prop := d_detect dec = detect /\ d_extract dec = extract /\ d_decode dec = qr_decode.

Lemma turned_text g k m ox oy v d t loc : wf_gray g -> readable g k m ox oy v d t ->
  located_turned k m ox oy (side_of v) loc -> version loc = v -> qr_decode (extract g loc) = Ok t.
Proof.
  intros HW (Hk & Hv & Hm & HA & HAl & l & mask & segs & texts & base & H1 & H2 & H3 & H4 & H5 & H6 & ->) HL HV.
  destruct (turned_inside g k m ox oy v d Hk Hv Hm HA) as (X & Y & XR & YB & BX & BY).
  destruct (C62_sampled g k m ox oy v d loc HW Hk Hv) as (q & -> & S); auto; try lia.
  - exact (proj1 HA).
  - eapply C30_roundtrip; eauto.
Qed.

Section Text.
Context {D : Type} (dec : decoder D gray (list N)) (img : D) (g : gray) (HU : usual dec) (HW : wf_gray g) (HP : d_prepare dec img = Ok g).
Context (k : nat) (m ox oy v : Z) (d : matrix) (t : list N) (HR : readable g k m ox oy v d t).

Theorem C62_among cs rs : find_candidates g = Ok cs -> none_in_the_way m (turned_corners k m ox oy v) cs -> decode dec img = Ok rs -> In (inl t) rs.
Proof.
  intros E ND ER. apply C39_one_each in ER as (g' & locs & E1 & E2 & F). rewrite HP in E1. injection E1 as <-.
  destruct HU as (U1 & U2 & U3). rewrite U1 in E2. pose proof HR as (Hk & Hv & Hm & HA & _).
  destruct (C62_located g k m ox oy v d HW Hk Hv Hm HA cs locs E ND E2) as (loc & IL & L & V).
  destruct (Forall2_in_left _ _ _ _ F IL) as (r & Er & (_ & R)).
  rewrite U2, U3, (turned_text g k m ox oy v d t loc HW HR L V) in R. destruct r as [t'|e]; [|discriminate]. injection R as <-.
  exact Er.
Qed.

Theorem C62_one cs : find_candidates g = Ok cs -> none_in_the_way m (turned_corners k m ox oy v) cs -> length cs = 3%nat -> decode dec img = Ok [inl t].
Proof.
  intros E ND H3. apply C39_one_each. destruct HU as (U1 & U2 & U3). pose proof HR as (Hk & Hv & Hm & HA & _).
  destruct (C62_only g k m ox oy v d HW Hk Hv Hm HA cs E ND H3) as (loc & EL & L & V). exists g, [loc]. split; [exact HP|]. split; [now rewrite U1|].
  constructor; [|constructor]. pose proof (turned_text g k m ox oy v d t loc HW HR L V) as T. split; rewrite U2; [|rewrite U3; exact T].
  intros p EP. rewrite EP in T. discriminate.
Qed.
End Text.

(** *** C63: all symbols of a picture *)
Record placed_symbol := Placed { s_turn : nat; s_module : Z; s_x : Z; s_y : Z; s_version : Z; s_modules : matrix; s_text : list N }.
Definition is_readable (g : gray) (s : placed_symbol) : Prop := readable g (s_turn s) (s_module s) (s_x s) (s_y s) (s_version s) (s_modules s) (s_text s).
Definition corners_in (s : placed_symbol) : list (Z * Z) := turned_corners (s_turn s) (s_module s) (s_x s) (s_y s) (s_version s).

Theorem C63_all {D : Type} (dec : decoder D gray (list N)) (img : D) g syms cs rs : usual dec -> wf_gray g -> d_prepare dec img = Ok g ->
  Forall (is_readable g) syms -> find_candidates g = Ok cs -> Forall (fun s => none_in_the_way (s_module s) (corners_in s) cs) syms ->
  decode dec img = Ok rs -> incl (map (fun s => inl (s_text s)) syms) rs.
Proof.
  intros HU HW HP HR E ND ER r Hr. apply in_map_iff in Hr as (s & <- & Hs). rewrite Forall_forall in HR, ND.
  exact (C62_among dec img g HU HW HP _ _ _ _ _ _ _ (HR s Hs) cs rs E (ND s Hs) ER).
Qed.

(** a page: a raster of modules [page column row], [m] pixels each.  A symbol on it with its upper left
    module in column [cx] and row [cy], white modules around it as far as three modules away, and, left of
    each of its finder patterns, no run of more than ten modules in the row through its third row, but for
    the paper at the beginning of the row *)
Definition on_page (N : Z) (page : matrix) (k : nat) (cx cy v : Z) (d : matrix) : Prop :=
  let n := side_of v in
  0 <= cx /\ 0 <= cy /\ cx + n <= N /\ cy + n <= N /\
  (forall r c, 0 <= r < n -> 0 <= c < n -> page (cx + c) (cy + r) = turned k n (fun r c => d c r) r c) /\
  (forall x y, 0 <= x < N -> 0 <= y < N -> cx - 3 <= x < cx + n + 3 -> cy - 3 <= y < cy + n + 3 ->
     ~ (cx <= x < cx + n /\ cy <= y < cy + n) -> page x y = false) /\
  finder_corners n (fun r c => d c r) /\
  forall r c, In (r, c) (finder_centres n) -> forall x, 0 <= x -> x + 11 <= cx + snd (place_of k n r c) - 3 ->
    let y := cy + fst (place_of k n r c) - 1 in
    (if x =? 0 then false else page (x - 1) y) <> page x y -> exists j, 0 < j <= 10 /\ page (x + j) y <> page x y.

Lemma page_symbol w h m ox oy V page k cx cy v d : (k < 4)%nat -> 2 <= m -> 0 <= ox -> 0 <= oy -> 1 <= V -> 1 <= v <= 40 ->
  ox + side_of V * m < w -> oy + side_of V * m <= h -> w <= 2 ^ 26 -> h <= 2 ^ 26 ->
  on_page (side_of V) page k cx cy v d -> symbol_in (painted w h m ox oy V page) k m (ox + cx * m) (oy + cy * m) v d.
Proof.
  intros Hk Hm Hx Hy HV Hv Ww Wh W2 H2 (X0 & Y0 & XN & YN & HD & HQ & HF & HR).
  set (n := side_of v) in *. set (N := side_of V) in *. assert (NV : n = 17 + 4 * v) by (unfold n, side_of; lia).
  assert (M1 : 0 <= cx * m /\ 0 <= cy * m /\ cx * m + n * m <= N * m /\ cy * m + n * m <= N * m) by nia.
  assert (W1 : 0 <= N * m) by nia. assert (HW : wf_gray (painted w h m ox oy V page)) by (apply painted_wf; unfold u32_max; lia).
  split; [|split; [exact HF|split; [|split; [cbn [painted image_of gw]; fold n; lia|split; [exact W2|split; [exact H2|]]]]]].
  - split; [lia|]. split; [lia|]. split; [lia|]. fold n. intros r c i j Hr Hc Hi Hj. unfold pixel.
    replace (ox + cx * m + c * m + i) with (ox + (cx + c) * m + i) by ring. replace (oy + cy * m + r * m + j) with (oy + (cy + r) * m + j) by ring.
    rewrite painted_inside by (fold N; lia). now rewrite HD.
  - fold n. intros x y u Px Py Ix Iy HO P. pose proof (pixel_inside _ _ _ _ P) as [Lx Ly]. cbn [painted image_of gw gh] in Lx, Ly. unfold pixel in P.
    destruct (painted_cases w h m ox oy V x y) as [O|(c & r & i & j & Hc & Hr & Hi & Hj & -> & ->)]; try (fold N; lia).
    + rewrite painted_outside in P by (auto; lia). now injection P.
    + rewrite painted_inside in P by (fold N; lia). fold N in Hc, Hr.
      assert (cx - 3 <= c < cx + n + 3) by (apply (in_modules m _ _ _ i Hi); lia). assert (cy - 3 <= r < cy + n + 3) by (apply (in_modules m _ _ _ j Hj); lia).
      rewrite (HQ c r) in P; [now injection P|lia..|]. intros [A B]. apply HO.
      pose proof (proj2 (in_modules m cx (cx + n) c i Hi) A). pose proof (proj2 (in_modules m cy (cy + n) r j Hj) B). lia.
  - intros fx fy HI. unfold turned_corners in HI. fold n in HI. apply in_map_iff in HI as ((r & c) & E & HI). cbn [fst snd] in E. injection E as <- <-.
    assert (HE := turned_ends k n r c Hk). specialize (HR r c HI). cbv zeta in HR.
    assert (HC : (r = 3 \/ r = n - 4) /\ (c = 3 \/ c = n - 4)) by (cbn [finder_centres In] in HI; destruct HI as [E|[E|[E|[]]]]; injection E as <- <-; lia).
    destruct HC as [C1 C2]. destruct (HE C1 C2) as [E1 E2]. unfold corner_x, corner_y.
    set (R := fst (place_of k n r c)) in *. set (C := snd (place_of k n r c)) in *.
    replace (oy + cy * m + (R - 3) * m + 2 * m) with (oy + (cy + R - 1) * m) by ring. replace (ox + cx * m + (C - 3) * m) with (ox + (cx + C - 3) * m) by ring.
    assert (RB : 0 <= (cy + R - 1) * m /\ (cy + R - 1) * m + m <= N * m) by nia.
    assert (PX : forall x, 0 <= x < w -> get_pixel (painted w h m ox oy V page) x (oy + (cy + R - 1) * m) = Ok (pix (painted w h m ox oy V page) x (oy + (cy + R - 1) * m))).
    { intros x Hx'. apply get_pixel_pix; auto; cbn [painted image_of gh]; lia. }
    apply (row_fits _ m ox N (fun x => page x (cy + R - 1))); try lia; [| |exact HR].
    + intros x Hx'. specialize (PX x ltac:(lia)). rewrite painted_outside in PX by lia. now injection PX.
    + intros c' i Hc Hi. assert (c' * m + m <= N * m) by nia. assert (0 <= c' * m) by (apply Z.mul_nonneg_nonneg; lia). specialize (PX (ox + c' * m + i) ltac:(lia)).
      replace (oy + (cy + R - 1) * m) with (oy + (cy + R - 1) * m + 0) in PX by lia. rewrite painted_inside in PX by (fold N; lia).
      rewrite Z.add_0_r in PX. now injection PX.
Qed.

(** the symbols of a page, (turn, column, row, version, modules, text) *)
Record page_entry := Entry { e_turn : nat; e_column : Z; e_row : Z; e_version : Z; e_modules : matrix; e_text : list N }.
Definition entry_ok (N : Z) (page : matrix) (e : page_entry) : Prop :=
  (e_turn e < 4)%nat /\ 1 <= e_version e <= 40 /\ on_page N page (e_turn e) (e_column e) (e_row e) (e_version e) (e_modules e) /\
  (e_version e = 1 \/ bottom_right_alignment (side_of (e_version e)) (fun r c => e_modules e c r)) /\ holds_text (e_version e) (e_modules e) (e_text e).
Definition entry_corners (m ox oy : Z) (e : page_entry) : list (Z * Z) :=
  turned_corners (e_turn e) m (ox + e_column e * m) (oy + e_row e * m) (e_version e).

Lemma entry_readable w h m ox oy V page e : 2 <= m -> 0 <= ox -> 0 <= oy -> 1 <= V ->
  ox + side_of V * m < w -> oy + side_of V * m <= h -> w <= 2 ^ 26 -> h <= 2 ^ 26 -> entry_ok (side_of V) page e ->
  readable (painted w h m ox oy V page) (e_turn e) m (ox + e_column e * m) (oy + e_row e * m) (e_version e) (e_modules e) (e_text e).
Proof.
  intros Hm Hx Hy HV Ww Wh W2 H2 (Hk & Hv & HO & HA & HT). split; [exact Hk|]. split; [exact Hv|]. split; [lia|]. split; [|now split]. now apply page_symbol.
Qed.

(** the default decoder reads all symbols of a page with at least five pixels per module and a margin of
    at least ten pixels *)
Theorem C63_page {D : Type} (to_gray : D -> gray) (img : D) w h m ox oy V page es cs dec :
  to_gray img = painted w h m ox oy V page -> 5 <= m -> 1 <= V -> 10 <= ox -> 10 <= oy -> ox + side_of V * m + 10 <= w -> oy + side_of V * m + 10 <= h ->
  w <= 2 ^ 26 -> h <= 2 ^ 26 -> w * h <= 2 ^ 36 -> Forall (entry_ok (side_of V) page) es ->
  find_candidates (painted w h m ox oy V page) = Ok cs -> Forall (fun e => none_in_the_way m (entry_corners m ox oy e) cs) es ->
  default_decoder to_gray = Ok dec ->
  (forall rs, decode dec img = Ok rs -> incl (map (fun e => inl (e_text e)) es) rs) /\
  (forall e, es = [e] -> length cs = 3%nat -> decode dec img = Ok [inl (e_text e)]).
Proof.
  intros EI Hm HV Hx Hy Ww Wh W2 H2 WH HE E ND HD. assert (SP : 0 <= side_of V * m) by (unfold side_of; nia).
  assert (HW : wf_gray (painted w h m ox oy V page)) by (apply painted_wf; unfold u32_max; lia).
  assert (HP : prepare default_prepare (to_gray img) = Ok (painted w h m ox oy V page)) by (rewrite EI; apply C57_symbol; unfold u32_max; lia).
  assert (HU : usual dec) by (injection HD as <-; repeat split).
  assert (HP' : d_prepare dec img = Ok (painted w h m ox oy V page)) by (injection HD as <-; exact HP). clear HD. rewrite Forall_forall in HE, ND.
  assert (K : forall e, In e es -> readable (painted w h m ox oy V page) (e_turn e) m (ox + e_column e * m) (oy + e_row e * m) (e_version e) (e_modules e) (e_text e)).
  { intros e He. apply entry_readable; try lia. now apply HE. }
  split.
  - intros rs ER r Hr. apply in_map_iff in Hr as (e & <- & He). exact (C62_among dec img _ HU HW HP' _ _ _ _ _ _ _ (K e He) cs rs E (ND e He) ER).
  - intros e -> H3. exact (C62_one dec img _ HU HW HP' _ _ _ _ _ _ _ (K e (or_introl eq_refl)) cs E (ND e (or_introl eq_refl)) H3).
Qed.

(** candidates at the centres of finder patterns that are apart are not in the way of each other *)
Theorem C63_not_in_the_way m corners cs : 2 <= m ->
  (forall fx fy fx' fy', In (fx, fy) corners -> In (fx', fy') corners -> (fx, fy) = (fx', fy') \/ 9 * m <= Z.abs (fx - fx') \/ 9 * m <= Z.abs (fy - fy')) ->
  Forall (fun c => exists fx fy, In (fx, fy) corners /\ centre_found m fx fy c) cs -> none_in_the_way m corners cs.
Proof.
  intros Hm HS HF c fx fy Hc HI HW. rewrite Forall_forall in HF. destruct (HF c Hc) as (fx' & fy' & HI' & F).
  destruct (in_the_way_near m fx' fy' fx fy c Hm F HW) as [NX NY].
  destruct (HS fx fy fx' fy' HI HI') as [E|[E|E]]; [injection E as -> ->; exact F|lia|lia].
Qed.

(** *** examples *)
Definition upto (n : Z) : list Z := map Z.of_nat (seq 0 (Z.to_nat n)).
Lemma in_upto n z : 0 <= z < n -> In z (upto n).
Proof. intros H. apply in_map_iff. exists (Z.to_nat z). split; [lia|apply in_seq; lia]. Qed.
Definition check_page (N : Z) (page : matrix) (k : nat) (cx cy v : Z) (d : matrix) : bool :=
  let n := side_of v in
  (0 <=? cx) && (0 <=? cy) && (cx + n <=? N) && (cy + n <=? N) &&
  forallb (fun r => forallb (fun c => Bool.eqb (page (cx + c) (cy + r)) (turned k n (fun r c => d c r) r c)) (upto n)) (upto n) &&
  forallb (fun y => forallb (fun x => implb ((cx - 3 <=? x) && (x <? cx + n + 3) && (cy - 3 <=? y) && (y <? cy + n + 3) &&
    negb ((cx <=? x) && (x <? cx + n) && (cy <=? y) && (y <? cy + n))) (negb (page x y))) (upto N)) (upto N) &&
  check_corners n (fun r c => d c r) &&
  forallb (fun p => let y := cy + fst (place_of k n (fst p) (snd p)) - 1 in
    forallb (fun x => implb ((x + 11 <=? cx + snd (place_of k n (fst p) (snd p)) - 3) && negb (Bool.eqb (if x =? 0 then false else page (x - 1) y) (page x y)))
      (existsb (fun j => (0 <? j) && negb (Bool.eqb (page (x + j) y) (page x y))) (upto 11))) (upto (N + 11))) (finder_centres n).

Lemma check_page_ok N page k cx cy v d : (k < 4)%nat -> 1 <= v -> check_page N page k cx cy v d = true -> on_page N page k cx cy v d.
Proof.
  intros Hk Hv H. unfold check_page in H. cbv zeta in H. rewrite !andb_true_iff in H. destruct H as (((((((H1 & H2) & H3) & H4) & H5) & H6) & H7) & H8).
  apply Z.leb_le in H1, H2, H3, H4. unfold on_page. cbv zeta. set (n := side_of v) in *. assert (21 <= n) by (unfold n, side_of; lia).
  split; [lia|]. split; [lia|]. split; [lia|]. split; [lia|]. rewrite forallb_forall in H5, H6, H8. split; [|split; [|split]].
  - intros r c Hr Hc. specialize (H5 r (in_upto n r Hr)). rewrite forallb_forall in H5. apply Bool.eqb_prop, H5, in_upto, Hc.
  - intros x y Hx Hy Ix Iy HO. specialize (H6 y (in_upto N y Hy)). rewrite forallb_forall in H6. specialize (H6 x (in_upto N x Hx)).
    destruct (page x y); [|reflexivity]. exfalso. cbn [negb] in H6.
    destruct (Z.leb_spec (cx - 3) x); [|lia]. destruct (Z.ltb_spec x (cx + n + 3)); [|lia]. destruct (Z.leb_spec (cy - 3) y); [|lia]. destruct (Z.ltb_spec y (cy + n + 3)); [|lia].
    destruct (Z.leb_spec cx x); [destruct (Z.ltb_spec x (cx + n)); [destruct (Z.leb_spec cy y); [destruct (Z.ltb_spec y (cy + n))|]|]|]; try discriminate. apply HO. lia.
  - now apply check_corners_ok.
  - intros r c HI x Hx HX HC. specialize (H8 (r, c) HI). cbn [fst snd] in H8. rewrite forallb_forall in H8.
    assert (SE : snd (place_of k n r c) - 3 <= n - 7).
    { assert (C : (r = 3 \/ r = n - 4) /\ (c = 3 \/ c = n - 4)) by (cbn [finder_centres In] in HI; destruct HI as [E|[E|[E|[]]]]; injection E as <- <-; lia).
      destruct C as [C1 C2]. destruct (turned_ends k n r c Hk C1 C2). lia. }
    specialize (H8 x (in_upto (N + 11) x ltac:(lia))). set (y := cy + fst (place_of k n r c) - 1) in *.
    destruct (Z.leb_spec (x + 11) (cx + snd (place_of k n r c) - 3)); [|lia]. destruct (Bool.eqb (if x =? 0 then false else page (x - 1) y) (page x y)) eqn:EE; [apply Bool.eqb_prop in EE; contradiction|].
    cbn [negb andb implb] in H8. apply existsb_exists in H8 as (j & Hj & P). apply andb_true_iff in P as [P1 P2]. apply Z.ltb_lt in P1.
    exists j. apply in_map_iff in Hj as (jn & <- & Hj). apply in_seq in Hj. split; [change (Z.to_nat 11) with 11%nat in Hj; lia|]. intros E. rewrite E, Bool.eqb_reflx in P2. discriminate.
Qed.

Lemma hello_text : holds_text 1 modules_1 [72; 69; 76; 76; 79]%N.
Proof.
  exists M, 3%N, hello, [[72; 69; 76; 76; 79]%N], base_1. split; [reflexivity|]. split; [|split; [|split; [|split; [exact (proj1 modules_1_encoded)|split; [exact (proj2 modules_1_encoded)|reflexivity]]]]].
  - constructor; [|constructor]. apply encode_alnum_wf; [|vm_compute; reflexivity]. repeat (constructor; [vm_compute; tauto|]). constructor.
  - constructor; [|constructor]. split; [|vm_compute; reflexivity]. vm_compute. repeat constructor.
  - vm_compute. lia.
Qed.

(** candidates at the centres, in half pixels to the right and pixels down *)
Definition candidate_at (m x y : Z) : finder_pos := FP (Pt (fdiv (of_Z x) (of_Z 2)) (of_Z y)) (of_Z m) (of_Z 0).
Lemma candidate_centre m fx fy x y : 1 <= m <= 1000 -> 0 <= x <= 1000 -> 0 <= y <= 1000 -> x = 2 * fx + 7 * m -> y = fy + (7 * m - 1) / 2 -> centre_found m fx fy (candidate_at m x y).
Proof.
  intros Hm Hx Hy EX EY. apply at_centre_found. split; [apply fi_Z; unfold ib; lia|]. cbn [candidate_at fp_location px py]. rewrite <- EX, <- EY. split.
  - unfold hf. rewrite <- rnd_half by (unfold hb; lia). apply fin_fdiv; [apply fin_of_Z; lia|apply fin_of_Z; lia|lra|].
    apply half_big. unfold Rdiv. rewrite Rabs_mult, (Rabs_pos_eq (/ 2)), <- abs_IZR by lra. assert (K : Z.abs x <= 1000) by lia. apply IZR_le in K. lra.
  - exact (hf_Z y ltac:(unfold hb; lia)).
Qed.

(** the symbol of C60 turned once: the finder patterns are at the upper left, the upper right and the
    lower right *)
Definition turned_1 : matrix := fun c r => turned 1 21 (fun r c => modules_1 c r) r c.
Definition turned_paper : gray := painted 125 125 5 10 10 1 turned_1.
Definition turned_candidates : list finder_pos := [candidate_at 5 55 27; candidate_at 5 195 27; candidate_at 5 195 97].
Lemma turned_paper_found : find_candidates turned_paper = Ok turned_candidates.
Proof. vm_compute. reflexivity. Qed.

Example C62_example : exists dec, default_decoder (fun g => g) = Ok dec /\ decode dec turned_paper = Ok [inl [72; 69; 76; 76; 79]%N].
Proof.
  eexists. split; [reflexivity|]. set (e := Entry 1 0 0 1 modules_1 [72; 69; 76; 76; 79]%N).
  refine (proj2 (C63_page (fun g => g) turned_paper 125 125 5 10 10 1 turned_1 [e] turned_candidates _ eq_refl _ _ _ _ _ _ _ _ _ _ turned_paper_found _ eq_refl) e eq_refl eq_refl);
    try (unfold side_of; lia).
  - constructor; [|constructor]. split; [cbn; lia|]. split; [cbn; lia|]. split; [apply check_page_ok; [cbn; lia|cbn; lia|vm_compute; reflexivity]|]. split; [now left|exact hello_text].
  - constructor; [|constructor]. change (entry_corners 5 10 10 e) with [(80, 10); (80, 80); (10, 10)]. apply C63_not_in_the_way; [lia| |].
    + intros fx fy fx' fy' H H'. cbn [In] in H, H'. destruct H as [E|[E|[E|[]]]]; injection E as <- <-; destruct H' as [E|[E|[E|[]]]]; injection E as <- <-; (now left) || (right; lia).
    + unfold turned_candidates. constructor; [|constructor; [|constructor; [|constructor]]].
      * exists 10, 10. split; [cbn; auto|]. apply candidate_centre; (reflexivity || lia).
      * exists 80, 10. split; [cbn; auto|]. apply candidate_centre; (reflexivity || lia).
      * exists 80, 80. split; [cbn; auto|]. apply candidate_centre; (reflexivity || lia).
Qed.

(** two symbols side by side, the second one upside down, two pixels per module *)
Definition world : list raw := [encode_alnum [87; 79; 82; 76; 68]%N].
Definition bits_2 : list bool := Eval vm_compute in
  map (fun p => xorb (snd p) (mask_bit 3 (fst (fst p)) (snd (fst p))))
      (combine order_1 (bits (interleave (encode_blocks 1 M world)) ++ repeat false (Z.to_nat (data_module_count 1 mod 8)))).
Definition symbol_2 : list (list bool) := Eval vm_compute in
  let d := place order_1 bits_2 (draw_on 1 word_1 word_1 base_1) in
  map (fun y => map (fun x => d (Z.of_nat x) (Z.of_nat y)) (seq 0 21)) (seq 0 21).
Definition modules_2 : matrix := fun x y => nth (Z.to_nat x) (nth (Z.to_nat y) symbol_2 []) false.

Lemma world_text : holds_text 1 modules_2 [87; 79; 82; 76; 68]%N.
Proof.
  assert (HE : (forall x y, data_module 1 x y -> modules_2 x y = encode_symbol 1 M 3 world base_1 x y) /\ carries modules_2 copy1 (format_word M 3)).
  { apply (table_encodes 1 M 3 world base_1 modules_2 order_1 bits_2 word_1); [lia|vm_compute; reflexivity..]. }
  exists M, 3%N, world, [[87; 79; 82; 76; 68]%N], base_1. split; [reflexivity|]. split; [|split; [|split; [|split; [exact (proj1 HE)|split; [exact (proj2 HE)|reflexivity]]]]].
  - constructor; [|constructor]. apply encode_alnum_wf; [|vm_compute; reflexivity]. repeat (constructor; [vm_compute; tauto|]). constructor.
  - constructor; [|constructor]. split; [|vm_compute; reflexivity]. vm_compute. repeat constructor.
  - vm_compute. lia.
Qed.

Definition two_symbols : matrix := fun c r =>
  if c <? 21 then (r <? 21) && modules_1 c r else (25 <=? c) && (c <? 46) && (r <? 21) && turned 2 21 (fun r c => modules_2 c r) r (c - 25).
Definition pair_paper : gray := painted 100 98 2 1 0 8 two_symbols.
Definition pair_candidates : list finder_pos :=
  [candidate_at 2 16 6; candidate_at 2 72 6; candidate_at 2 172 6; candidate_at 2 16 34; candidate_at 2 116 34; candidate_at 2 172 34].
Lemma pair_found : find_candidates pair_paper = Ok pair_candidates.
Proof. vm_compute. reflexivity. Qed.
(** preparation that keeps the image *)
Definition plain_decoder : decoder gray gray (list N) := mkDecoder (fun g => Ok g) detect extract qr_decode.

Lemma pair_decoded : exists rs, decode plain_decoder pair_paper = Ok rs /\ length rs = 4%nat.
Proof. unfold decode, plain_decoder. cbn [d_prepare d_detect bind]. unfold detect. rewrite pair_found. cbn [bind]. eexists. split; [vm_compute; reflexivity|reflexivity]. Qed.

Lemma pair_apart : none_in_the_way 2 [(1, 0); (29, 0); (79, 0); (1, 28); (51, 28); (79, 28)] pair_candidates.
Proof.
  apply C63_not_in_the_way; [lia| |].
  - intros fx fy fx' fy' H H'. cbn [In] in H, H'.
    destruct H as [H|[H|[H|[H|[H|[H|[]]]]]]]; injection H as <- <-; destruct H' as [H|[H|[H|[H|[H|[H|[]]]]]]]; injection H as <- <-; (left; reflexivity) || (right; lia).
  - assert (C : forall fx fy, In (fx, fy) [(1, 0); (29, 0); (79, 0); (1, 28); (51, 28); (79, 28)] ->
      exists fx' fy', In (fx', fy') [(1, 0); (29, 0); (79, 0); (1, 28); (51, 28); (79, 28)] /\ centre_found 2 fx' fy' (candidate_at 2 (2 * fx + 14) (fy + 6))).
    { intros fx fy HI. exists fx, fy. split; [exact HI|]. cbn [In] in HI.
      destruct HI as [H|[H|[H|[H|[H|[H|[]]]]]]]; injection H as <- <-; apply candidate_centre; (reflexivity || lia). }
    unfold pair_candidates. constructor; [exact (C 1 0 ltac:(cbn; auto))|]. constructor; [exact (C 29 0 ltac:(cbn; auto))|]. constructor; [exact (C 79 0 ltac:(cbn; auto))|].
    constructor; [exact (C 1 28 ltac:(cbn; auto))|]. constructor; [exact (C 51 28 ltac:(cbn; auto 7))|]. constructor; [exact (C 79 28 ltac:(cbn; auto 7))|]. constructor.
Qed.

Example C63_example : exists rs, decode plain_decoder pair_paper = Ok rs /\
  In (inl [72; 69; 76; 76; 79]%N) rs /\ In (inl [87; 79; 82; 76; 68]%N) rs.
Proof.
  set (e1 := Entry 0 0 0 1 modules_1 [72; 69; 76; 76; 79]%N). set (e2 := Entry 2 25 0 1 modules_2 [87; 79; 82; 76; 68]%N).
  set (sym := fun e => Placed (e_turn e) 2 (1 + e_column e * 2) (0 + e_row e * 2) (e_version e) (e_modules e) (e_text e)).
  destruct pair_decoded as (rs & E & _). exists rs. split; [exact E|].
  assert (K : incl (map (fun s => inl (s_text s)) [sym e1; sym e2]) rs).
  { apply (C63_all plain_decoder pair_paper pair_paper [sym e1; sym e2] pair_candidates rs); [repeat split|apply painted_wf; unfold u32_max; lia|reflexivity| |exact pair_found| |exact E].
    - assert (R : forall e, entry_ok (side_of 8) two_symbols e -> is_readable pair_paper (sym e)).
      { intros e He. unfold is_readable, sym, pair_paper. cbn [s_turn s_module s_x s_y s_version s_modules s_text]. assert (S : side_of 8 = 49) by reflexivity. apply entry_readable; [lia..|exact He]. }
      apply Forall_cons; [|apply Forall_cons; [|apply Forall_nil]]; apply R; (split; [cbn; lia|]); (split; [cbn; lia|]).
      + split; [apply check_page_ok; [cbn; lia|cbn; lia|vm_compute; reflexivity]|]. split; [now left|exact hello_text].
      + split; [apply check_page_ok; [cbn; lia|cbn; lia|vm_compute; reflexivity]|]. split; [now left|exact world_text].
    - assert (A := pair_apart).
      apply Forall_cons; [|apply Forall_cons; [|apply Forall_nil]]; intros c fx fy Hc HI HW; apply (A c fx fy Hc); [|exact HW| |exact HW].
      + change (In (fx, fy) [(1, 0); (29, 0); (1, 28)]) in HI. cbn [In] in *. tauto.
      + change (In (fx, fy) [(79, 28); (51, 28); (79, 0)]) in HI. cbn [In] in *. tauto. }
  split; apply K; [now left|right; now left].
Qed.
