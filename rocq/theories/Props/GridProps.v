(** Distorted symbols: which pixels are read, and which alignment patterns are found: C64, C65, C66. *)
From Coq Require Import NArith ZArith Reals List Lia Lra Bool Arith Psatz.
From Verif.Model Require Import Prepare Detect Extract Pipeline.
From Flocq Require Import Core.
From Verif.Spec Require Import Bits Segments Symbol Layout Bridge Message Encoder Plane Drawing Perspective.
From Verif.Proofs Require Import BaseP PrepareP FloatP ApproxP DetectP ExtractP AlignP GridP EncodeP.
From Verif.Props Require Import PrepareProps DetectProps DecoderProps PipelineProps ExtractProps TurnProps WholeProps.
Import ListNotations.
Local Open Scope R_scope.

(** points with coordinates up to 2^22 *)
Definition within (p : vec) : Prop := 0 <= vx p <= 4194304 /\ 0 <= vy p <= 4194304.
(** an image up to that size and a location of version 2 or above in it *)
Definition located_in (g : gray) (loc : qrloc) (tl tr bl : vec) : Prop :=
  wf_gray g /\ (gw g <= 2 ^ 22)%Z /\ (gh g <= 2 ^ 22)%Z /\ (2 <= version loc <= 40)%Z /\
  corners_at loc tl tr bl /\ within tl /\ within tr /\ within bl.

(** where the middle of the alignment pattern would be without distortion, and from there *)
Definition around (n : Z) (tl tr bl : vec) (right down : R) : vec :=
  Vec (around_alignment n (vx tl) (vx tr) (vx bl) right down) (around_alignment n (vy tl) (vy tr) (vy bl) right down).

(** The decoder tries positions up to three halves of a module away, and patterns between 0.8 and 1.3
    times as large as expected. *)
Definition tries (a b j : Z) : Prop := (Z.abs a <= 3)%Z /\ (Z.abs b <= 3)%Z /\ In j [0; 1; -1; 2; -2; 3]%Z.
(** the module (row, column) of the pattern tried, counted from its middle *)
Definition tried_module (n : Z) (tl tr bl : vec) (a b j row column : Z) : vec :=
  around n tl tr bl (IZR a / 2 + IZR column * (1 + IZR j / 10)) (IZR b / 2 + IZR row * (1 + IZR j / 10)).

(** all modules of the pattern tried have their colour *)
Definition pattern_shown (g : gray) (n : Z) (tl tr bl : vec) (a b j : Z) : Prop := forall row column, (-2 <= row <= 2)%Z -> (-2 <= column <= 2)%Z ->
  let p := tried_module n tl tr bl a b j row column in
  / 64 <= vx p /\ / 64 <= vy p /\ clearly (pixel g) (vx p) (vy p) (if ring_dark row column then 0%N else 255%N).

(** the modules around the middle that the decoder looks at; missing are the two corners on the left, the
    modules below the upper corners, and the three modules of the ring on the right of the middle *)
Definition looked_at : list (Z * Z) := (* row, column *)
  [(-2, 2); (2, 2); (-2, 1); (2, 1); (-2, 0); (2, 0); (-2, -1); (2, -1);
   (1, -2); (1, 2); (1, -1); (-1, -1); (0, -2); (0, 2); (0, -1); (-1, 0); (1, 0)]%Z.
(** ... do not have the wrong colour, and the middle is black *)
Definition may_pass (g : gray) (n : Z) (tl tr bl : vec) (a b j : Z) (x y : Z) : Prop :=
  (forall row column, In (row, column) looked_at -> let p := tried_module n tl tr bl a b j row column in
     exists v, seen (pixel g) (vx p) (vy p) v /\ v <> (if ring_dark row column then 255%N else 0%N)) /\
  (let p := tried_module n tl tr bl a b j 0 0 in holds_point (vx p) (vy p) x y) /\ pixel g x y = Some 0%N.

(** the centre (cx, cy) measured from the pixel (x, y): half way between the white pixels on the left
    and on the right, and from there half way between those above and below *)
Definition measured (g : gray) (x y : Z) (cx cy : R) : Prop := exists l r x' t u,
  run_between (fun z => pixel g z y = Some 255%N) (gw g) x l r /\ cx = IZR (l + r) / 2 /\
  (2 * x' = l + r \/ 2 * x' = l + r + 1)%Z /\
  run_between (fun z => pixel g x' z = Some 255%N) (gh g) y t u /\ cy = IZR (t + u) / 2.

(** the map from the modules (row, column) to the image *)
Definition bilinear_map (n : Z) (tl tr bl al : vec) (fx fy : R -> R -> R) : Prop :=
  bilinear fx /\ bilinear fy /\ through n fx (vx tl) (vx tr) (vx bl) (vx al) /\ through n fy (vy tl) (vy tr) (vy bl) (vy al).

(** the positions tried lie in the image (or beyond its left and upper edges) *)
Definition search_in_image (g : gray) (n : Z) (tl tr bl : vec) : Prop := (2 <= gw g)%Z /\ (2 <= gh g)%Z /\
  forall right down, Rabs right <= 41 / 10 -> Rabs down <= 41 / 10 ->
    vx (around n tl tr bl right down) <= IZR (gw g) - 1 /\ vy (around n tl tr bl right down) <= IZR (gh g) - 1.

(** *** glue *)
Lemma around_expected n t q b s d : (25 <= n)%Z -> around_alignment n t q b s d = expected n t q b + s * DX n t q + d * DY n t b.
Proof.
  intros Hn. assert (N : 25 <= IZR n) by now apply IZR_le. unfold around_alignment, module_step, expected, DX, DY. rewrite !minus_IZR. field. lra.
Qed.
Lemma tried_probe n tl tr bl a b j i k : (25 <= n)%Z ->
  vx (tried_module n tl tr bl a b j k i) = probe n (vx tl) (vx tr) (vx bl) a b j i k /\ vy (tried_module n tl tr bl a b j k i) = probe n (vy tl) (vy tr) (vy bl) a b j i k.
Proof. intros Hn. unfold tried_module, around, probe, tried, scaled. cbn [vx vy]. rewrite !around_expected by assumption. split; lra. Qed.

Section Located.
Context (g : gray) (loc : qrloc) (tl tr bl : vec) (HL : located_in g loc tl tr bl).
Notation n := (side_of (version loc)).

Lemma n_range : (25 <= n <= 177)%Z.
Proof. destruct HL as (_ & _ & _ & V & _). unfold side_of. lia. Qed.
Lemma n_version : n = (17 + 4 * version loc)%Z.
Proof. unfold side_of. lia. Qed.

Lemma passes_of a b j p : accepted g n loc (vx tl) (vy tl) (vx tr) (vy tr) (vx bl) (vy bl) a b j p ->
  tries a b j /\ may_pass g n tl tr bl a b j (round_u32 (px p)) (round_u32 (py p)).
Proof.
  destruct HL as (HW & WG & HG & HV & ([F1 F2] & [F3 F4] & [F5 F6]) & [H1 H2] & [H3 H4] & [H5 H6]). pose proof n_range as HN.
  intros (Ha & Hb & Hj & AT & IA). split; [now split|].
  destruct (accepted_sound g n HN loc _ _ _ _ _ _ F1 F2 F3 F4 F5 F6 H1 H2 H3 H4 H5 H6 a b j p Ha Hb (scales_small j Hj) AT IA) as [A B].
  split; [|split].
  - intros row column HI. cbv zeta. destruct (tried_probe n tl tr bl a b j column row ltac:(lia)) as [-> ->].
    destruct (A row column) as (v & V1 & V2).
    + unfold looked_at in HI. unfold tested. cbn [In] in *. tauto.
    + exists v. split; [exact V2|]. destruct (ring_dark row column); exact V1.
  - cbv zeta. destruct (tried_probe n tl tr bl a b j 0 0 ltac:(lia)) as [-> ->].
    assert (U : u24 = / 16777216 /\ slack = / 64) by (split; reflexivity). destruct AT as [T1 T2].
    destruct (probe_small n HN loc _ _ _ _ _ _ F1 F2 F3 F4 F5 F6 H1 H2 H3 H4 H5 H6 a b j 0 0 Ha Hb (scales_small j Hj) ltac:(lia) ltac:(lia)) as [P1 P2].
    split; (apply round_holds; [|assumption]); unfold probe; (eapply apx_weaken; [eapply apx_eq; [eassumption|lra]|lra]).
  - unfold pixel. now rewrite B.
Qed.

Lemma measured_of x y l r x' t u : centred_at g x y l r x' t u -> measured g x y (IZR (l + r) / 2) (IZR (t + u) / 2).
Proof. intros (A & B & C). exists l, r, x', t, u. auto. Qed.

(** *** C64 *)
Theorem C64_sampling q : extract g loc = Ok q -> exists a b j x y al fx fy,
  tries a b j /\ may_pass g n tl tr bl a b j x y /\ measured g x y (vx al) (vy al) /\ bilinear_map n tl tr bl al fx fy /\
  forall row column, (row < Z.to_nat n)%nat -> (column < Z.to_nat n)%nat ->
    exists v, nth_error (qdata q) (row * Z.to_nat n + column) = Some v /\ seen (pixel g) (fx (INR row) (INR column)) (fy (INR row) (INR column)) v.
Proof.
  pose proof HL as (HW & WG & HG & HV & ([F1 F2] & [F3 F4] & [F5 F6]) & [H1 H2] & [H3 H4] & [H5 H6]). pose proof n_range as HN.
  intros E. destruct (extract_sound g HW WG HG n HN loc _ _ _ _ _ _ F1 F2 F3 F4 F5 F6 H1 H2 H3 H4 H5 H6 n_version q E)
    as (a & b & j & p & l & r & x' & t & u & AC & _ & CA & _ & _ & SEEN).
  destruct (passes_of a b j p AC) as [TR MP]. exists a, b, j, (round_u32 (px p)), (round_u32 (py p)), (Vec (IZR (l + r) / 2) (IZR (t + u) / 2)). cbn [vx vy].
  exists (plane (vx tl) (DX n (vx tl) (vx tr)) (bend n (vx tl) (vx tr) (vx bl) (IZR (l + r) / 2)) (DY n (vx tl) (vx bl))),
    (plane (vy tl) (DX n (vy tl) (vy tr)) (bend n (vy tl) (vy tr) (vy bl) (IZR (t + u) / 2)) (DY n (vy tl) (vy bl))).
  split; [exact TR|]. split; [exact MP|]. split; [now apply (measured_of _ _ l r x' t u)|]. split; [|exact SEEN].
  split; [apply plane_bilinear|]. split; [apply plane_bilinear|]. cbn [vx vy]. split; apply plane_through; lia.
Qed.

(** there is only one such map *)
Theorem C64_unique al fx fy fx' fy' : bilinear_map n tl tr bl al fx fy -> bilinear_map n tl tr bl al fx' fy' ->
  forall row column, fx row column = fx' row column /\ fy row column = fy' row column.
Proof.
  pose proof n_range as HN. intros (A1 & A2 & A3 & A4) (B1 & B2 & B3 & B4) row column.
  rewrite (bilinear_unique n fx _ _ _ _ ltac:(lia) A1 A3), (bilinear_unique n fx' _ _ _ _ ltac:(lia) B1 B3).
  rewrite (bilinear_unique n fy _ _ _ _ ltac:(lia) A2 A4), (bilinear_unique n fy' _ _ _ _ ltac:(lia) B2 B4). auto.
Qed.

Lemma shown_pattern a b j : pattern_shown g n tl tr bl a b j -> pattern_at g n (vx tl) (vy tl) (vx tr) (vy tr) (vx bl) (vy bl) a b j.
Proof.
  pose proof n_range as HN. intros H k i Hk Hi. specialize (H k i Hk Hi). cbv zeta in H. destruct (tried_probe n tl tr bl a b j i k ltac:(lia)) as [E1 E2]. rewrite E1, E2 in H. exact H.
Qed.

Lemma inside_search : search_in_image g n tl tr bl -> search_inside g n (vx tl) (vy tl) (vx tr) (vy tr) (vx bl) (vy bl).
Proof.
  pose proof n_range as HN. intros (_ & _ & H) s t Hs Ht. specialize (H s t Hs Ht). unfold around in H. cbn [vx vy] in H. rewrite !around_expected in H by lia. exact H.
Qed.

(** the decision that every sample lies in the image *)
Lemma accepted_range a b j p : accepted g n loc (vx tl) (vy tl) (vx tr) (vy tr) (vx bl) (vy bl) a b j p ->
  (0 <= round_u32 (px p) < gw g)%Z /\ (0 <= round_u32 (py p) < gh g)%Z.
Proof.
  pose proof HL as (HW & WG & HG & HV & ([F1 F2] & [F3 F4] & [F5 F6]) & [H1 H2] & [H3 H4] & [H5 H6]). pose proof n_range as HN.
  intros (Ha & Hb & Hj & AT & IA). destruct (accepted_sound g n HN loc _ _ _ _ _ _ F1 F2 F3 F4 F5 F6 H1 H2 H3 H4 H5 H6 a b j p Ha Hb (scales_small j Hj) AT IA) as [_ PX].
  destruct AT as [(c1 & C1 & _) (c2 & C2 & _)]. pose proof PX as PX'. apply get_pixel_in in PX'; auto;
      rewrite ?(round_u32_R _ _ C1), ?(round_u32_R _ _ C2) in *; unfold u32_max in *; lia.
Qed.

Theorem C64_exact a b j al fx fy d : search_in_image g n tl tr bl -> tries a b j -> pattern_shown g n tl tr bl a b j ->
  (forall a' b' j' x y cx cy, tries a' b' j' -> may_pass g n tl tr bl a' b' j' x y -> measured g x y cx cy -> cx = vx al /\ cy = vy al) ->
  bilinear_map n tl tr bl al fx fy ->
  (forall row column, (row < Z.to_nat n)%nat -> (column < Z.to_nat n)%nat -> 
     clearly (pixel g) (fx (INR row) (INR column)) (fy (INR row) (INR column)) (colour (d (Z.of_nat column) (Z.of_nat row)))) ->
  exists q, extract g loc = Ok q /\ shows (version loc) d q.
Proof.
  pose proof HL as (HW & WG & HG & HV & ([F1 F2] & [F3 F4] & [F5 F6]) & [H1 H2] & [H3 H4] & [H5 H6]). pose proof n_range as HN.
  intros SI (Ha & Hb & Hj) PS ONE (B1 & B2 & T1 & T2) MOD. pose proof SI as (W2 & G2 & _). apply inside_search in SI. apply shown_pattern in PS.
  destruct (found g HW WG HG n HN loc _ _ _ _ _ _ F1 F2 F3 F4 F5 F6 H1 H2 H3 H4 H5 H6 SI W2 G2 a b j Ha Hb Hj PS) as (a' & b' & j' & p & EF & AC).
  destruct (accepted_range a' b' j' p AC) as [RX RY]. destruct (centre_total g HW WG p RX RY W2) as (al' & EA).
  destruct (centre_sound g WG HG n HN _ _ _ _ _ _ H1 H2 H3 H4 H5 H6 p al' RX RY EA) as (l & r & x' & t & u & CA & G1 & G2' & M1 & M2).
  destruct (passes_of a' b' j' p AC) as [TR MP]. destruct (ONE _ _ _ _ _ _ _ TR MP (measured_of _ _ _ _ _ _ _ CA)) as [E1 E2].
  eexists. split.
  - apply (extract_complete g n HN loc _ _ _ _ _ _ F1 F2 F3 F4 F5 F6 H1 H2 H3 H4 H5 H6 n_version p al' _ _ (fun r c => colour (d (Z.of_nat c) (Z.of_nat r))) EF EA G1 G2' M1 M2).
    intros row column Hr Hc. specialize (MOD row column Hr Hc). unfold grid_x2, grid_y2.
    rewrite (bilinear_unique n fx _ _ _ _ ltac:(lia) B1 T1), (bilinear_unique n fy _ _ _ _ ltac:(lia) B2 T2) in MOD. rewrite E1, E2. exact MOD.
  - apply rows_show; [lia|reflexivity].
Qed.

Theorem C64_text a b j al fx fy d text : search_in_image g n tl tr bl -> tries a b j -> pattern_shown g n tl tr bl a b j ->
  (forall a' b' j' x y cx cy, tries a' b' j' -> may_pass g n tl tr bl a' b' j' x y -> measured g x y cx cy -> cx = vx al /\ cy = vy al) ->
  bilinear_map n tl tr bl al fx fy ->
  (forall row column, (row < Z.to_nat n)%nat -> (column < Z.to_nat n)%nat -> 
     clearly (pixel g) (fx (INR row) (INR column)) (fy (INR row) (INR column)) (colour (d (Z.of_nat column) (Z.of_nat row)))) ->
  holds_text (version loc) d text -> qr_decode (extract g loc) = Ok text.
Proof.
  intros SI TR PS ONE BM MOD (l & mask & segs & texts & base & Hm & HS & HT & HF & HE & HC & ->).
  destruct (C64_exact a b j al fx fy d SI TR PS ONE BM MOD) as (q & -> & S). assert (1 <= version loc <= 40)%Z by (destruct HL as (_ & _ & _ & V & _); lia). eapply C30_roundtrip; eauto.
Qed.

(** *** C51 *)
(** For versions above 1: when the search for the alignment pattern stays in the image, the only cause of
    a panic is a module that is mapped beyond the right or lower edge. *)
Theorem C51_distorted_partial e : search_in_image g n tl tr bl -> extract g loc = Panic e -> exists a b j x y al fx fy,
  tries a b j /\ may_pass g n tl tr bl a b j x y /\ measured g x y (vx al) (vy al) /\ bilinear_map n tl tr bl al fx fy /\
  exists row column, (row < Z.to_nat n)%nat /\ (column < Z.to_nat n)%nat /\
    (IZR (gw g) - / 2 - / 64 <= fx (INR row) (INR column) \/ IZR (gh g) - / 2 - / 64 <= fy (INR row) (INR column)).
Proof.
  pose proof HL as (HW & WG & HG & HV & ([F1 F2] & [F3 F4] & [F5 F6]) & [H1 H2] & [H3 H4] & [H5 H6]). pose proof n_range as HN.
  intros SI E. pose proof SI as (W2 & G2 & _). apply inside_search in SI.
  destruct (search_total g HW n HN loc _ _ _ _ _ _ F1 F2 F3 F4 F5 F6 H1 H2 H3 H4 H5 H6 SI W2 G2) as (f & EF).
  rewrite (extract_steps g n HN loc n_version) in E. destruct f as [p|].
  2:{ unfold determine_perspective in E. rewrite sub_Z_ok in E by lia. cbn [bind] in E.
      destruct (Z.eqb_spec (version loc) 1) as [V1|V1]; [lia|]. rewrite sub_Z_ok in E by lia. cbn [bind] in E. fold (dX2 n loc) (dY2 n loc) in E. fold (est2 n loc) in E.
      rewrite EF in E. discriminate. }
  destruct (find_in _ _ _ _ _ EF) as (s & HI & IA). 
  destruct (search_sound n HN loc _ _ _ _ _ _ F1 F2 F3 F4 F5 F6 H1 H2 H3 H4 H5 H6 _ _ HI) as (a & b & j & Ha & Hb & Hj & -> & AT).
  assert (AC : accepted g n loc (vx tl) (vy tl) (vx tr) (vy tr) (vx bl) (vy bl) a b j p) by exact (conj Ha (conj Hb (conj Hj (conj AT IA)))).
  destruct (accepted_range a b j p AC) as [RX RY]. destruct (centre_total g HW WG p RX RY W2) as (al & EA).
  destruct (centre_sound g WG HG n HN _ _ _ _ _ _ H1 H2 H3 H4 H5 H6 p al RX RY EA) as (l & r & x' & t & u & CA & G1 & G2' & M1 & M2).
  destruct (passes_of a b j p AC) as [TR MP]. exists a, b, j, (round_u32 (px p)), (round_u32 (py p)), (Vec (IZR (l + r) / 2) (IZR (t + u) / 2)). cbn [vx vy].
  exists (plane (vx tl) (DX n (vx tl) (vx tr)) (bend n (vx tl) (vx tr) (vx bl) (IZR (l + r) / 2)) (DY n (vx tl) (vx bl))),
    (plane (vy tl) (DX n (vy tl) (vy tr)) (bend n (vy tl) (vy tr) (vy bl) (IZR (t + u) / 2)) (DY n (vy tl) (vy bl))).
  split; [exact TR|]. split; [exact MP|]. split; [now apply (measured_of _ _ l r x' t u)|].
  split; [split; [apply plane_bilinear|]; split; [apply plane_bilinear|]; cbn [vx vy]; split; apply plane_through; lia|].
  rewrite (perspective_complete g n HN loc n_version p al EF EA) in E. cbn [bind pdx pddx pdy pddy] in E.
  set (ok := fun r c : nat => ((round_u32 (px (sample_at n loc al r c)) <? gw g) && (round_u32 (py (sample_at n loc al r c)) <? gh g))%Z).
  destruct (forallb (fun r => forallb (ok r) (seq 0 (Z.to_nat n))) (seq 0 (Z.to_nat n))) eqn:EO.
  - exfalso. rewrite forallb_forall in EO.
    assert (GP : forall r c, (r < Z.to_nat n)%nat -> (c < Z.to_nat n)%nat -> get_pixel g (round_u32 (px (sample_at n loc al r c))) (round_u32 (py (sample_at n loc al r c)))
      = Ok (pix g (round_u32 (px (sample_at n loc al r c))) (round_u32 (py (sample_at n loc al r c))))).
    { intros r0 c0 Hr Hc. specialize (EO r0 ltac:(apply in_seq; lia)). rewrite forallb_forall in EO. specialize (EO c0 ltac:(apply in_seq; lia)).
      unfold ok in EO. apply andb_prop in EO. destruct EO as [O1 O2]. apply Z.ltb_lt in O1, O2. apply get_pixel_pix; auto; split; auto;
      destruct (sample_near n HN loc _ _ _ _ _ _ F1 F2 F3 F4 F5 F6 H1 H2 H3 H4 H5 H6 al _ _ G1 G2' M1 M2 r0 c0 Hr Hc) as [S1 S2];
      destruct (grid2_small n HN _ _ _ _ _ _ H1 H2 H3 H4 H5 H6 _ _ M1 M2 r0 c0 Hr Hc) as [L1 L2]; [exact (proj1 (round_holds _ _ S1 L1))|exact (proj1 (round_holds _ _ S2 L2))]. }
    rewrite (sample_rows_ok g _ (fun r c => pix g (round_u32 (px (sample_at n loc al r c))) (round_u32 (py (sample_at n loc al r c))))) in E; [discriminate|].
    intros r0 c0 Hr Hc. exact (GP r0 c0 Hr Hc).
  - assert (EX : exists r0 c0, (r0 < Z.to_nat n)%nat /\ (c0 < Z.to_nat n)%nat /\ ok r0 c0 = false).
    { apply Bool.not_true_iff_false in EO. rewrite forallb_forall in EO.
      destruct (List.existsb (fun r => List.existsb (fun c => negb (ok r c)) (seq 0 (Z.to_nat n))) (seq 0 (Z.to_nat n))) eqn:EB.
      - apply existsb_exists in EB. destruct EB as (r0 & I1 & EB). apply existsb_exists in EB. destruct EB as (c0 & I2 & EB). apply in_seq in I1, I2.
        exists r0, c0. split; [lia|]. split; [lia|]. now apply negb_true_iff.
      - exfalso. apply EO. intros r0 I1. apply forallb_forall. intros c0 I2. destruct (ok r0 c0) eqn:O; auto. exfalso.
        apply Bool.not_true_iff_false in EB. apply EB. apply existsb_exists. exists r0. split; auto. apply existsb_exists. exists c0. split; auto. now rewrite O. }
    destruct EX as (r0 & c0 & Hr & Hc & O). exists r0, c0. split; [exact Hr|]. split; [exact Hc|].
    destruct (sample_near n HN loc _ _ _ _ _ _ F1 F2 F3 F4 F5 F6 H1 H2 H3 H4 H5 H6 al _ _ G1 G2' M1 M2 r0 c0 Hr Hc) as [S1 S2].
    destruct (grid2_small n HN _ _ _ _ _ _ H1 H2 H3 H4 H5 H6 _ _ M1 M2 r0 c0 Hr Hc) as [L1 L2].
    destruct (round_holds _ _ S1 L1) as [P1 Q1]. destruct (round_holds _ _ S2 L2) as [P2 Q2]. apply Rabs_le_inv in Q1, Q2.
    assert (MX : forall z w, 2 <= w -> w - / 2 - / 64 <= Rmax 0 z -> w - / 2 - / 64 <= z) by (intros z w Hw; unfold Rmax; destruct (Rle_dec 0 z); lra).
    assert (GW : 2 <= IZR (gw g) /\ 2 <= IZR (gh g)) by (split; now apply IZR_le). destruct GW as [GW GH].
    unfold ok in O. apply andb_false_iff in O. destruct O as [O|O]; apply Z.ltb_ge in O; apply IZR_le in O; [left|right]; apply MX; auto; unfold grid_x2, grid_y2 in *; lra.
Qed.

(** *** C65 *)
Lemma no_alignment e : extract g loc = Err e -> find_alignment g (dX2 n loc) (dY2 n loc) (search_points (est2 n loc) (dX2 n loc) (dY2 n loc)) = Ok None.
Proof.
  pose proof n_range as HN. assert (version loc <> 1)%Z by (destruct HL as (_ & _ & _ & V & _); lia).
  assert (GP : forall x y e', get_pixel g x y <> Err e').
  { intros x y e' E. unfold get_pixel in E. destruct (_ && _); [|discriminate]. unfold get in E. destruct (nth_error _ _); discriminate. }
  assert (FA : forall pixel l d0 e', (forall z e'', pixel z <> Err e'') -> first_white pixel l d0 <> Err e').
  { intros pixel l d0 e' Hp. induction l as [|z l IH]; cbn [first_white]; [discriminate|]. destruct (pixel z) as [v|e''|] eqn:EP; cbn [bind]; [|now apply Hp in EP|discriminate].
    destruct (N.eqb v 255); [discriminate|exact IH]. }
  rewrite (extract_steps g n HN loc n_version). unfold determine_perspective. rewrite sub_Z_ok by lia. cbn [bind].
  destruct (Z.eqb_spec (version loc) 1) as [V1|V1]; [lia|]. rewrite sub_Z_ok by lia. cbn [bind]. fold (dX2 n loc) (dY2 n loc). fold (est2 n loc).
  assert (FE : forall l e', find_alignment g (dX2 n loc) (dY2 n loc) l <> Err e').
  { assert (IE : forall p s e', is_alignment g p (dX2 n loc) (dY2 n loc) s <> Err e').
    { intros p s e' E. unfold is_alignment in E. cbv zeta in E. destruct (_ || _); [discriminate|]. destruct (_ || _); [discriminate|]. destruct (_ || _); [discriminate|].
      assert (PE : forall q e'', pixel_at g q <> Err e'') by (intros q e''; apply GP).
      assert (AE : forall l e'', (forall c, In c l -> (exists q, c = not_white g q) \/ (exists q, c = not_black g q)) -> all_ok l <> Err e'').
      { induction l as [|c l IH]; intros e'' Hc; cbn [all_ok]; [discriminate|]. destruct c as [v|e0|] eqn:EC; cbn [bind]; [| |discriminate].
        - destruct v; [|discriminate]. apply IH. intros c' Hc'. apply Hc. now right.
        - exfalso. destruct (Hc (Err e0)) as [[q Q]|[q Q]]; [now left| |]; unfold not_white, not_black in Q; destruct (pixel_at g q) eqn:EP; cbn [bind] in Q; try discriminate; now apply PE in EP. }
      destruct (all_ok _) as [c|e0|] eqn:EA; cbn [bind] in E; [| |discriminate].
      - destruct c; [|discriminate]. destruct (pixel_at g p) eqn:EP; cbn [bind] in E; try discriminate. now apply PE in EP.
      - revert EA. apply AE. intros c Hc. cbn [flat_map app In] in Hc. 
        repeat (destruct Hc as [<-|Hc]; [first [left; eexists; reflexivity|right; eexists; reflexivity]|]). destruct Hc. }
    induction l as [|[s p] l IH]; intros e'; cbn [find_alignment]; [discriminate|]. destruct (is_alignment _ _ _ _ _) as [c|e0|] eqn:EI; cbn [bind]; [|now apply IE in EI|discriminate].
    destruct c; [discriminate|apply IH]. }
  destruct (find_alignment g (dX2 n loc) (dY2 n loc) _) as [[p|]|e0|] eqn:EF; cbn [bind]; [|reflexivity|now apply FE in EF|discriminate].
  intros E. exfalso. destruct (centre_alignment g p) as [al|e0|] eqn:EA; cbn [bind] in E; [| |discriminate].
  - rewrite chk_u32_ok in E by (unfold u32_max; nia). cbn [bind] in E.
    match type of E with context [sample_rows ?a1 ?a2 ?a3 ?a4 ?a5 ?a6 ?a7 ?a8] => destruct (sample_rows a1 a2 a3 a4 a5 a6 a7 a8) eqn:ES end; cbn [bind] in E; [discriminate| |discriminate].
    now apply sample_rows_no_err in ES.
  - unfold centre_alignment in EA. cbv zeta in EA.
    assert (BE : forall X (m : res X) (k : X -> res point), (forall e', m <> Err e') -> (forall x e', k x <> Err e') -> forall e', bind m k <> Err e').
    { intros X m k Hm Hk e'. destruct m as [x|e1|]; cbn [bind]; [apply Hk|now specialize (Hm e1)|discriminate]. }
    revert EA. apply BE; [intros; apply FA; intros; apply GP|]. intros x1. apply BE; [intros; apply FA; intros; apply GP|]. intros x2. apply BE; [intros; apply FA; intros; apply GP|]. intros x3. apply BE; [intros; apply FA; intros; apply GP|]. discriminate.
Qed.

Theorem C65_found a b j e : tries a b j -> pattern_shown g n tl tr bl a b j -> extract g loc <> Err e.
Proof.
  pose proof HL as (HW & WG & HG & HV & ([F1 F2] & [F3 F4] & [F5 F6]) & [H1 H2] & [H3 H4] & [H5 H6]). pose proof n_range as HN.
  intros (Ha & Hb & Hj) HP E. apply shown_pattern in HP.
  destruct (search_complete n HN loc _ _ _ _ _ _ F1 F2 F3 F4 F5 F6 H1 H2 H3 H4 H5 H6 a b j Ha Hb Hj) as (p & HI & AT).
  apply (find_not_none g n loc _ _ _ HI (accepted_complete g HW WG HG n HN loc _ _ _ _ _ _ F1 F2 F3 F4 F5 F6 H1 H2 H3 H4 H5 H6 a b j p Ha Hb (scales_small j Hj) AT HP)).
  exact (no_alignment e E).
Qed.
End Located.

(** an alignment pattern drawn up to thirteen eighths of a module away from its place *)
Lemma halves_reach m z : 1 <= m -> Rabs z <= 2 * m - / 8 -> exists a, (Z.abs a <= 3)%Z /\ Rabs (z - IZR a / 2 * m) <= m / 2 - / 32.
Proof.
  intros Hm Hz. apply Rabs_le_inv in Hz.
  destruct (Rle_dec z (- 5 / 4 * m)); [exists (-3)%Z; split; [lia|apply Rabs_le; lra]|].
  destruct (Rle_dec z (- 3 / 4 * m)); [exists (-2)%Z; split; [lia|apply Rabs_le; lra]|].
  destruct (Rle_dec z (- 1 / 4 * m)); [exists (-1)%Z; split; [lia|apply Rabs_le; lra]|].
  destruct (Rle_dec z (1 / 4 * m)); [exists 0%Z; split; [lia|apply Rabs_le; lra]|].
  destruct (Rle_dec z (3 / 4 * m)); [exists 1%Z; split; [lia|apply Rabs_le; lra]|].
  destruct (Rle_dec z (5 / 4 * m)); [exists 2%Z; split; [lia|apply Rabs_le; lra]|].
  exists 3%Z. split; [lia|apply Rabs_le; lra].
Qed.

Lemma module_of m s k i x : (1 <= m)%Z -> Rabs (x - middle_of m s k) <= IZR m / 2 - / 32 -> Rabs (IZR i - x) <= / 2 + / 64 -> (s + k * m <= i < s + k * m + m)%Z.
Proof.
  intros Hm H1 H2. apply Rabs_le_inv in H1, H2. unfold middle_of in H1.
  assert (A : (s + k * m - 1 < i)%Z) by (apply lt_IZR; rewrite minus_IZR, plus_IZR, mult_IZR; lra).
  assert (B : (i < s + k * m + m)%Z) by (apply lt_IZR; rewrite !plus_IZR, mult_IZR; lra). lia.
Qed.

Theorem C65_drawn g m ox oy sx sy loc e : wf_gray g -> (gw g <= 2 ^ 22)%Z -> (gh g <= 2 ^ 22)%Z -> (2 <= version loc <= 40)%Z ->
  let n := side_of (version loc) in (1 <= m)%Z -> (0 <= ox)%Z -> (0 <= oy)%Z -> (ox + n * m <= 2 ^ 22)%Z -> (oy + n * m <= 2 ^ 22)%Z -> located m ox oy n loc ->
  (1 <= sx)%Z -> (1 <= sy)%Z -> (8 * Z.abs (sx - (ox + (n - 9) * m)) < 13 * m)%Z -> (8 * Z.abs (sy - (oy + (n - 9) * m)) < 13 * m)%Z ->
  drawn (pixel g) m sx sy 5 (fun r c => ring_dark (r - 2) (c - 2)) ->
  extract g loc <> Err e.
Proof.
  intros HW WG HG HV n Hm Hox Hoy Wx Wy (ex & ey & Ex & Ey & P1 & P2 & P3) Hsx Hsy Dx Dy (_ & _ & _ & DR).
  assert (HN : (25 <= n <= 177)%Z) by (unfold n, side_of; lia). assert (M1 : 1 <= IZR m) by now apply IZR_le.
  assert (NR : 25 <= IZR n <= 177) by (split; now apply IZR_le).
  set (tl := Vec (middle_of m ox 3 + ex) (middle_of m oy 3 + ey)). set (tr := Vec (middle_of m ox (n - 4) + ex) (middle_of m oy 3 + ey)).
  set (bl := Vec (middle_of m ox 3 + ex) (middle_of m oy (n - 4) + ey)).
  assert (RNG : forall o k d, (0 <= o)%Z -> (3 <= k <= n - 4)%Z -> (o + n * m <= 2 ^ 22)%Z -> Rabs d <= 3 * IZR m / 8 -> 0 <= middle_of m o k + d <= 4194304).
  { intros o k d Ho Hk Hw Hd. apply Rabs_le_inv in Hd. unfold middle_of. apply IZR_le in Ho, Hw. rewrite plus_IZR, mult_IZR in Hw. change (IZR (2 ^ 22)) with 4194304 in Hw.
    destruct Hk as [K1 K2]. apply IZR_le in K1, K2. rewrite minus_IZR in K2. nra. }
  assert (HL : located_in g loc tl tr bl).
  { unfold located_in, corners_at, within, tl, tr, bl. cbn [vx vy]. split; [exact HW|]. split; [exact WG|]. split; [exact HG|]. split; [exact HV|].
    split; [exact (conj P1 (conj P2 P3))|]. split; [split; apply RNG; auto; lia|]. split; split; apply RNG; auto; lia. }
  assert (SH : forall o s d, (8 * Z.abs (s - (o + (n - 9) * m)) < 13 * m)%Z -> Rabs d <= 3 * IZR m / 8 ->
    exists a, (Z.abs a <= 3)%Z /\ Rabs (IZR s - IZR (o + (n - 9) * m) - d - IZR a / 2 * IZR m) <= IZR m / 2 - / 32).
  { intros o s d D Hd. apply halves_reach; [exact M1|]. apply Rabs_le_inv in Hd.
    set (K := (o + (n - 9) * m)%Z) in *. assert (D1 : (8 * (s - K) <= 13 * m - 1)%Z) by lia. assert (D2 : (1 - 13 * m <= 8 * (s - K))%Z) by lia.
    apply IZR_le in D1, D2. rewrite !mult_IZR, !minus_IZR, !mult_IZR in *. apply Rabs_le. lra. }
  destruct (SH ox sx ex Dx Ex) as (a & Ha & A). destruct (SH oy sy ey Dy Ey) as (b & Hb & B).
  apply (C65_found g loc tl tr bl HL a b 0%Z e).
  - split; [exact Ha|]. split; [exact Hb|now left].
  - intros row column Hr Hc p.
    assert (SX : forall o d right down, around_alignment n (middle_of m o 3 + d) (middle_of m o (n - 4) + d) (middle_of m o 3 + d) right down = middle_of m o 3 + d + (IZR n - 10 + right) * IZR m).
    { intros o d right down. unfold around_alignment, module_step, middle_of. rewrite !minus_IZR. field. lra. }
    assert (SY : forall o d right down, around_alignment n (middle_of m o 3 + d) (middle_of m o 3 + d) (middle_of m o (n - 4) + d) right down = middle_of m o 3 + d + (IZR n - 10 + down) * IZR m).
    { intros o d right down. unfold around_alignment, module_step, middle_of. rewrite !minus_IZR. field. lra. }
    assert (NEAR : forall o s d z k, Rabs (IZR s - IZR (o + (n - 9) * m) - d - IZR z / 2 * IZR m) <= IZR m / 2 - / 32 ->
      Rabs (middle_of m o 3 + d + (IZR n - 10 + (IZR z / 2 + IZR k * (1 + 0 / 10))) * IZR m - middle_of m s (2 + k)) <= IZR m / 2 - / 32).
    { intros o s d z k H. rewrite <- Rabs_Ropp. unfold middle_of. rewrite !plus_IZR, mult_IZR, minus_IZR in *.
      match goal with |- Rabs ?u <= _ => match type of H with Rabs ?v <= _ => replace u with v by field; exact H end end. }
    pose proof (NEAR ox sx ex a column A) as NX'. pose proof (NEAR oy sy ey b row B) as NY'.
    assert (EP : p = Vec (middle_of m ox 3 + ex + (IZR n - 10 + (IZR a / 2 + IZR column * (1 + 0 / 10))) * IZR m) (middle_of m oy 3 + ey + (IZR n - 10 + (IZR b / 2 + IZR row * (1 + 0 / 10))) * IZR m)).
    { unfold p, tried_module, around, tl, tr, bl. cbn [vx vy]. fold n. now rewrite SX, SY. }
    clearbody p. subst p. cbn [vx vy].
    assert (POS : forall s k x, (1 <= s)%Z -> (-2 <= k)%Z -> Rabs (x - middle_of m s (2 + k)) <= IZR m / 2 - / 32 -> / 2 <= x).
    { intros s k x Hs Hk H. apply Rabs_le_inv in H. unfold middle_of in H. apply IZR_le in Hs. assert (0 <= IZR (2 + k)) by (apply IZR_le; lia). nra. }
    pose proof (POS sx column _ Hsx ltac:(lia) NX') as PX. pose proof (POS sy row _ Hsy ltac:(lia) NY') as PY.
    split; [lra|]. split; [lra|]. intros i j Hi Hj [H1 H2]. rewrite Rmax_right in H1, H2 by lra.
    pose proof (module_of m sx _ i _ Hm NX' H1) as IX. pose proof (module_of m sy _ j _ Hm NY' H2) as IY.
    specialize (DR (2 + row) (2 + column) (i - (sx + (2 + column) * m)) (j - (sy + (2 + row) * m)) ltac:(lia) ltac:(lia) ltac:(lia) ltac:(lia))%Z.
    replace (sx + (2 + column) * m + (i - (sx + (2 + column) * m)))%Z with i in DR by lia. replace (sy + (2 + row) * m + (j - (sy + (2 + row) * m)))%Z with j in DR by lia.
    replace (2 + row - 2)%Z with row in DR by lia. replace (2 + column - 2)%Z with column in DR by lia. exact DR.
Qed.

(** a pattern one and a half modules to the right of its place and more than one above it *)
Definition strayed : gray := image_of 128 128 (fun x y => let c := (x - 78) / 4 in let r := (y - 67) / 4 in
  if (0 <=? c) && (c <? 5) && (0 <=? r) && (r <? 5) && ring_dark (r - 2) (c - 2) then 0%N else 255%N)%Z.
Lemma strayed_wf : wf_gray strayed.
Proof. apply image_of_wf; [unfold u32_max; lia..|]. intros x y. cbv zeta. destruct (_ && _); lia. Qed.
Example C65_example e : drawn (pixel strayed) 4 78 67 5 (fun r c => ring_dark (r - 2) (c - 2)) /\ located 4 8 8 25 (located_at 4 8 8 2) /\ extract strayed (located_at 4 8 8 2) <> Err e.
Proof.
  assert (D : drawn (pixel strayed) 4 78 67 5 (fun r c => ring_dark (r - 2) (c - 2))).
  { split; [lia|]. split; [lia|]. split; [lia|]. intros r c i j Hr Hc Hi Hj. unfold pixel, strayed. rewrite image_of_pixel by lia. cbv zeta.
    replace (78 + c * 4 + i - 78)%Z with (c * 4 + i)%Z by lia. replace (67 + r * 4 + j - 67)%Z with (r * 4 + j)%Z by lia.
    rewrite !Z.div_add_l, !Z.div_small, !Z.add_0_r by lia. destruct (Z.leb_spec 0 c); [|lia]. destruct (Z.ltb_spec c 5); [|lia].
    destruct (Z.leb_spec 0 r); [|lia]. destruct (Z.ltb_spec r 5); [|lia]. reflexivity. }
  assert (L : located 4 8 8 25 (located_at 4 8 8 2)) by (apply (located_at_ok 4 8 8 2); [lia|lia|lia|reflexivity|lia]).
  refine (conj D (conj L _)).
  apply (C65_drawn strayed 4 8 8 78 67); [exact strayed_wf|cbn [strayed image_of gw gh located_at version]; unfold side_of; try lia..|exact D]. exact L.
Qed.

(** *** C66 *)

(** The alignment pattern that is used has all its modules in their colours. *)
Definition C66_statement : Prop := forall g loc tl tr bl q, located_in g loc tl tr bl -> extract g loc = Ok q ->
  exists a b j, tries a b j /\ forall row column, (-2 <= row <= 2)%Z -> (-2 <= column <= 2)%Z -> let p := tried_module (side_of (version loc)) tl tr bl a b j row column in
    exists v, seen (pixel g) (vx p) (vy p) v /\ v <> (if ring_dark row column then 255%N else 0%N).

(** six white pixels on black: the ring is never complete, but the modules missing are not looked at *)
Definition white_dots : list (Z * Z) := [(34, 34); (34, 36); (34, 38); (36, 34); (36, 38); (37, 36)]%Z.
Definition is_dot (x y : Z) : bool := existsb (fun d => Z.eqb x (fst d) && Z.eqb y (snd d)) white_dots.
Definition dotted : gray := image_of 50 50 (fun x y => if is_dot x y then 255%N else 0%N).
Definition dotted_loc : qrloc := mkQRLoc (Pt (of_Z 6) (of_Z 6)) (Pt (of_Z 42) (of_Z 6)) (Pt (of_Z 6) (of_Z 42)) (of_Z 2) 2.
Lemma dotted_located : located_in dotted dotted_loc (Vec 6 6) (Vec 42 6) (Vec 6 42).
Proof.
  split; [apply image_of_wf; [unfold u32_max; lia..|]; intros x y; destruct (is_dot x y); lia|].
  cbn [dotted image_of gw gh dotted_loc version]. split; [lia|]. split; [lia|]. split; [lia|].
  unfold corners_at, point_at, within. cbn [vx vy top_left top_right bottom_left px py]. repeat split; try lra; apply fin_of_Z; lia.
Qed.
Lemma dotted_ok : match extract dotted dotted_loc with Ok _ => True | _ => False end.
Proof. vm_compute. exact I. Qed.
Lemma dotted_white x y v : pixel dotted x y = Some v -> v <> 0%N -> (0 <= x)%Z -> (0 <= y)%Z -> In (x, y) white_dots.
Proof.
  intros H NV Hx Hy. unfold pixel in H. destruct (get_pixel dotted x y) as [w| |] eqn:E; try discriminate. injection H as ->.
  pose proof dotted_located as (HW & _). assert (R : (x < 50 /\ y < 50)%Z).
  { unfold get_pixel in E. cbn [dotted image_of gw gh] in E. destruct (Z.ltb_spec x 50), (Z.ltb_spec y 50); cbn [andb] in E; try discriminate. lia. }
  unfold dotted in E. rewrite image_of_pixel in E by lia. apply (f_equal (fun r => match r with Ok w => w | _ => 0%N end)) in E. subst v. destruct (is_dot x y) eqn:EX; [|now contradiction NV].
  apply existsb_exists in EX. destruct EX as ([x' y'] & HI & EX). cbn [fst snd] in EX. apply andb_prop in EX. destruct EX as [E1 E2]. apply Z.eqb_eq in E1, E2. now subst.
Qed.

Theorem C66_refuted : ~ C66_statement.
Proof.
  intros S. pose proof dotted_ok as OK. destruct (extract dotted dotted_loc) as [q| |] eqn:E; try contradiction.
  destruct (S _ _ _ _ _ _ dotted_located E) as (a & b & j & (Ha & Hb & Hj) & H). change (side_of (version dotted_loc)) with 25%Z in H.
  assert (SC : -2 <= IZR j <= 3) by (split; apply IZR_le; cbn [In] in Hj; lia). assert (RA : -3 <= IZR a <= 3) by (split; apply IZR_le; lia). assert (RB : -3 <= IZR b <= 3) by (split; apply IZR_le; lia).
  assert (P : forall column, (-1 <= column <= 1)%Z -> exists x y, In (x, y) white_dots /\
    Rabs (IZR x - (36 + IZR a + 2 * IZR column * (1 + IZR j / 10))) <= / 2 + / 64 /\ Rabs (IZR y - (36 + IZR b - 2 * (1 + IZR j / 10))) <= / 2 + / 64).
  { intros column Hc. destruct (H (-1) column ltac:(lia) ltac:(lia))%Z as (v & (x & y & Hx & Hy & [H1 H2] & PV) & NV).
    assert (RD : ring_dark (-1) column = false) by (unfold ring_dark; replace (Z.max (Z.abs (-1)) (Z.abs column)) with 1%Z by lia; reflexivity). rewrite RD in NV.
    exists x, y. split; [exact (dotted_white x y v PV NV Hx Hy)|]. unfold tried_module, around, around_alignment, module_step in H1, H2. cbn [vx vy] in H1, H2.
    assert (RC : -1 <= IZR column <= 1) by (split; apply IZR_le; lia). change (25 - 7)%Z with 18%Z in *. change (25 - 10)%Z with 15%Z in *.
    replace (6 + (15 + (IZR a / 2 + IZR column * (1 + IZR j / 10))) * ((42 - 6) / 18) + (15 + (IZR b / 2 + -1 * (1 + IZR j / 10))) * ((6 - 6) / 18))
      with (36 + IZR a + 2 * IZR column * (1 + IZR j / 10)) in H1 by field.
    replace (6 + (15 + (IZR a / 2 + IZR column * (1 + IZR j / 10))) * ((6 - 6) / 18) + (15 + (IZR b / 2 + -1 * (1 + IZR j / 10))) * ((42 - 6) / 18))
      with (36 + IZR b - 2 * (1 + IZR j / 10)) in H2 by field.
    rewrite Rmax_right in H1 by nra. rewrite Rmax_right in H2 by lra. split; assumption. }
  destruct (P (-1) ltac:(lia))%Z as (x1 & y1 & I1 & X1 & Y1). destruct (P 0 ltac:(lia))%Z as (x2 & y2 & I2 & X2 & Y2). destruct (P 1 ltac:(lia))%Z as (x3 & y3 & I3 & X3 & Y3).
  apply Rabs_le_inv in X1, Y1, X2, Y2, X3, Y3. clear P H.
  assert (L12 : (x1 < x2)%Z) by (apply lt_IZR; lra). assert (L23 : (x2 < x3)%Z) by (apply lt_IZR; lra).
  assert (S12 : (y1 - y2 < 2 /\ y2 - y1 < 2)%Z) by (split; apply lt_IZR; rewrite minus_IZR; lra). assert (S23 : (y2 - y3 < 2 /\ y3 - y2 < 2)%Z) by (split; apply lt_IZR; rewrite minus_IZR; lra).
  clear X1 Y1 X2 Y2 X3 Y3 RA RB SC. unfold white_dots in *. cbn [In] in *.
  repeat match goal with I : _ \/ _ |- _ => destruct I as [I|I]; [injection I as <- <-|] end; try contradiction; lia.
Qed.

(** What holds: in a black and white image all modules but seven have their colours.  Missing are the two
    corners on the left, the modules below the upper corners, and the ring on the right of the middle. *)
Theorem C66_tested_partial g loc tl tr bl q : located_in g loc tl tr bl -> (forall x y v, pixel g x y = Some v -> v = 0%N \/ v = 255%N) -> extract g loc = Ok q ->
  exists a b j, tries a b j /\ forall row column, (row, column) = (0, 0)%Z \/ In (row, column) looked_at -> let p := tried_module (side_of (version loc)) tl tr bl a b j row column in
    seen (pixel g) (vx p) (vy p) (if ring_dark row column then 0%N else 255%N).
Proof.
  intros HL BW E. destruct (C64_sampling g loc tl tr bl HL q E) as (a & b & j & x & y & al & fx & fy & TR & (L & HP & V) & _).
  exists a, b, j. split; [exact TR|]. intros row column [RC|RC] p.
  - injection RC as -> ->. exists x, y. pose proof V as V'. unfold pixel in V'. destruct (get_pixel g x y) eqn:EG; [|discriminate..].
    assert (R : (0 <= x)%Z /\ (0 <= y)%Z).
    { destruct HP as [H1 H2]. apply Rabs_le_inv in H1, H2. assert (M : forall z, 0 <= Rmax 0 z) by (intros; apply Rmax_l).
      assert (K : forall i z, - (/ 2 + / 64) <= IZR i - Rmax 0 z -> (0 <= i)%Z). { intros i z K. specialize (M z). assert (-1 < i)%Z by (apply lt_IZR; lra). lia. }
      split; [exact (K _ _ (proj1 H1))|exact (K _ _ (proj1 H2))]. }
    split; [exact (proj1 R)|]. split; [exact (proj2 R)|]. split; [exact HP|exact V].
  - destruct (L row column RC) as (v & (i & k & Hi & Hk & HH & PV) & NV). exists i, k. split; [exact Hi|]. split; [exact Hk|]. split; [exact HH|].
    rewrite PV. destruct (BW _ _ _ PV) as [-> | ->], (ring_dark row column); congruence.
Qed.

(** *** a symbol of version 2, "HELLO", whose rows become wider towards the bottom *)
Definition wide_base : matrix := fun x y =>
  let ring cx cy k := Z.eqb (Z.max (Z.abs (x - cx)) (Z.abs (y - cy))) k in
  let finder cx cy := ring cx cy 0%Z || ring cx cy 1%Z || ring cx cy 3%Z in
  finder 3%Z 3%Z || finder 21%Z 3%Z || finder 3%Z 21%Z || ring 18%Z 18%Z 0%Z || ring 18%Z 18%Z 2%Z
  || (Z.eqb x 6 || Z.eqb y 6) && Z.even (x + y) && (7 <? x + y - 6)%Z && (x + y - 6 <? 17)%Z.
Definition wide_order : list (Z * Z) := Eval vm_compute in data_order 2.
Definition wide_bits : list bool := Eval vm_compute in
  map (fun p => xorb (snd p) (mask_bit 3 (fst (fst p)) (snd (fst p))))
      (combine wide_order (bits (interleave (encode_blocks 2 M hello)) ++ repeat false (Z.to_nat (data_module_count 2 mod 8)))).
Definition wide_symbol : list (list bool) := Eval vm_compute in
  let d := place wide_order wide_bits (draw_on 2 word_1 word_1 wide_base) in
  map (fun y => map (fun x => d (Z.of_nat x) (Z.of_nat y)) (seq 0 25)) (seq 0 25).
Definition wide_modules : matrix := fun x y => nth (Z.to_nat x) (nth (Z.to_nat y) wide_symbol []) false.
Lemma modules_wide_text : holds_text 2 wide_modules [72; 69; 76; 76; 79]%N.
Proof.
  destruct (table_encodes 2 M 3 hello wide_base wide_modules wide_order wide_bits word_1) as [A B]; [lia|vm_compute; reflexivity..|].
  exists M, 3%N, hello, [[72; 69; 76; 76; 79]%N], wide_base. split; [lia|]. split.
  { constructor; [|constructor]. apply encode_alnum_wf; [|vm_compute; reflexivity]. repeat (constructor; [vm_compute; tauto|]). constructor. }
  split; [|split; [vm_compute; lia|]; exact (conj A (conj B eq_refl))].
  constructor; [|constructor]. unfold raw_text. cbn [encode_alnum r_mode r_count r_vals].
  destruct (encode_alnum_ok [72; 69; 76; 76; 79]%N) as (_ & H1 & H2); [repeat (constructor; [vm_compute; tauto|]); constructor|]. auto.
Qed.

(** row [r] has modules (177 + r) / 45 pixels wide *)
Definition wide_pixel (x y : Z) : N := let r := ((y - 8) / 4)%Z in let c := (3 + (45 * (2 * x - 43) + (177 + r)) / (2 * (177 + r)))%Z in
  if ((0 <=? r) && (r <? 25) && (0 <=? c) && (c <? 25))%Z then colour (wide_modules c r) else 255%N.
Definition widened : gray := image_of 128 116 wide_pixel.
Definition widened_loc : qrloc := let h k := fdiv (fadd (of_Z k) (of_Z (k + 1))) (of_Z 2) in
  mkQRLoc (Pt (h 21%Z) (h 21%Z)) (Pt (h 93%Z) (h 21%Z)) (Pt (h 21%Z) (h 93%Z)) (of_Z 4) 2.
Definition wide_tl := Vec (43 / 2) (43 / 2).
Definition wide_tr := Vec (187 / 2) (43 / 2).
Definition wide_bl := Vec (43 / 2) (187 / 2).
Definition wide_x (row column : R) : R := 43 / 2 + (column - 3) * (177 + row) / 45.
Definition wide_y (row column : R) : R := 19 / 2 + 4 * row.
Lemma widened_located : located_in widened widened_loc wide_tl wide_tr wide_bl.
Proof.
  split; [apply image_of_wf; [unfold u32_max; lia..|]; intros x y; unfold wide_pixel, colour; cbv zeta; destruct (_ && _); [destruct (wide_modules _ _)|]; lia|].
  cbn [widened image_of gw gh widened_loc version]. split; [lia|]. split; [lia|]. split; [lia|].
  unfold corners_at, point_at, within. cbn [wide_tl wide_tr wide_bl vx vy top_left top_right bottom_left px py].
  pose proof (average2 21 22 ltac:(lia) ltac:(lia)) as A. pose proof (average2 93 94 ltac:(lia) ltac:(lia)) as B. repeat split; try lra; assumption.
Qed.
Lemma wide_map : bilinear_map 25 wide_tl wide_tr wide_bl (Vec (173 / 2) (163 / 2)) wide_x wide_y.
Proof.
  split; [exists (43 / 2 - 3 * 177 / 45), (- 3 / 45), (177 / 45), (/ 45); intros; unfold wide_x; field|].
  split; [exists (19 / 2), 4, 0, 0; intros; unfold wide_y; ring|].
  unfold through, wide_x, wide_y. cbn [wide_tl wide_tr wide_bl vx vy]. repeat split; lra.
Qed.

(** *** the conditions as computations: coordinates in 180ths of a pixel *)
Definition near (X : Z) : list Z := filter (fun i => (0 <=? i) && (Z.abs (180 * i - X) <=? 92))%Z [X / 180; X / 180 + 1]%Z.
Lemma near_in X i x : x = IZR X / 180 -> 0 <= x -> (0 <= i)%Z -> Rabs (IZR i - Rmax 0 x) <= / 2 + / 64 -> In i (near X).
Proof.
  intros -> HX Hi H. rewrite Rmax_right in H by lra. apply Rabs_le_inv in H.
  assert (A : (180 * i - X < 93)%Z) by (apply lt_IZR; rewrite minus_IZR, mult_IZR; lra). assert (B : (X - 180 * i < 93)%Z) by (apply lt_IZR; rewrite minus_IZR, mult_IZR; lra).
  apply filter_In. split.
  - cbn [In]. pose proof (Z.div_mod X 180 ltac:(lia)). pose proof (Z.mod_pos_bound X 180 ltac:(lia)). lia.
  - apply andb_true_intro. split; [now apply Z.leb_le|apply Z.leb_le; lia].
Qed.
Lemma widened_pixel x y : (0 <= x < 128)%Z -> (0 <= y < 116)%Z -> pixel widened x y = Some (wide_pixel x y).
Proof. intros Hx Hy. unfold pixel, widened. now rewrite image_of_pixel by lia. Qed.

(** all modules are drawn clearly *)
Definition drawn_ok : bool := forallb (fun r => forallb (fun c =>
  forallb (fun i => (i <? 128)%Z && forallb (fun k => (k <? 116)%Z && N.eqb (wide_pixel i k) (colour (wide_modules c r))) (near (1710 + 720 * r))) (near (3870 + 4 * (c - 3) * (177 + r))))
  (map Z.of_nat (seq 0 25))) (map Z.of_nat (seq 0 25)).
Lemma drawn_ok_true : drawn_ok = true.
Proof. vm_compute. reflexivity. Qed.

Definition spot (a j column : Z) : Z := (14670 + 360 * a + column * (720 + 72 * j))%Z.
Lemma spot_tried a b j row column : let p := tried_module 25 wide_tl wide_tr wide_bl a b j row column in vx p = IZR (spot a j column) / 180 /\ vy p = IZR (spot b j row) / 180.
Proof.
  cbv zeta. unfold tried_module, around, around_alignment, module_step, spot. cbn [wide_tl wide_tr wide_bl vx vy]. rewrite !plus_IZR, !mult_IZR, !plus_IZR, !mult_IZR.
  change (25 - 7)%Z with 18%Z. change (25 - 10)%Z with 15%Z. split; field.
Qed.
Lemma spot_small a j column : (Z.abs a <= 3)%Z -> (Z.abs j <= 3)%Z -> (Z.abs column <= 2)%Z -> (11000 <= spot a j column <= 18000)%Z.
Proof. unfold spot. nia. Qed.

Definition fives : list Z := [-2; -1; 0; 1; 2]%Z.
Definition shown_ok (a b j : Z) : bool := forallb (fun row => forallb (fun column =>
  forallb (fun i => forallb (fun k => N.eqb (wide_pixel i k) (if ring_dark row column then 0%N else 255%N)) (near (spot b j row))) (near (spot a j column))) fives) fives.
Lemma shown_ok_true a b j : (Z.abs a <= 3)%Z -> (Z.abs b <= 3)%Z -> (Z.abs j <= 3)%Z -> shown_ok a b j = true -> pattern_shown widened 25 wide_tl wide_tr wide_bl a b j.
Proof.
  intros Ha Hb Hj H row column Hr Hc p. destruct (spot_tried a b j row column) as [E1 E2]. fold p in E1, E2.
  pose proof (spot_small a j column Ha Hj ltac:(lia)) as S1. pose proof (spot_small b j row Hb Hj ltac:(lia)) as S2.
  assert (B1 : 11000 <= IZR (spot a j column) <= 18000) by (split; apply IZR_le; lia). assert (B2 : 11000 <= IZR (spot b j row) <= 18000) by (split; apply IZR_le; lia).
  split; [lra|]. split; [lra|]. intros i k Hi Hk [H1 H2].
  pose proof H1 as H1'. pose proof H2 as H2'. apply (near_in _ _ _ E1 ltac:(lra) Hi) in H1'. apply (near_in _ _ _ E2 ltac:(lra) Hk) in H2'.
  rewrite Rmax_right in H1, H2 by lra. apply Rabs_le_inv in H1, H2.
  assert (i < 116)%Z by (apply lt_IZR; lra). assert (k < 116)%Z by (apply lt_IZR; lra). rewrite widened_pixel by lia.
  unfold shown_ok in H. rewrite forallb_forall in H. specialize (H row ltac:(cbn [fives In]; lia)). rewrite forallb_forall in H. specialize (H column ltac:(cbn [fives In]; lia)).
  rewrite forallb_forall in H. specialize (H i H1'). rewrite forallb_forall in H. specialize (H k H2'). apply N.eqb_eq in H. now rewrite H.
Qed.

(** everything that passes the test has its middle in the middle module of the pattern *)
Definition passes_ok : bool := forallb (fun a => forallb (fun b => forallb (fun j =>
  negb (forallb (fun rc => existsb (fun i => existsb (fun k => negb (N.eqb (wide_pixel i k) (if ring_dark (fst rc) (snd rc) then 255%N else 0%N)))
    (near (spot b j (fst rc)))) (near (spot a j (snd rc)))) looked_at)
  || forallb (fun i => forallb (fun k => negb (N.eqb (wide_pixel i k) 0) || (85 <=? i)%Z && (i <? 89)%Z && (80 <=? k)%Z && (k <? 84)%Z) (near (spot b j 0))) (near (spot a j 0)))
  [0; 1; -1; 2; -2; 3]%Z) [-3; -2; -1; 0; 1; 2; 3]%Z) [-3; -2; -1; 0; 1; 2; 3]%Z.
Lemma passes_ok_true : passes_ok = true.
Proof. vm_compute. reflexivity. Qed.
Lemma passes_middle a b j x y : tries a b j -> may_pass widened 25 wide_tl wide_tr wide_bl a b j x y -> (85 <= x < 89)%Z /\ (80 <= y < 84)%Z.
Proof.
  intros (Ha & Hb & Hj) (L & [P1 P2] & V). assert (Sj : (Z.abs j <= 3)%Z) by (cbn [In] in Hj; lia).
  pose proof passes_ok_true as H. unfold passes_ok in H. rewrite forallb_forall in H. specialize (H a ltac:(cbn [In]; lia)). rewrite forallb_forall in H. specialize (H b ltac:(cbn [In]; lia)).
  rewrite forallb_forall in H. specialize (H j Hj). apply orb_prop in H.
  assert (K : forall row column i k, (Z.abs row <= 2)%Z -> (Z.abs column <= 2)%Z -> let p := tried_module 25 wide_tl wide_tr wide_bl a b j row column in holds_point (vx p) (vy p) i k ->
    (0 <= i < 116)%Z /\ (0 <= k < 116)%Z /\ In i (near (spot a j column)) /\ In k (near (spot b j row))).
  { intros row column i k Hr Hc p [H1 H2]. destruct (spot_tried a b j row column) as [E1 E2]. fold p in E1, E2.
    pose proof (spot_small a j column Ha Sj Hc) as S1. pose proof (spot_small b j row Hb Sj Hr) as S2.
    assert (B1 : 11000 <= IZR (spot a j column) <= 18000) by (split; apply IZR_le; lia). assert (B2 : 11000 <= IZR (spot b j row) <= 18000) by (split; apply IZR_le; lia).
    pose proof H1 as H1'. pose proof H2 as H2'. rewrite Rmax_right in H1, H2 by lra. apply Rabs_le_inv in H1, H2.
    assert (0 <= i < 116)%Z by (split; [apply Z.lt_le_incl|]; apply lt_IZR; lra). assert (0 <= k < 116)%Z by (split; [apply Z.lt_le_incl|]; apply lt_IZR; lra).
    split; [assumption|]. split; [assumption|]. split; [apply (near_in _ _ _ E1 ltac:(lra)); [lia|exact H1']|apply (near_in _ _ _ E2 ltac:(lra)); [lia|exact H2']]. }
  destruct H as [H|H].
  - exfalso. apply negb_true_iff in H. apply Bool.not_true_iff_false in H. apply H. clear H. apply forallb_forall. intros [row column] HI. cbn [fst snd].
    assert (SM : (Z.abs row <= 2)%Z /\ (Z.abs column <= 2)%Z).
    { unfold looked_at in HI. cbn [In] in HI. repeat (destruct HI as [HI|HI]; [injection HI as <- <-; lia|]). destruct HI. }
    destruct (L row column HI) as (v & (i & k & Hi & Hk & HH & PV) & NV). destruct (K row column i k (proj1 SM) (proj2 SM) HH) as (Ri & Rk & I1 & I2).
    apply existsb_exists. exists i. split; [exact I1|]. apply existsb_exists. exists k. split; [exact I2|]. rewrite widened_pixel in PV by lia. injection PV as <-.
    apply negb_true_iff, N.eqb_neq. exact NV.
  - destruct (K 0 0 x y ltac:(lia) ltac:(lia) (conj P1 P2))%Z as (Ri & Rk & I1 & I2). rewrite forallb_forall in H. specialize (H x I1). rewrite forallb_forall in H. specialize (H y I2).
    rewrite widened_pixel in V by lia. injection V as V. rewrite V, N.eqb_refl in H. cbn [negb orb] in H. rewrite !andb_true_iff, !Z.leb_le, !Z.ltb_lt in H. lia.
Qed.

(** the middle module: black, with white pixels around *)
Definition middle_ok : bool := forallb (fun y => N.eqb (wide_pixel 84 y) 255 && N.eqb (wide_pixel 89 y) 255 && forallb (fun x => N.eqb (wide_pixel x y) 0) [85; 86; 87; 88]%Z) [80; 81; 82; 83]%Z
  && N.eqb (wide_pixel 87 79) 255 && N.eqb (wide_pixel 87 84) 255.
Lemma middle_ok_true : middle_ok = true.
Proof. vm_compute. reflexivity. Qed.
Lemma middle_measured x y cx cy : (85 <= x < 89)%Z -> (80 <= y < 84)%Z -> measured widened x y cx cy -> cx = 173 / 2 /\ cy = 163 / 2.
Proof.
  intros Hx Hy (l & r & x' & t & u & R1 & -> & X' & R2 & ->).
  pose proof middle_ok_true as M0. unfold middle_ok in M0. rewrite !andb_true_iff, forallb_forall in M0. destruct M0 as [[M0 M1] M2]. apply N.eqb_eq in M1, M2.
  assert (ROW : forall y, (80 <= y < 84)%Z -> wide_pixel 84 y = 255%N /\ wide_pixel 89 y = 255%N /\ forall x, (85 <= x < 89)%Z -> wide_pixel x y = 0%N).
  { intros y0 H0. specialize (M0 y0 ltac:(cbn [In]; lia)). rewrite !andb_true_iff, forallb_forall in M0. destruct M0 as [[A B] C]. apply N.eqb_eq in A, B. split; [exact A|]. split; [exact B|].
    intros x0 Hx0. specialize (C x0 ltac:(cbn [In]; lia)). now apply N.eqb_eq in C. }
  assert (A1 : run_between (fun z => pixel widened z y = Some 255%N) (gw widened) x 84 89).
  { destruct (ROW y Hy) as (A & B & C). change (gw widened) with 128%Z. split; split.
    - left. split; [lia|]. rewrite widened_pixel by lia. now rewrite A.
    - intros z Hz. rewrite widened_pixel, C by lia. discriminate.
    - left. split; [lia|]. rewrite widened_pixel by lia. now rewrite B.
    - intros z Hz. rewrite widened_pixel, C by lia. discriminate. }
  destruct (run_unique _ _ x _ _ _ _ ltac:(lia) R1 A1) as [-> ->]. assert (x' = 87%Z) by lia. subst x'.
  assert (A2 : run_between (fun z => pixel widened 87 z = Some 255%N) (gh widened) y 79 84).
  { change (gh widened) with 116%Z. split; split.
    - left. split; [lia|]. rewrite widened_pixel by lia. now rewrite M1.
    - intros z Hz. destruct (ROW z ltac:(lia)) as (_ & _ & C). rewrite widened_pixel, C by lia. discriminate.
    - left. split; [lia|]. rewrite widened_pixel by lia. now rewrite M2.
    - intros z Hz. destruct (ROW z ltac:(lia)) as (_ & _ & C). rewrite widened_pixel, C by lia. discriminate. }
  destruct (run_unique _ _ y _ _ _ _ ltac:(lia) R2 A2) as [-> ->]. split; reflexivity.
Qed.

Lemma wide_search : search_in_image widened 25 wide_tl wide_tr wide_bl.
Proof.
  split; [vm_compute; discriminate|]. split; [vm_compute; discriminate|]. intros s t Hs Ht. apply Rabs_le_inv in Hs, Ht.
  unfold around, around_alignment, module_step. cbn [wide_tl wide_tr wide_bl vx vy widened image_of gw gh]. change (25 - 7)%Z with 18%Z. change (25 - 10)%Z with 15%Z. lra.
Qed.
Lemma wide_clear row column : (row < 25)%nat -> (column < 25)%nat ->
  clearly (pixel widened) (wide_x (INR row) (INR column)) (wide_y (INR row) (INR column)) (colour (wide_modules (Z.of_nat column) (Z.of_nat row))).
Proof.
  intros Hr Hc i k Hi Hk [H1 H2].
  pose proof drawn_ok_true as H. unfold drawn_ok in H. rewrite forallb_forall in H. specialize (H (Z.of_nat row) ltac:(apply in_map, in_seq; lia)).
  rewrite forallb_forall in H. specialize (H (Z.of_nat column) ltac:(apply in_map, in_seq; lia)).
  rewrite !INR_IZR_INZ in H1, H2. set (r := Z.of_nat row) in *. set (c := Z.of_nat column) in *. assert (Rr : (0 <= r < 25)%Z) by lia. assert (Rc : (0 <= c < 25)%Z) by lia.
  assert (E1 : wide_x (IZR r) (IZR c) = IZR (3870 + 4 * (c - 3) * (177 + r)) / 180) by (unfold wide_x; rewrite plus_IZR, !mult_IZR, minus_IZR, plus_IZR; field).
  assert (E2 : wide_y (IZR r) (IZR c) = IZR (1710 + 720 * r) / 180) by (unfold wide_y; rewrite plus_IZR, mult_IZR; field).
  apply (near_in _ _ _ E1) in H1; [|rewrite E1; apply Rmult_le_pos; [apply IZR_le; nia|lra]|exact Hi].
  apply (near_in _ _ _ E2) in H2; [|rewrite E2; apply Rmult_le_pos; [apply IZR_le; nia|lra]|exact Hk].
  rewrite forallb_forall in H. specialize (H i H1). apply andb_prop in H. destruct H as [L1 H]. rewrite forallb_forall in H. specialize (H k H2). apply andb_prop in H. destruct H as [L2 H].
  apply Z.ltb_lt in L1, L2. apply N.eqb_eq in H. rewrite widened_pixel by lia. now rewrite H.
Qed.

Example C64_example : qr_decode (extract widened widened_loc) = Ok [72; 69; 76; 76; 79]%N.
Proof.
  apply (C64_text widened widened_loc wide_tl wide_tr wide_bl widened_located 2 0 1 (Vec (173 / 2) (163 / 2)) wide_x wide_y wide_modules).
  - exact wide_search.
  - split; [lia|]. split; [lia|cbn [In]; lia].
  - apply (shown_ok_true 2 0 1); [lia..|vm_compute; reflexivity].
  - intros a b j x y cx cy TR MP ME. destruct (passes_middle a b j x y TR MP) as [X Y]. exact (middle_measured x y cx cy X Y ME).
  - exact wide_map.
  - exact wide_clear.
  - exact modules_wide_text.
Qed.
