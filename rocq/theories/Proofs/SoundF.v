(** Every candidate is the centre of a cross. *)
From Coq Require Import NArith ZArith Reals List Lia Lra Bool Arith Psatz.
From Verif.Model Require Import Prepare Detect.
From Flocq Require Import Core.
From Verif.Spec Require Import Window Finder Drawing Angle Slant Cross.
From Verif.Proofs Require Import BaseP PrepareP FloatP ApproxP DetectP ExtractP AlignP RefineP RefineF SlantF GeometryP SoundP.
Import ListNotations.
Local Open Scope R_scope.

(** *** sizes that are taken to be the same *)
Lemma diff_small x y a b : fin x a -> fin y b -> 1 <= a <= 8589934592 -> 1 <= b <= 8589934592 -> flt (diff x y) (lit 2 10) = true ->
  0.799 * a <= b /\ 0.799 * b <= a.
Proof.
  intros X Y A B H. assert (M : 1 <= Rmax a b) by (apply Rle_trans with a; [lra|apply Rmax_l]).
  destruct (diff_apx x y a b X Y ltac:(lra) ltac:(lra) M) as (d & F & E). destruct lit_2_10 as (l & FL & EL).
  rewrite (flt_R _ _ _ _ F FL) in H. destruct (Rlt_bool_spec d l) as [L|]; [|discriminate].
  assert (Q : rel_diff a b <= 0.2001) by (unfold u53, eps in *; rabs; lra).
  unfold rel_diff in Q. assert (P : Rabs (a - b) <= 0.2001 * Rmax a b).
  { apply Rmult_le_reg_r with (/ Rmax a b); [apply Rinv_0_lt_compat; lra|]. rewrite Rmult_assoc, Rinv_r by lra. unfold Rdiv in Q. lra. }
  unfold Rmax in P. destruct (Rle_dec a b); split; rabs; lra.
Qed.

(** half of the length of the pattern *)
Lemma half_f T : (7 <= T <= 2 ^ 27)%Z -> exists h, fin (fmul (lit 7 2) (est_of T)) h /\ Rabs (h - IZR T / 2) <= / 100000.
Proof.
  intros H. destruct (est_f T ltac:(lia)) as (v & F & E). assert (R : 7 <= IZR T <= 134217728) by (split; apply IZR_le; lia).
  destruct (mul_f (lit 7 2) (est_of T) (7 / 2) v fin_7_2 F) as (h & FH & EH); [unfold top, eps in *; rabs; lra|].
  exists h. split; [exact FH|]. unfold eps in *. rabs; lra.
Qed.

(** *** where the candidates come from *)
Definition tried (g : gray) (c : finder_pos) : Prop := exists x y T, (0 <= x < gw g)%Z /\ (0 <= y < gh g)%Z /\ (7 <= T <= u32_max)%Z /\
  refine_all g (Pt (fsub (of_Z x) (fmul (est_of T) (lit 7 2))) (of_Z y)) (est_of T) = Ok (Some (fp_location c, fp_module_size c)).

Lemma chk_u32_inv a r : chk_u32 a = Ok r -> r = a /\ (0 <= a <= u32_max)%Z.
Proof. unfold chk_u32. destruct (Z.leb_spec 0 a); destruct (Z.leb_spec a u32_max); cbn [andb]; intros H1; try discriminate. injection H1 as <-. lia. Qed.
Lemma total_size_inv p T : total_size p = Ok T -> (0 <= T <= u32_max)%Z.
Proof.
  unfold total_size. intros H. apply bind_ok in H as (a & _ & H). apply bind_ok in H as (b & _ & H). apply bind_ok in H as (c & _ & H).
  apply chk_u32_inv in H as [-> H]. exact H.
Qed.

Lemma scan_found_tried g cs p x y cs' : Forall (tried g) cs -> (0 <= x < gw g)%Z -> (0 <= y < gh g)%Z -> looks_like_finder p = Ok true ->
  scan_found g cs p x y = Ok cs' -> Forall (tried g) cs'.
Proof.
  intros HC Hx Hy HL H. unfold looks_like_finder in HL. apply bind_ok in HL as (T & ET & HL). pose proof (total_size_inv p T ET) as BT.
  destruct (Z.ltb_spec T 7); [discriminate|]. unfold scan_found, est_mod_size in H. rewrite ET in H. cbn [bind] in H. fold (est_of T) in H.
  destruct (existsb _ cs); [now injection H as <-|]. apply bind_ok in H as (o & EO & H). destruct o as [[loc ms]|]; injection H as <-; [|exact HC].
  apply Forall_app. split; [exact HC|]. constructor; [|constructor]. exists x, y, T. cbn [fp_location fp_module_size]. split; [lia|]. split; [lia|]. split; [lia|exact EO].
Qed.

Lemma candidates_tried g cs : wf_gray g -> find_candidates g = Ok cs -> Forall (tried g) cs.
Proof.
  intros HW H. unfold find_candidates in H. rewrite enumerate_pix in H by exact HW. apply bind_ok in H as (s & E & H). injection H as <-.
  apply (foldM_inv (fun s => Forall (tried g) (sc_candidates s)) _ _ _ _) with (3 := E); [constructor|].
  intros [[x y] v] s1 s2 HI HS HP. apply in_map_iff in HI as ((x' & y') & EQ & HI). injection EQ as -> -> <-.
  unfold coords in HI. apply in_flat_map in HI as (y' & Hy & HI). apply in_map_iff in HI as (x' & EQ & Hx). injection EQ as -> ->.
  apply in_zrange in Hx, Hy. unfold scan_pixel in HP. destruct (if (x =? 0)%Z then _ else _) as [last p].
  apply bind_ok in HP as (q & _ & HP). apply bind_ok in HP as (w1 & _ & HP). destruct (_ && _); [now injection HP as <-|].
  apply bind_ok in HP as (l & EL & HP). apply bind_ok in HP as (cs & EC & HP). apply bind_ok in HP as (q' & _ & HP). injection HP as <-. cbn [sc_candidates].
  destruct l; [|now injection EC as <-]. apply (scan_found_tried g _ _ _ _ _ HS Hx Hy EL EC).
Qed.

Lemma ok_pair {A B} (a c : A) (b d : B) : Ok (Some (a, b)) = Ok (Some (c, d)) -> a = c /\ b = d.
Proof. intros H. injection H as -> ->. auto. Qed.

(** *** the three lines *)
Section Cross.
Context (g : gray) (HW : wf_gray g) (WX : (gw g <= 2 ^ 26)%Z) (WY : (gh g <= 2 ^ 26)%Z).

Lemma line_sound h L ms v s e f : (forall t, (0 <= t < L)%Z -> in_image g (h t)) -> (L <= 2 ^ 26)%Z ->
  steady (fun t => pix g (fst (h t)) (snd (h t))) (L - 1) -> (0 <= s)%Z -> (e <= L)%Z -> fin ms v -> 1 <= v <= 1073741824 ->
  refine g ms (map h (zrange s e)) false = Ok (Some f) ->
  exists a z t v', (s <= a)%Z /\ (a + 7 <= z <= e)%Z /\ five_stretches (fun t => pix g (fst (h t)) (snd (h t))) a z /\
    (z - 1 <= t <= z)%Z /\ (t < e)%Z /\ fp_location f = Pt (of_Z (fst (h t))) (of_Z (snd (h t))) /\ fp_last f = est_of (z - a) /\
    fin (fp_module_size f) v' /\ 1 <= v' /\ Rabs (v' - (v + IZR (z - a) / 7) / 2) <= / 10000 /\
    0.799 * v <= IZR (z - a) / 7 + / 10000 /\ 0.799 * (IZR (z - a) / 7) <= v + / 10000.
Proof.
  intros HI HL HS S0 EL FV BV H.
  apply refine_sound in H; auto; [|unfold u32_max; lia|intros t Ht; apply HI; lia|].
  - destruct H as (a & z & A & Z & FS & LOC & LA & MS & D). specialize (D eq_refl).
    assert (TB : (7 <= z - a <= 2 ^ 27)%Z) by lia. assert (TR : 7 <= IZR (z - a) <= 67108864) by (split; apply IZR_le; lia).
    destruct (est_f (z - a) ltac:(lia)) as (w & FW & EW). destruct (est_size (z - a) ltac:(unfold u32_max; lia)) as (w' & FW' & BW).
    assert (w' = w) by (apply (fin_inj _ _ _ FW' FW)). subst w'.
    destruct (diff_small _ _ _ _ FV FW ltac:(lra) ltac:(lra) D) as [D1 D2].
    destruct (avg_f _ _ _ _ FV FW) as (v' & FV' & EV'); [unfold top, eps in *; rabs; lra..|].
    destruct (avg_size ms (est_of (z - a)) (ex_intro _ v (conj FV BV)) (ex_intro _ w (conj FW BW))) as (v2 & FV2 & BV2).
    assert (v2 = v') by (apply (fin_inj _ _ _ FV2 FV')). subst v2.
    exists a, z, (if (z <? e)%Z then z else (z - 1)%Z), v'. rewrite MS, LA. splits; auto; try (destruct (Z.ltb_spec z e); lia); try lra; unfold eps in *; rabs; lra.
  - intros a b d Ha Hb. apply HS; lia.
Qed.

(** the column: its middle, up to 3/2 pixels *)
Lemma column_middle b w z : (0 <= b)%Z -> (b + 7 <= w <= 2 ^ 26)%Z -> (w - 1 <= z <= w)%Z ->
  let r := round_u32 (fsub (of_Z z) (fmul (of_Z 1) (fmul (lit 7 2) (est_of (w - b))))) in
  (Z.abs (2 * r - (b + w)) <= 3)%Z /\ (b <= r < w)%Z.
Proof.
  intros B W Z r. destruct (half_f (w - b) ltac:(lia)) as (h & FH & EH). assert (TR : 7 <= IZR (w - b) <= 67108864) by (split; apply IZR_le; lia).
  assert (F1 : fin (fmul (of_Z 1) (fmul (lit 7 2) (est_of (w - b)))) h) by (apply fin_1_mul; [exact FH|rabs; lra]).
  assert (ZR : 0 <= IZR z <= 67108864) by (split; apply IZR_le; lia).
  destruct (sub_f (of_Z z) _ (IZR z) h (fin_of_Z z ltac:(lia)) F1) as (k & FK & EK); [unfold top; rabs; lra..|].
  assert (WB : IZR (w - b) = IZR w - IZR b) by apply minus_IZR.
  assert (ZW : IZR w - 1 <= IZR z <= IZR w) by (split; [rewrite <- (minus_IZR w 1); apply IZR_le; lia|apply IZR_le; lia]).
  assert (B0 : 0 <= IZR b) by (apply IZR_le; lia).
  destruct (round_f _ _ FK) as [R0 R1]; [unfold top, eps in *; rabs; lra|]. fold r in R0, R1. unfold eps in *.
  assert (Q : - 4 < 2 * IZR r - (IZR b + IZR w) < 2) by (rabs; lra). clear - Q W.
  assert (Q1 : IZR (-4) < IZR (2 * r - (b + w)) < IZR 2) by (rewrite minus_IZR, mult_IZR, plus_IZR; exact Q). destruct Q1 as [Q1 Q2]. apply lt_IZR in Q1, Q2. lia.
Qed.

(** the diagonals *)
Notation diagonal := (diagonal_of (pix g)).
Notation diagonal_length := (diagonal_end (gw g) (gh g)).

Lemma diagonal_sound xc r px0 py0 ms v f : (forall k, steady (diagonal k) (diagonal_length k - 1)) ->
  fin px0 xc -> fin py0 (IZR r) -> 0 <= xc <= 67108864 -> (0 <= r < gh g)%Z -> fin ms v -> 1 <= v <= 16777216 ->
  refine_diagonal g (Pt px0 py0) ms = Ok (Some f) ->
  exists k d e, (0 <= d)%Z /\ (d + 7 <= e <= diagonal_length k)%Z /\ Rabs (IZR k - (xc - IZR r)) <= 1.1 /\ five_stretches (diagonal k) d e /\
    IZR r - 5 * v - 0.6 <= IZR (d + Z.max (- k) 0) /\ IZR (e + Z.max (- k) 0) <= IZR r + 5 * v + 0.6.
Proof.
  intros HS FX FY BX BR FM BV H. unfold refine_diagonal in H.
  assert (RR : 0 <= IZR r <= 67108864) by (split; apply IZR_le; lia).
  pose proof (diag_start (Pt px0 py0) xc (IZR r) ms v FX FY) as DS. cbv zeta in DS. cbn [px py] in DS, H.
  destruct DS as (q & Q0 & RX & RY & DX & DY & _); [unfold top; lra|unfold top; lra|exact FM|unfold top; lra|].
  destruct (diagonal_start _ _) as [sx sy]. cbn [fst snd] in *.
  pose proof (path_end py0 (IZR r) ms v FY FM ltac:(unfold top; lra) ltac:(unfold top; lra)) as PE.
  set (rx := round_u32 sx) in *. set (ry := round_u32 sy) in *. set (ey := round_u32 (fadd py0 _)) in *. set (ex := round_u32 (fadd px0 _)) in *.
  rewrite (combine_zrange _ _ _ _ (Z.min rx ry)) in H. set (k := (rx - ry)%Z).
  assert (EK : Rabs (IZR k - (xc - IZR r)) <= 1.1) by (unfold k; rewrite minus_IZR; rabs; lra).
  set (h := fun t : Z => (t + Z.max k 0, t + Z.max (- k) 0)%Z).
  set (e0 := (Z.min rx ry + Z.min (Z.min ex (gw g) - rx) (Z.min ey (gh g) - ry))%Z) in *.
  assert (EL : (e0 <= diagonal_length k)%Z) by (unfold e0, diagonal_end, k; lia).
  rewrite (map_ext _ h) in H by (intros t; unfold h, k; f_equal; lia).
  apply refine_sound in H; auto; [|lia|unfold u32_max, diagonal_end in *; lia| |].
  - destruct H as (d & e & D & E & FS & _). exists k, d, e. split; [lia|]. split; [lia|]. split; [exact EK|]. split; [exact FS|].
    assert (D1 : (ry <= d + Z.max (- k) 0)%Z) by (unfold k; lia). assert (E1 : (e + Z.max (- k) 0 <= ey)%Z) by (unfold e0, k in *; lia).
    apply IZR_le in D1, E1. clear - D1 E1 DY PE Q0. split; rabs; lra.
  - intros t Ht. unfold in_image, h. cbn [fst snd]. unfold diagonal_end in EL. lia.
  - intros a b d Ha Hb. apply (HS k); lia.
Qed.

Lemma refine_all_sound x y T loc ms' : (forall x, (0 <= x < gw g)%Z -> steady (fun y => pix g x y) (gh g - 1)) ->
  (forall y, (0 <= y < gh g)%Z -> steady (fun x => pix g x y) (gw g - 1)) ->
  (0 <= x < gw g)%Z -> (0 <= y < gh g)%Z -> (7 <= T <= u32_max)%Z ->
  refine_all g (Pt (fsub (of_Z x) (fmul (est_of T) (lit 7 2))) (of_Z y)) (est_of T) = Ok (Some (loc, ms')) ->
  exists u r a z b w xc, (0 <= a)%Z /\ (a < u < z)%Z /\ (z <= gw g)%Z /\ (0 <= b)%Z /\ (b <= r < w)%Z /\ (w <= gh g)%Z /\
    five_stretches (fun y => pix g u y) b w /\ five_stretches (fun x => pix g x r) a z /\ (Z.abs (2 * r - (b + w)) <= 3)%Z /\
    fin (px loc) xc /\ fin (py loc) (IZR r) /\ -2.001 <= 2 * xc - IZR (a + z) <= 0.001 /\ (7 * (w - b) <= 10 * (z - a) <= 15 * (w - b))%Z /\
    ((forall k, steady (diagonal k) (diagonal_length k - 1)) -> exists k d e, (0 <= d)%Z /\ (d + 7 <= e <= diagonal_length k)%Z /\
      Rabs (IZR k - (xc - IZR r)) <= 1.1 /\ five_stretches (diagonal k) d e /\ (r - (z - a) <= d + Z.max (- k) 0)%Z /\ (e + Z.max (- k) 0 <= r + (z - a))%Z).
Proof.
  intros HC HR Hx Hy HT H. pose proof HW as (W1 & W2 & _).
  destruct (half_finder T ltac:(lia)) as (h0 & _ & FH0 & BH0). pose proof (IZR_32 T ltac:(lia)) as RT.
  assert (FX : fin (fsub (of_Z x) (fmul (est_of T) (lit 7 2))) (rnd (IZR x - h0))) by (apply fin_sub_int; [exact FH0|lra|lia]).
  assert (LX : rnd (IZR x - h0) <= IZR x) by (rewrite <- (rnd_int x) at 2 by (unfold u32_max in *; lia); apply rnd_le; lra).
  pose proof (round_below _ _ x FX LX ltac:(lia)) as RX. set (u := round_u32 (fsub (of_Z x) (fmul (est_of T) (lit 7 2)))) in *.
  destruct (est_size T ltac:(lia)) as (v0 & FV0 & BV0).
  unfold refine_all in H. apply bind_ok in H as (ov & EV & H). destruct ov as [fv|]; [|discriminate].
  unfold refine_vertical in EV. cbn [px py] in EV. fold u in EV.
  apply (line_sound (fun t => (u, t)) (gh g) (est_of T) v0) in EV; auto;
    [|intros t Ht; unfold in_image; cbn [fst snd]; lia|apply (HC u); lia|apply round_u32_range|lia].
  cbn [fst snd] in EV. destruct EV as (b & w & zv & v1 & B & W & SV & ZV1 & ZV2 & LV & LAV & FV1 & GV1 & EV1 & DV1 & DV2).
  match type of B with (?s0 <= b)%Z => assert (S0 : (0 <= s0)%Z) by apply round_u32_range end.
  assert (B0 : (0 <= b)%Z) by lia. assert (WH : (w <= gh g)%Z) by lia.
  pose proof (column_middle b w zv B0 ltac:(lia) ZV1) as CM. cbv zeta in CM.
  unfold adjust in H. rewrite LV, LAV in H. cbn [px py] in H.
  assert (TV : 7 <= IZR (w - b) <= 67108864) by (split; apply IZR_le; lia).
  destruct (half_f (w - b) ltac:(lia)) as (h1 & FH1 & EH1). pose proof (fin_0_sub u _ h1 FH1 ltac:(lia)) as FXU.
  set (py1 := fsub (of_Z zv) _) in *. set (px1 := fsub (of_Z u) _) in *. set (ms1 := fp_module_size fv) in *. set (r := round_u32 py1) in *.
  assert (V1 : v1 <= 16777216) by (rabs; lra).
  clear S0 B ZV1 LV LAV FV0 FX LX.
  apply bind_ok in H as (oh & EH & H). destruct oh as [fh|]; [|discriminate].
  unfold refine_horizontal in EH. cbn [px py] in EH. fold r in EH.
  assert (UR : 0 <= IZR u <= 67108864) by (split; apply IZR_le; lia).
  destruct (path_start px1 (IZR u) ms1 v1 FXU FV1) as [P0 P1]; [unfold top; lra|unfold top; lra|].
  pose proof (path_end px1 (IZR u) ms1 v1 FXU FV1 ltac:(unfold top; lra) ltac:(unfold top; lra)) as PE.
  set (sx := round_u32 (fmax0 _)) in *. set (ex := round_u32 (fadd px1 _)) in *.
  apply (line_sound (fun t => (t, r)) (gw g) ms1 v1) in EH; auto;
    [|intros t Ht; unfold in_image; cbn [fst snd]; lia|apply (HR r); lia|lia|lra].
  cbn [fst snd] in EH. destruct EH as (a & z & zh & v2 & A & Z & SH & ZH1 & ZH2 & LH & LAH & FV2 & GV2 & EV2 & DH1 & DH2).
  rewrite LH, LAH in H. cbn [px py] in H.
  assert (TH : 7 <= IZR (z - a) <= 67108864) by (split; apply IZR_le; lia).
  destruct (half_f (z - a) ltac:(lia)) as (h2 & FH2 & EH2). pose proof (fin_0_sub r _ h2 FH2 ltac:(lia)) as FYR.
  assert (F1 : fin (fmul (of_Z 1) (fmul (lit 7 2) (est_of (z - a)))) h2) by (apply fin_1_mul; [exact FH2|rabs; lra]).
  assert (ZR : 0 <= IZR zh <= 67108864) by (split; apply IZR_le; lia).
  destruct (sub_f (of_Z zh) _ (IZR zh) h2 (fin_of_Z zh ltac:(lia)) F1) as (xc & FXC & EXC); [clear - ZR EH2 TH; unfold top; rabs; lra..|].
  apply bind_ok in H as (od & ED & H). destruct od as [fd|]; [|discriminate]. apply ok_pair in H as [<- <-]. cbn [px py]. clear FH1 EH1 FH0 BH0 RT.
  assert (ZA : IZR (z - a) = IZR z - IZR a) by apply minus_IZR.
  assert (ZZ : IZR z - 1 <= IZR zh <= IZR z) by (split; [rewrite <- (minus_IZR z 1); apply IZR_le; lia|apply IZR_le; lia]).
  assert (PA : IZR u - 5 * v1 - 17 / 32 <= IZR a) by (apply Rle_trans with (IZR sx); [pose proof (Rmax_r 0 (IZR u - 5 * v1)); lra|apply IZR_le; lia]).
  assert (PZ : IZR z <= IZR u + 5 * v1 + 17 / 32) by (apply Rle_trans with (IZR ex); [apply IZR_le; lia|clear - PE; rabs; lra]).
  exists u, r, a, z, b, w, xc. splits; auto; try lia; [..|intros HDI].
  - apply lt_IZR. lra.
  - apply lt_IZR. lra.
  - unfold eps in *. rewrite plus_IZR. clear - EXC EH2 ZZ ZA. rabs; lra.
  - unfold eps in *. rewrite plus_IZR. clear - EXC EH2 ZZ ZA. rabs; lra.
  - apply le_IZR. rewrite !mult_IZR. clear - EV1 DV1 DV2 DH1 DH2 TH TV. rabs; lra.
  - apply le_IZR. rewrite !mult_IZR. clear - EV1 DV1 DV2 DH1 DH2 TH TV. rabs; lra.
  - assert (V2 : v2 <= 16777216) by (clear - EV2 TH V1; rabs; lra).
    assert (XB : 0 <= xc <= 67108864) by (assert (0 <= IZR a) by (apply IZR_le; lia); unfold eps in *; clear - H EXC EH2 ZZ ZA ZR TH; rabs; lra).
    destruct (diagonal_sound xc r _ _ _ v2 fd HDI FXC FYR XB ltac:(lia) FV2 ltac:(lra) ED) as (k & d & e & D & E & EK & FS & D1 & E1).
    exists k, d, e. split; [exact D|]. split; [exact E|]. split; [exact EK|]. split; [exact FS|].
    split; apply le_IZR; [rewrite (minus_IZR r (z - a))|rewrite (plus_IZR r (z - a))]; clear - D1 E1 EV2 DH1 TH; rabs; lra.
Qed.
End Cross.
