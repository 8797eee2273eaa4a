(** The three finder patterns of a drawn symbol. *)
From Coq Require Import NArith ZArith Lia Bool.
From Verif.Spec Require Import Drawing.
Local Open Scope Z_scope.

Lemma in_modules m a b c i : 0 <= i < m -> a * m <= c * m + i < b * m <-> a <= c < b.
Proof. intros Hi. split; intros H; nia. Qed.

Section Symbol.
Context (pixel : Z -> Z -> option N) (m ox oy n : Z) (dark : Z -> Z -> bool).
Context (HD : drawn pixel m ox oy n dark) (HW : quiet_zone pixel m ox oy n) (HN : 21 <= n).

Lemma at_module x y : ox <= x < ox + n * m -> oy <= y < oy + n * m -> exists r c i j,
  0 <= r < n /\ 0 <= c < n /\ 0 <= i < m /\ 0 <= j < m /\ x = ox + c * m + i /\ y = oy + r * m + j /\
  pixel x y = Some (if dark r c then 0%N else 255%N).
Proof.
  intros Hx Hy. destruct HD as (X & Y & M & D).
  pose proof (Z.div_mod (x - ox) m ltac:(lia)). pose proof (Z.mod_pos_bound (x - ox) m ltac:(lia)).
  pose proof (Z.div_mod (y - oy) m ltac:(lia)). pose proof (Z.mod_pos_bound (y - oy) m ltac:(lia)).
  set (c := (x - ox) / m) in *. set (r := (y - oy) / m) in *. set (i := (x - ox) mod m) in *. set (j := (y - oy) mod m) in *.
  assert (0 <= c < n) by nia. assert (0 <= r < n) by nia.
  exists r, c, i, j. replace x with (ox + c * m + i) by nia. replace y with (oy + r * m + j) by nia. repeat split; auto; lia.
Qed.

(** a module of the symbol is of one colour, and so is one of the paper around *)
Lemma module_plain r c : 0 <= r < n -> 0 <= c < n -> plain pixel (ox + c * m) (ox + (c + 1) * m) (oy + r * m) (oy + (r + 1) * m).
Proof.
  intros Hr Hc. destruct HD as (X & Y & M & D).
  assert (E : forall x y v, ox + c * m <= x < ox + (c + 1) * m -> oy + r * m <= y < oy + (r + 1) * m -> pixel x y = Some v -> v = if dark r c then 0%N else 255%N).
  { intros x y v Hx Hy P. replace x with (ox + c * m + (x - ox - c * m)) in P by lia. replace y with (oy + r * m + (y - oy - r * m)) in P by lia.
    rewrite D in P by lia. now injection P. }
  unfold plain, one_colour. destruct (dark r c); [left|right]; intros x y v Hx Hy _ _; now apply E.
Qed.
Lemma unit_plain x0 y0 x1 y1 r c : x0 = ox + c * m -> x1 = x0 + m -> y0 = oy + r * m -> y1 = y0 + m -> -3 <= r < n + 3 -> -3 <= c < n + 3 -> plain pixel x0 x1 y0 y1.
Proof.
  intros -> -> -> -> Hr Hc. destruct HD as (X & Y & M & _). replace (ox + c * m + m) with (ox + (c + 1) * m) by ring. replace (oy + r * m + m) with (oy + (r + 1) * m) by ring.
  assert (I : (0 <= r < n /\ 0 <= c < n) \/ ~ (0 <= r < n /\ 0 <= c < n)) by lia. destruct I as [[Ir Ic]|O]; [now apply module_plain|].
  right. intros x y v Hx Hy Px Py P. apply (HW x y v Px Py); auto.
  - assert (-3 * m <= c * m) by (apply Z.mul_le_mono_nonneg_r; lia). assert ((c + 1) * m <= (n + 3) * m) by (apply Z.mul_le_mono_nonneg_r; lia). lia.
  - assert (-3 * m <= r * m) by (apply Z.mul_le_mono_nonneg_r; lia). assert ((r + 1) * m <= (n + 3) * m) by (apply Z.mul_le_mono_nonneg_r; lia). lia.
  - intros [Ix Iy]. apply O. split; [apply (in_modules m 0 n r (y - oy - r * m) ltac:(lia)); lia|apply (in_modules m 0 n c (x - ox - c * m) ltac:(lia)); lia].
Qed.

(** a finder pattern in a corner of the symbol *)
Context (cr cc : Z) (HF : finder_block n dark cr cc) (HCr : cr = 0 \/ cr = n - 7) (HCc : cc = 0 \/ cc = n - 7).
Context (HR : cc = n - 7 -> forall y, oy + cr * m <= y < oy + cr * m + 7 * m -> pixel (ox + n * m) y = Some 255%N).

Lemma block_dark r c : 0 <= r < 7 -> 0 <= c < 7 -> dark (cr + r) (cc + c) = finder_dark r c.
Proof.
  intros Hr Hc. rewrite HF by lia. destruct (Z.leb_spec 0 r); [|lia]. destruct (Z.leb_spec 0 c); [|lia].
  destruct (Z.ltb_spec r 7); [|lia]. destruct (Z.ltb_spec c 7); [|lia]. reflexivity.
Qed.
Lemma block_light r c : -1 <= r < 8 -> -1 <= c < 8 -> ~ (0 <= r < 7 /\ 0 <= c < 7) ->
  0 <= cr + r < n -> 0 <= cc + c < n -> dark (cr + r) (cc + c) = false.
Proof.
  intros Hr Hc HNo Br Bc. rewrite HF by assumption.
  destruct (Z.leb_spec 0 r), (Z.leb_spec 0 c), (Z.ltb_spec r 7), (Z.ltb_spec c 7); try reflexivity. lia.
Qed.

Theorem block_drawn : finder_drawn pixel m (ox + cc * m) (oy + cr * m).
Proof.
  pose proof HD as (X & Y & M & D). assert (B : 0 <= cr /\ 0 <= cc /\ cr + 7 <= n /\ cc + 7 <= n) by lia.
  assert (Q1 : 0 <= cr * m) by nia. assert (Q2 : 0 <= cc * m) by nia. assert (Q3 : cr * m + 7 * m <= n * m) by nia. assert (Q4 : cc * m + 7 * m <= n * m) by nia.
  split; [|split; [|split; [|split; [|split; [|split; [|split]]]]]].
  - split; [lia|]. split; [lia|]. split; [lia|]. intros r c i j Hr Hc Hi Hj.
    replace (ox + cc * m + c * m + i) with (ox + (cc + c) * m + i) by ring. replace (oy + cr * m + r * m + j) with (oy + (cr + r) * m + j) by ring.
    rewrite D by lia. now rewrite block_dark.
  - intros x y v Hx Hy HNo Px Py P.
    assert (IN : (ox <= x < ox + n * m /\ oy <= y < oy + n * m) \/ ~ (ox <= x < ox + n * m /\ oy <= y < oy + n * m)) by lia.
    destruct IN as [[Ix Iy]|Out]; [|apply (HW x y v Px Py); auto; lia].
    destruct (at_module x y Ix Iy) as (r & c & i & j & Hr & Hc & Hi & Hj & -> & -> & P'). rewrite P' in P. injection P as <-.
    assert (cc - 1 <= c < cc + 8) by (apply (in_modules m _ _ _ i Hi); lia). assert (cr - 1 <= r < cr + 8) by (apply (in_modules m _ _ _ j Hj); lia).
    replace r with (cr + (r - cr)) by lia. replace c with (cc + (c - cc)) by lia. rewrite block_light; auto; try lia.
    intros [I1 I2]. apply HNo. pose proof (proj2 (in_modules m cc (cc + 7) c i Hi) ltac:(lia)). pose proof (proj2 (in_modules m cr (cr + 7) r j Hj) ltac:(lia)). lia.
  - apply (unit_plain _ _ _ _ (cr - 2) (cc - 2)); lia.
  - apply (unit_plain _ _ _ _ (cr - 2) (cc - 1)); lia.
  - apply (unit_plain _ _ _ _ (cr + 3) (cc - 2)); lia.
  - apply (unit_plain _ _ _ _ (cr - 2) (cc + 3)); lia.
  - apply (unit_plain _ _ _ _ (cr - 3) (cc + 3)); lia.
  - intros y Hy. destruct HCc as [E|E].
    + assert (cc * m + 7 * m + m <= n * m) by nia.
      destruct (at_module (ox + cc * m + 7 * m) y ltac:(lia) ltac:(lia)) as (r & c & i & j & Hr & Hc & Hi & Hj & Ex & -> & ->).
      assert (cc + 7 <= c < cc + 7 + 1) as Ec by (apply (in_modules m _ _ _ i Hi); lia). assert (c = cc + 7) as -> by lia.
      assert (cr <= r < cr + 7) by (apply (in_modules m _ _ _ j Hj); lia). replace r with (cr + (r - cr)) by lia. rewrite block_light; auto; lia.
    + replace (ox + cc * m + 7 * m) with (ox + n * m) by (rewrite E; ring). now apply HR.
Qed.
End Symbol.

(** *** symbols with the finder patterns in the usual corners *)
Lemma dark_sym r c : finder_dark r (6 - c) = finder_dark r c /\ finder_dark (6 - r) c = finder_dark r c.
Proof. unfold finder_dark. split; f_equal; f_equal; f_equal; lia. Qed.

(** the corner with its upper left module in row [cr], column [cc] *)
Definition corner_at (n cr cc : Z) : Prop := cr = 0 /\ cc = 0 \/ cr = 0 /\ cc = n - 7 \/ cr = n - 7 /\ cc = 0.

Lemma corner_block n dark cr cc : 21 <= n -> finder_corners n dark -> corner_at n cr cc -> finder_block n dark cr cc.
Proof.
  intros HN HF HC r c Hr Hc Br Bc. destruct (dark_sym r c) as [S1 S2]. destruct HC as [[-> ->]|[[-> ->]|[-> ->]]].
  - rewrite !Z.add_0_l in *. destruct (HF r c ltac:(lia) ltac:(lia)) as (E & _). rewrite E. destruct (Z.leb_spec 0 r); [|lia]. destruct (Z.leb_spec 0 c); [|lia].
    now rewrite andb_true_r.
  - rewrite !Z.add_0_l in *. destruct (HF r (6 - c) ltac:(lia) ltac:(lia)) as (_ & E & _). replace (n - 7 + c) with (n - 1 - (6 - c)) by lia. rewrite E, S1.
    destruct (Z.leb_spec 0 r); [|lia]. destruct (Z.leb_spec 0 c), (Z.ltb_spec r 7), (Z.ltb_spec c 7), (Z.ltb_spec (6 - c) 7); try reflexivity; lia.
  - rewrite !Z.add_0_l in *. destruct (HF (6 - r) c ltac:(lia) ltac:(lia)) as (_ & _ & E). replace (n - 7 + r) with (n - 1 - (6 - r)) by lia. rewrite E, S2.
    destruct (Z.leb_spec 0 c); [|lia]. destruct (Z.leb_spec 0 r), (Z.ltb_spec r 7), (Z.ltb_spec c 7), (Z.ltb_spec (6 - r) 7); try reflexivity; lia.
Qed.

Lemma white_quiet pixel m ox oy n : white_around pixel m ox oy n -> quiet_zone pixel m ox oy n.
Proof. intros H x y v Px Py _ _ O P. now apply (H x y v). Qed.

(** a quarter turn takes blocks to blocks *)
Lemma quarter_block n dark cr cc : finder_block n dark cr cc -> finder_block n (quarter n dark) cc (n - 7 - cr).
Proof.
  intros H r c Hr Hc Br Bc. unfold quarter. replace (n - 1 - (n - 7 - cr + c)) with (cr + (6 - c)) by lia. rewrite H by lia.
  assert (S : finder_dark (6 - c) r = finder_dark r c) by (unfold finder_dark; do 2 f_equal; lia). rewrite S.
  destruct (Z.leb_spec 0 r), (Z.leb_spec 0 c), (Z.ltb_spec r 7), (Z.ltb_spec c 7), (Z.leb_spec 0 (6 - c)), (Z.ltb_spec (6 - c) 7); try reflexivity; lia.
Qed.

Theorem corner_drawn pixel m ox oy n dark : drawn pixel m ox oy n dark -> finder_corners n dark -> white_around pixel m ox oy n -> 21 <= n ->
  (forall y, oy <= y < oy + 7 * m -> pixel (ox + n * m) y = Some 255%N) ->
  forall cr cc, corner_at n cr cc -> finder_drawn pixel m (ox + cc * m) (oy + cr * m).
Proof.
  intros HD HF HW HN HR cr cc HC. apply (block_drawn pixel m ox oy n dark HD (white_quiet _ _ _ _ _ HW) HN).
  - now apply corner_block.
  - unfold corner_at in HC. lia.
  - unfold corner_at in HC. lia.
  - intros E y Hy. apply HR. unfold corner_at in HC. assert (cr = 0) as -> by lia. lia.
Qed.

(** *** the runs of the third row *)
Section Row.
Context (f : Z -> N) (m ox n : Z) (dark : Z -> bool) (Hm : 1 <= m) (Hx : 0 <= ox).
Context (HL : forall x, 0 <= x < ox -> f x = 255%N).
Context (HM : forall c i, 0 <= c < n -> 0 <= i < m -> f (ox + c * m + i) = if dark c then 0%N else 255%N).

(** colours change only where modules meet *)
Lemma change_at a : 0 < a < ox + n * m -> f (a - 1) <> f a -> exists c, 0 <= c < n /\ a = ox + c * m.
Proof.
  intros Ha HC. destruct (Z_lt_le_dec a ox) as [L|L]; [exfalso; apply HC; now rewrite !HL by lia|].
  pose proof (Z.div_mod (a - ox) m ltac:(lia)) as E. pose proof (Z.mod_pos_bound (a - ox) m ltac:(lia)) as B.
  set (c := (a - ox) / m) in *. set (i := (a - ox) mod m) in *. assert (Ea : a = ox + c * m + i) by lia.
  assert (0 <= c < n) by (apply (in_modules m _ _ _ i B); lia).
  exists c. split; [assumption|]. destruct (Z.eq_dec i 0) as [Z0|NZ]; [lia|]. exfalso. apply HC.
  replace (a - 1) with (ox + c * m + (i - 1)) by lia. rewrite Ea. rewrite !HM by lia. reflexivity.
Qed.

(** only runs that begin inside of the row count: white ones not before the first dark module *)
Lemma row_fits k : k < n -> (forall c, 0 <= c -> c + 11 <= k -> (if c =? 0 then false else dark (c - 1)) <> dark c -> exists j, 0 < j <= 10 /\ dark (c + j) <> dark c) ->
  runs_fit f m (ox + k * m).
Proof.
  intros Hk HV a b Hab Hb HS HA HB.
  assert (k * m < n * m) by (apply Z.mul_lt_mono_pos_r; lia).
  destruct (change_at a ltac:(lia) HA) as (c & Hc & Ea).
  destruct (change_at b ltac:(lia)) as (d & Hd & Eb).
  { rewrite (HS (b - 1)) by lia. intros E. apply HB. now rewrite <- E. }
  assert (LT : c < d) by (apply (Z.mul_lt_mono_pos_r m); lia).
  assert (dk : d <= k) by (apply (Z.mul_le_mono_pos_r _ _ m); lia).
  replace (b - a) with ((d - c) * m) by (subst; ring). split.
  - replace m with (1 * m) at 1 by ring. apply Z.mul_le_mono_nonneg_r; lia.
  - apply Z.mul_le_mono_nonneg_r; [lia|]. apply Z.nlt_ge. intros G. destruct (HV c ltac:(lia) ltac:(lia)) as (j & Hj & N).
    { intros E. apply HA. rewrite Ea at 2. rewrite <- (Z.add_0_r (ox + c * m)), HM by lia. rewrite <- E. destruct (Z.eqb_spec c 0) as [C0|C0].
      - apply HL. subst c. lia.
      - replace (a - 1) with (ox + (c - 1) * m + (m - 1)) by lia. apply HM; lia. }
    apply N.
    assert (T : (if dark (c + j) then 0%N else 255%N) = (if dark c then 0%N else 255%N)).
    { rewrite <- (HM (c + j) 0), <- (HM c 0) by lia. rewrite !Z.add_0_r.
      assert ((c + j) * m <= (d - 1) * m) by (apply Z.mul_le_mono_nonneg_r; lia). assert (c * m <= (c + j) * m) by (apply Z.mul_le_mono_nonneg_r; lia).
      rewrite (HS (ox + (c + j) * m)) by lia. now rewrite <- Ea. }
    destruct (dark (c + j)), (dark c); congruence.
Qed.
End Row.
