(** C01-C04: the bit reader of util/chomp.rs. *)
From Coq Require Import Lia.
From Verif.Model Require Import Chomp.
From Verif.Spec Require Import Bits Reader.
From Verif.Proofs Require Import BaseP BitsP ChompP.
Open Scope N_scope.

(** C01.  [sizes] are requests that all find enough bits; they return consecutive
    fields, and the next request [n] succeeds exactly if enough bits are left. *)
Theorem C01_chomp_consecutive bytes sizes n :
  Forall is_byte bytes ->
  Forall (fun n => 1 <= n <= 8) sizes ->
  total sizes <= N.of_nat (length (bits bytes)) ->
  1 <= n <= 8 ->
  exists c c',
    chomp_calls (chomp_new bytes) sizes = Ok (map Some (cut (bits bytes) sizes), c) /\
    chomp c n =
      Ok (let left := skipn (N.to_nat (total sizes)) (bits bytes) in
          if n <=? N.of_nat (length left)
          then Some (bval (firstn (N.to_nat n) left)) else None, c').
Proof.
  intros HB HS HT Hn.
  destruct (chomp_calls_fresh sizes (chomp_new bytes)) as (c & Hc & HI & HF & HR).
  - now apply chomp_new_inv.
  - apply chomp_new_fresh.
  - assumption.
  - unfold remaining. now rewrite chomp_new_rest.
  - rewrite chomp_new_rest in *. cbv zeta. rewrite <- HR.
    destruct (N.leb_spec n (N.of_nat (length (rest c)))) as [H|H].
    + destruct (chomp_granted c n HI HF Hn H) as (c' & H' & _). eauto.
    + destruct (chomp_refused c n HI HF Hn H) as (c' & H' & _). eauto.
Qed.

Example C01_case :
  exists c, chomp_calls (chomp_new [235; 109; 174]) [3; 8; 8]
            = Ok ([Some 7; Some 91; Some 109], c).
Proof. eexists. reflexivity. Qed.

(** C02.  For requests of any size, granted or not: no panic, and the granted ones get
    consecutive bits. *)
Theorem C02_chomp_never_reorders bytes sizes :
  Forall is_byte bytes ->
  exists answers c left,
    chomp_calls (chomp_new bytes) sizes = Ok (answers, c) /\
    consecutive (bits bytes) sizes answers left.
Proof.
  intros HB.
  destruct (chomp_calls_any sizes (chomp_new bytes)) as (os & c & H1 & _ & H2).
  - now apply chomp_new_inv.
  - rewrite chomp_new_rest in H2. eauto.
Qed.

Example C02_case :
  exists c, chomp_calls (chomp_new [235]) [3; 0; 9; 8; 4; 200; 1]
            = Ok ([Some 7; None; None; None; None; None; Some 0], c).
Proof. eexists. reflexivity. Qed.

(** C03 does not hold: after chomp(3) and a refused chomp(8) five bits are left, but
    chomp(5) is refused. *)
Theorem C03_chomp_after_refusal_refuted :
  ~ (forall bytes sizes refused_size n answers c c1,
       Forall is_byte bytes -> Forall (fun n => 1 <= n <= 8) sizes ->
       chomp_calls (chomp_new bytes) sizes = Ok (map Some answers, c) ->
       chomp c refused_size = Ok (None, c1) ->
       1 <= n <= 8 ->
       total sizes + n <= N.of_nat (length (bits bytes)) ->
       exists v c2, chomp c1 n = Ok (Some v, c2)).
Proof.
  intros H.
  assert (Hb : Forall is_byte [235]) by (repeat constructor).
  assert (Hs : Forall (fun n => 1 <= n <= 8) [3]) by (repeat constructor; lia).
  destruct (H [235] [3] 8 5 [7] _ _ Hb Hs eq_refl eq_refl) as (v & c2 & E).
  - lia.
  - vm_compute. discriminate.
  - discriminate E.
Qed.

(** What holds instead: a request of a size outside 1..8 changes nothing at all, and one
    refused for lack of bits does no harm if at most four bits are left.  Missing for
    C03: five to seven bits left. *)
Theorem C03_chomp_after_refusal_partial bytes sizes refused_size n answers c c1 :
  Forall is_byte bytes -> Forall (fun n => 1 <= n <= 8) sizes ->
  chomp_calls (chomp_new bytes) sizes = Ok (map Some answers, c) ->
  chomp c refused_size = Ok (None, c1) ->
  1 <= n <= 8 ->
  total sizes + n <= N.of_nat (length (bits bytes)) ->
  ~ 1 <= refused_size <= 8 \/ N.of_nat (length (bits bytes)) <= total sizes + 4 ->
  let left := skipn (N.to_nat (total sizes)) (bits bytes) in
  exists c2, chomp c1 n = Ok (Some (bval (firstn (N.to_nat n) left)), c2).
Proof.
  intros HB HS HC HR Hn HT HD left.
  destruct (chomp_calls_fresh sizes (chomp_new bytes)) as (c' & Hc & HI & HF & HL).
  { now apply chomp_new_inv. } { apply chomp_new_fresh. } { assumption. }
  { unfold remaining. rewrite chomp_new_rest. lia. }
  rewrite HC in Hc. injection Hc as _ <-.
  rewrite chomp_new_rest in HL. fold left in HL.
  assert (Hrem : remaining c = N.of_nat (length (bits bytes)) - total sizes).
  { unfold remaining. rewrite HL. unfold left. rewrite skipn_length. lia. }
  destruct (chomp_spec c refused_size HI) as (o & c1' & E & [G|R]).
  { rewrite HR in E. injection E as <- <-. destruct G as [G _]. discriminate. }
  rewrite HR in E. injection E as <- <-.
  destruct R as (_ & R1 & R2 & R3 & R4 & R5).
  destruct HD as [HD|HD].
  - rewrite (R3 HD).
    destruct (chomp_granted c n HI HF Hn ltac:(lia)) as (c2 & H2 & _).
    rewrite HL in H2. eauto.
  - specialize (R5 HF ltac:(lia)).
    destruct (chomp_spec c1 n R2) as (o & c2 & E & [G|R]).
    + destruct G as (-> & _). rewrite R1, HL in E. eauto.
    + exfalso. destruct R as (-> & _).
      assert (Hrem1 : remaining c1 = remaining c) by (unfold remaining; now rewrite R1).
      revert E. unfold chomp.
      destruct (N.leb_spec 1 n); [|lia]. destruct (N.leb_spec n 8); [|lia].
      destruct (N.ltb_spec (cbits_left c1) n); [lia|]. cbn [negb andb orb].
      destruct R2 as [_ HC2].
      destruct (ccur c1) as [b|] eqn:Ec.
      2:{ assert (remaining c1 = 0); [|lia].
          unfold remaining, rest. rewrite Ec. destruct HC2 as [_ ->]. reflexivity. }
      destruct HC2 as [Hb Hin].
      pose proof (remaining_some c1 b Ec ltac:(lia)) as Hr.
      assert (HN : cbytes c1 = []) by (destruct (cbytes c1); auto; simpl in Hr; lia).
      rewrite HN in Hr. simpl in Hr.
      destruct (N.ltb_spec n (cin_byte c1)).
      * unfold nibble. rewrite Ec, sub_N_ok by lia. cbn [bind].
        rewrite shr_u8_ok by lia. cbn [bind]. rewrite shl_u8_ok by lia. cbn [bind].
        rewrite sub_N_ok by lia. cbn [bind]. discriminate.
      * destruct (N.eqb_spec n (cin_byte c1)); [|lia].
        rewrite sub_N_ok by lia. cbn [bind]. rewrite shr_u8_ok by lia. cbn [bind]. rewrite sub_N_ok by lia.
        cbn [bind]. discriminate.
Qed.

Example C03_case :
  exists c c1 c2,
    chomp_calls (chomp_new [235; 173]) [8; 4] = Ok (map Some [235; 10], c) /\
    chomp c 8 = Ok (None, c1) /\ chomp c1 4 = Ok (Some 13, c2).
Proof. eexists _, _, _. repeat split. Qed.

(** C04 does not hold for sizes above 16: with 17..23 bits the first byte is lost, with
    24 and more the shift overflows. *)
Theorem C04_chomp_u16_refuted :
  (exists c, chomp_or_u16 (chomp_new [255; 255; 128]) 17 = Ok (Some 511, c)) /\
  chomp_or_u16 (chomp_new [255; 255; 255]) 24 = Panic PArith.
Proof. split; [eexists|]; reflexivity. Qed.

(** What holds: sizes 0..16 after any history of granted requests. *)
Theorem C04_chomp_u16_partial bytes sizes n :
  Forall is_byte bytes ->
  Forall (fun n => 1 <= n <= 8) sizes ->
  total sizes <= N.of_nat (length (bits bytes)) ->
  0 <= n <= 16 ->
  exists c c',
    chomp_calls (chomp_new bytes) sizes = Ok (map Some (cut (bits bytes) sizes), c) /\
    chomp_or_u16 c n =
      Ok (let left := skipn (N.to_nat (total sizes)) (bits bytes) in
          if (1 <=? n) && (n <=? N.of_nat (length left))
          then Some (bval (firstn (N.to_nat n) left)) else None, c').
Proof.
  intros HB HS HT Hn.
  destruct (chomp_calls_fresh sizes (chomp_new bytes)) as (c & Hc & HI & HF & HR).
  - now apply chomp_new_inv.
  - apply chomp_new_fresh.
  - assumption.
  - unfold remaining. now rewrite chomp_new_rest.
  - rewrite chomp_new_rest in *. cbv zeta. rewrite <- HR.
    destruct (N.leb_spec 1 n) as [H1|H1].
    + destruct (N.leb_spec n (N.of_nat (length (rest c)))) as [H|H].
      * destruct (chomp_u16_granted c n HI HF ltac:(lia) H) as (c' & H' & _). eauto.
      * destruct (chomp_u16_refused c n HI HF ltac:(lia) H) as (c' & H' & _). eauto.
    + replace n with 0 by lia. exists c, c. split; [exact Hc|]. apply chomp_u16_zero.
Qed.

Example C04_case :
  exists c, chomp_or_u16 (chomp_new [235; 109; 174]) 12 = Ok (Some 3766, c) /\
            exists c', chomp_or_u16 c 13 = Ok (None, c').
Proof. eexists. split; [reflexivity|]. eexists. reflexivity. Qed.

Print Assumptions C01_chomp_consecutive.
Print Assumptions C02_chomp_never_reorders.
Print Assumptions C03_chomp_after_refusal_refuted.
Print Assumptions C03_chomp_after_refusal_partial.
Print Assumptions C04_chomp_u16_refuted.
Print Assumptions C04_chomp_u16_partial.
