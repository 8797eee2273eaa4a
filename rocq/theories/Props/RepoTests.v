(** The unit tests of /repo and two of its image tests, run on the model.  They are no proofs about
    all inputs; they show that the model computes what the tests of the code expect.  The image
    tests start from the modules sampled from the picture; DESIGN.md says how the whole model was
    run on the pictures themselves. *)
From Verif.Model Require Import Chomp Galois Format Blocks QRDecoder.
Local Open Scope N_scope.

(** reads of the given numbers of bits, one after the other *)
Fixpoint chomps (c : chomp_t) (l : list N) : res (list (option N)) :=
  match l with
  | [] => Ok []
  | n :: l => '(o, c') <- chomp c n ;; r <- chomps c' l ;; Ok (o :: r)
  end.

(** util/chomp.rs:140-145 `empty` *)
Example test_empty : chomps (chomp_new []) [4] = Ok [None].
Proof. reflexivity. Qed.
(** util/chomp.rs:147-156 `nibbles` *)
Example test_nibbles : chomps (chomp_new [196]) [2; 4; 1; 2] = Ok [Some 3; Some 1; Some 0; None].
Proof. reflexivity. Qed.
(** util/chomp.rs:158-167 `chomp` *)
Example test_chomp : chomps (chomp_new [196; 170]) [6; 6; 6; 4; 4] = Ok [Some 49; Some 10; None; Some 10; None].
Proof. reflexivity. Qed.
(** util/chomp.rs:169-178 `chomp_on_border` *)
Example test_chomp_on_border : chomps (chomp_new [196; 170]) [6; 2; 4; 4; 4] = Ok [Some 49; Some 0; Some 10; Some 10; None].
Proof. reflexivity. Qed.
(** util/chomp.rs:180-187 `chomp_u16` *)
Example test_chomp_u16 : ('(o, c) <- chomp_or_u16 (chomp_new [196; 170]) 12 ;; r <- chomps c [4; 4] ;; Ok (o, r)) = Ok (Some 3146, [Some 10; None]).
Proof. reflexivity. Qed.
(** util/chomp.rs:189-202 `chomp_a_lot` *)
Example test_chomp_a_lot : chomps (chomp_new [196; 170; 196; 170; 196; 170]) [6; 8; 8; 8; 8; 8; 8] =
  Ok [Some 49; Some 42; Some 177; Some 42; Some 177; Some 42; None].
Proof. reflexivity. Qed.

(** decode/qr/galois.rs:115-181 *)
Example test_gf8 : gf8_add 0 123 = 123 /\ gf8_add 40 193 = 233 /\ gf8_sub 123 123 = 0 /\ gf8_sub 233 193 = 40 /\ gf8_sub 233 40 = 193 /\
  gf8_mul 40 0 = 0 /\ gf8_mul 0 40 = 0 /\ gf8_mul 40 1 = 40 /\ gf8_mul 1 40 = 40 /\ gf8_mul 40 193 = 67 /\ gf8_mul 193 40 = 67 /\
  gf8_mul (gf8_mul 40 193) 78 = gf8_mul 40 (gf8_mul 193 78) /\ gf8_mul 40 (gf8_add 193 78) = gf8_add (gf8_mul 40 193) (gf8_mul 40 78) /\
  gf8_div 40 40 = 1 /\ gf8_div 40 1 = 40 /\ gf8_div 67 193 = 40 /\ gf8_div 67 40 = 193.
Proof. vm_compute. repeat split. Qed.
(** decode/qr/galois.rs:183-243 *)
Example test_gf4 : gf4_add 0 5 = 5 /\ gf4_add 3 7 = 4 /\ gf4_sub 5 5 = 0 /\ gf4_sub 4 3 = 7 /\ gf4_sub 4 7 = 3 /\
  gf4_mul 4 0 = 0 /\ gf4_mul 0 4 = 0 /\ gf4_mul 4 1 = 4 /\ gf4_mul 1 4 = 4 /\ gf4_mul 7 3 = 9 /\ gf4_mul 2 9 = gf4_mul 9 2 /\
  gf4_mul (gf4_mul 2 9) 13 = gf4_mul 2 (gf4_mul 9 13) /\ gf4_mul 2 (gf4_add 5 11) = gf4_add (gf4_mul 2 5) (gf4_mul 2 11) /\
  gf4_div 4 4 = 1 /\ gf4_div 4 1 = 4 /\ gf4_div 9 7 = 3 /\ gf4_div 9 3 = 7.
Proof. vm_compute. repeat split. Qed.

(** decode/qr/format.rs:164-203 *)
Example test_correct : format_correct [0; 0; 0; 1; 1; 1; 1; 0; 1; 0; 1; 1; 0; 0; 1] = Ok [0; 0; 0; 1; 1; 1; 1; 0; 1; 0; 1; 1; 0; 0; 1].
Proof. vm_compute. reflexivity. Qed.
Example test_fixable : format_correct [0; 0; 0; 1; 0; 1; 1; 0; 1; 0; 1; 1; 1; 0; 1] = Ok [0; 0; 0; 1; 1; 1; 1; 0; 1; 0; 1; 1; 0; 0; 1].
Proof. vm_compute. reflexivity. Qed.
Example test_corrupt : format_correct [0; 0; 0; 1; 0; 0; 0; 0; 1; 0; 1; 1; 1; 1; 1] = Err EFormatCorrupted.
Proof. vm_compute. reflexivity. Qed.

(** decode/qr/blocks.rs:296-315 *)
Example test_alignment_locs : (al <- alignment_location 36 ;; Ok (map (fun i => is_alignment_coord al (Z.of_nat i)) (seq 0 161))) =
  Ok (map (fun i => let x := Z.of_nat i in existsb (fun c => (c - 2 <=? x)%Z && (x <=? c + 2)%Z) [6; 24; 50; 76; 102; 128; 154]%Z) (seq 0 161)).
Proof. vm_compute. reflexivity. Qed.

(** rows of dark modules as numbers, the leftmost module first *)
Definition sampled (v : Z) (rows : list N) : qrdata :=
  let side := (4 * v + 17)%Z in
  mkQRData (flat_map (fun r => map (fun i => if N.testbit r (Z.to_N side - 1 - N.of_nat i) then 0 else 255) (seq 0 (Z.to_nat side))) rows) v side.

(** tests/image_tests.rs:34-40: version1_example_no_border.png, "Ver1" *)
Definition no_border : qrdata := sampled 1
  [2082431; 1069377; 1528157; 1528157; 1529693; 1070145; 2086271; 0; 327358; 245577; 1795397; 922265;
   1861505; 6562; 2088889; 1071456; 1524913; 1524672; 1530055; 1068368; 2082381].
Example test_no_border : qr_decode_with_info (Ok no_border) = Ok ([86; 101; 114; 49], mkQRInfo 1 HIGH 72 0).
Proof. vm_compute. reflexivity. Qed.

(** tests/image_tests.rs:103-118: needs_alignment.jpg, a photo; three bytes are corrected *)
Definition needs_alignment : qrdata := sampled 3
  [260607870; 274430273; 391013469; 391830109; 390435677; 274005313; 261444926; 73984; 528345770;
   92836593; 122380480; 219034722; 191498636; 411408373; 47244404; 338796738; 527268100; 521412605;
   367473116; 276972770; 385759735; 1957151; 261157724; 272738073; 391728628; 391126787; 391848958;
   273838346; 261236820].
Example test_needs_alignment : qr_decode_with_info (Ok needs_alignment) = Ok (
  [104; 116; 116; 112; 58; 47; 47; 99; 98; 108; 105; 110; 107; 46; 106; 101; 47; 97; 112; 112; 45; 105;
   110; 115; 116; 97; 108; 108; 45; 100; 105; 115; 112; 108; 97; 121; 45; 110; 108], mkQRInfo 3 LOW 440 3).
Proof. vm_compute. reflexivity. Qed.
