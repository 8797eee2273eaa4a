(** Where a QR Code symbol keeps its codewords (ISO/IEC 18004).  Independent of the
    model. *)
From Coq Require Import NArith ZArith List Bool.
From Verif.Spec Require Import Bits Symbol.
Import ListNotations.
Open Scope Z_scope.

(** *** Function modules *)

(** centre coordinates of the alignment patterns (annex E, table E.1) *)
Definition alignment_centres (version : Z) : list Z :=
  match version with
  | 2 => [6; 18] | 3 => [6; 22] | 4 => [6; 26] | 5 => [6; 30] | 6 => [6; 34]
  | 7 => [6; 22; 38] | 8 => [6; 24; 42] | 9 => [6; 26; 46] | 10 => [6; 28; 50]
  | 11 => [6; 30; 54] | 12 => [6; 32; 58] | 13 => [6; 34; 62]
  | 14 => [6; 26; 46; 66] | 15 => [6; 26; 48; 70] | 16 => [6; 26; 50; 74]
  | 17 => [6; 30; 54; 78] | 18 => [6; 30; 56; 82] | 19 => [6; 30; 58; 86]
  | 20 => [6; 34; 62; 90]
  | 21 => [6; 28; 50; 72; 94] | 22 => [6; 26; 50; 74; 98] | 23 => [6; 30; 54; 78; 102]
  | 24 => [6; 28; 54; 80; 106] | 25 => [6; 32; 58; 84; 110] | 26 => [6; 30; 58; 86; 114]
  | 27 => [6; 34; 62; 90; 118]
  | 28 => [6; 26; 50; 74; 98; 122] | 29 => [6; 30; 54; 78; 102; 126]
  | 30 => [6; 26; 52; 78; 104; 130] | 31 => [6; 30; 56; 82; 108; 134]
  | 32 => [6; 34; 60; 86; 112; 138] | 33 => [6; 30; 58; 86; 114; 142]
  | 34 => [6; 34; 62; 90; 118; 146]
  | 35 => [6; 30; 54; 78; 102; 126; 150] | 36 => [6; 24; 50; 76; 102; 128; 154]
  | 37 => [6; 28; 54; 80; 106; 132; 158] | 38 => [6; 32; 58; 84; 110; 136; 162]
  | 39 => [6; 26; 54; 82; 110; 138; 166] | 40 => [6; 30; 58; 86; 114; 142; 170]
  | _ => []
  end.

(** a finder pattern (7 x 7) with its separator *)
Definition in_finder (side x y : Z) : Prop :=
  (x <= 7 /\ y <= 7) \/ (side - 8 <= x /\ y <= 7) \/ (x <= 7 /\ side - 8 <= y).

Definition in_timing (x y : Z) : Prop := x = 6 \/ y = 6.

(** 5 x 5 around the centres, but none on a finder pattern *)
Definition in_alignment (version x y : Z) : Prop :=
  exists cx cy, In cx (alignment_centres version) /\ In cy (alignment_centres version) /\
    ~ in_finder (side_of version) cx cy /\
    cx - 2 <= x <= cx + 2 /\ cy - 2 <= y <= cy + 2.

(** the two copies of the format information and the module that is always dark *)
Definition in_format (version x y : Z) : Prop :=
  (exists i, 0 <= i < 15 /\ (x, y) = copy1 i) \/
  (exists i, 0 <= i < 15 /\ (x, y) = copy2 version i) \/
  (x = 8 /\ y = side_of version - 8).

(** the two copies of the version information, 6 x 3 and 3 x 6 *)
Definition in_version (version x y : Z) : Prop :=
  7 <= version /\
  ((side_of version - 11 <= x <= side_of version - 9 /\ y <= 5) \/
   (side_of version - 11 <= y <= side_of version - 9 /\ x <= 5)).

Definition inside (version x y : Z) : Prop :=
  0 <= x < side_of version /\ 0 <= y < side_of version.

(** the modules that carry codewords and remainder bits *)
Definition data_module (version x y : Z) : Prop :=
  inside version x y /\
  ~ (in_finder (side_of version) x y \/ in_timing x y \/ in_alignment version x y \/
     in_format version x y \/ in_version version x y).

(** the same as a decision; [LayoutP.data_moduleb_iff] shows that it agrees *)
Definition data_moduleb (version x y : Z) : bool :=
  let side := side_of version in
  let between a b c := (a <=? b) && (b <=? c) in
  let finder x y := (x <=? 7) && (y <=? 7) || (side - 8 <=? x) && (y <=? 7) || (x <=? 7) && (side - 8 <=? y) in
  let same p := (fst p =? x) && (snd p =? y) in
  let bit_numbers := map Z.of_nat (seq 0 15) in
  between 0 x (side - 1) && between 0 y (side - 1) &&
  negb (finder x y || (x =? 6) || (y =? 6) ||
        existsb (fun cx => existsb (fun cy => negb (finder cx cy) &&
                                      between (cx - 2) x (cx + 2) && between (cy - 2) y (cy + 2))
                                   (alignment_centres version)) (alignment_centres version) ||
        existsb (fun i => same (copy1 i)) bit_numbers ||
        existsb (fun i => same (copy2 version i)) bit_numbers ||
        (x =? 8) && (y =? side - 8) ||
        (7 <=? version) && (between (side - 11) x (side - 9) && (y <=? 5) ||
                            between (side - 11) y (side - 9) && (x <=? 5))).

(** *** Placement (7.7.3): two columns at a time from the right, alternately upwards
    and downwards, jumping over the vertical timing pattern *)

Definition pair_count (version : Z) : nat := Z.to_nat (2 * version + 8).

(** right column of the k-th pair *)
Definition right_column (version : Z) (k : nat) : Z :=
  let x := side_of version - 1 - 2 * Z.of_nat k in
  if x <=? 6 then x - 1 else x.

Definition rows (version : Z) (k : nat) : list Z :=
  let down := map Z.of_nat (seq 0 (Z.to_nat (side_of version))) in
  if Nat.even k then rev down else down.

Definition zigzag (version : Z) : list (Z * Z) :=
  flat_map (fun k => flat_map (fun y => [(right_column version k, y); (right_column version k - 1, y)])
                              (rows version k))
           (seq 0 (pair_count version)).

(** the positions of the bits of the codewords, then of the remainder bits *)
Definition data_order (version : Z) : list (Z * Z) :=
  filter (fun p => data_moduleb version (fst p) (snd p)) (zigzag version).

(** *** Data masking (7.8.2, table 10): row i, column j *)
Definition mask_bit (mask : N) (x y : Z) : bool :=
  let i := y in
  let j := x in
  match mask with
  | 0%N => (i + j) mod 2 =? 0
  | 1%N => i mod 2 =? 0
  | 2%N => j mod 3 =? 0
  | 3%N => (i + j) mod 3 =? 0
  | 4%N => (i / 2 + j / 3) mod 2 =? 0
  | 5%N => (i * j) mod 2 + (i * j) mod 3 =? 0
  | 6%N => ((i * j) mod 2 + (i * j) mod 3) mod 2 =? 0
  | _ => ((i + j) mod 2 + (i * j) mod 3) mod 2 =? 0
  end.

(** *** Blocks (7.5.1, table 9) *)

(** number of data modules: all modules minus the function patterns *)
Definition data_module_count (version : Z) : Z :=
  let n := version / 7 + 2 in
  (16 * version + 128) * version + 64
  - (if 2 <=? version then (25 * n - 10) * n - 55 else 0)
  - (if 7 <=? version then 36 else 0).

Definition codeword_count (version : Z) : nat := Z.to_nat (data_module_count version / 8).

(** error correction codewords per block, versions 1 to 40 *)
Definition ec_per_block (l : level) : list nat :=
  match l with
  | L => [7;10;15;20;26;18;20;24;30;18;20;24;26;30;22;24;28;30;28;28;
          28;28;30;30;26;28;30;30;30;30;30;30;30;30;30;30;30;30;30;30]
  | M => [10;16;26;18;24;16;18;22;22;26;30;22;22;24;24;28;28;26;26;26;
          26;28;28;28;28;28;28;28;28;28;28;28;28;28;28;28;28;28;28;28]
  | Q => [13;22;18;26;18;24;18;22;20;24;28;26;24;20;30;24;28;28;26;30;
          28;30;30;30;30;28;30;30;30;30;30;30;30;30;30;30;30;30;30;30]
  | H => [17;28;22;16;22;28;26;26;24;28;24;28;22;24;24;30;28;28;26;28;
          30;24;30;30;30;30;30;30;30;30;30;30;30;30;30;30;30;30;30;30]
  end%nat.

(** number of blocks, versions 1 to 40 *)
Definition blocks_per_symbol (l : level) : list nat :=
  match l with
  | L => [1;1;1;1;1;2;2;2;2;4;4;4;4;4;6;6;6;6;7;8;
          8;9;9;10;12;12;12;13;14;15;16;17;18;19;19;20;21;22;24;25]
  | M => [1;1;1;2;2;4;4;4;5;5;5;8;9;9;10;10;11;13;14;16;
          17;17;18;20;21;23;25;26;28;29;31;33;35;37;38;40;43;45;47;49]
  | Q => [1;1;2;2;4;4;6;6;8;8;8;10;12;16;12;17;16;18;21;20;
          23;23;25;27;29;34;34;35;38;40;43;45;48;51;53;56;59;62;65;68]
  | H => [1;1;2;4;4;4;5;6;8;8;11;11;16;16;18;16;19;21;25;25;
          25;34;30;32;35;37;40;42;45;48;51;54;57;60;63;66;70;74;77;81]
  end%nat.

Definition ec_codewords (version : Z) (l : level) : nat :=
  nth (Z.to_nat version - 1) (ec_per_block l) 0%nat.
Definition block_number (version : Z) (l : level) : nat :=
  nth (Z.to_nat version - 1) (blocks_per_symbol l) 0%nat.

(** The codewords are divided as evenly as possible, the shorter blocks first: total
    length of each block *)
Definition block_totals (version : Z) (l : level) : list nat :=
  let n := block_number version l in
  let long := (codeword_count version mod n)%nat in
  repeat (codeword_count version / n)%nat (n - long) ++
  repeat (codeword_count version / n + 1)%nat long.

Definition block_data (version : Z) (l : level) : list nat :=
  map (fun total => (total - ec_codewords version l)%nat) (block_totals version l).

(** the number of wrong codewords per block that can be corrected: some codewords of
    the smallest symbols serve to detect misdecoding *)
Definition misdecode_protection (version : Z) (l : level) : nat :=
  match version, l with
  | 1, L => 3%nat | 1, M => 2%nat | 1, Q => 1%nat | 1, H => 1%nat
  | 2, L => 2%nat | 3, L => 1%nat
  | _, _ => 0%nat
  end.
Definition correctable (version : Z) (l : level) : nat :=
  ((ec_codewords version l - misdecode_protection version l) / 2)%nat.

(** *** Interleaving (7.6): a block is its data and its error correction codewords *)

Definition column (r : nat) (parts : list (list N)) : list N :=
  flat_map (fun p => match nth_error p r with Some c => [c] | None => [] end) parts.

Definition columns (parts : list (list N)) : list N :=
  flat_map (fun r => column r parts) (seq 0 (list_max (map (@length N) parts))).

Definition interleave (blocks : list (list N * list N)) : list N :=
  columns (map fst blocks) ++ columns (map snd blocks).

(** the blocks of a symbol have the lengths of the table *)
Definition block_shape (version : Z) (l : level) (blocks : list (list N * list N)) : Prop :=
  map (fun b => length (fst b)) blocks = block_data version l /\
  Forall (fun b => length (snd b) = ec_codewords version l) blocks.

(** *** What a symbol holds *)

(** its bits in the order of placement, the mask removed *)
Definition symbol_bits (version : Z) (d : matrix) (mask : N) : list bool :=
  map (fun p => xorb (d (fst p) (snd p)) (mask_bit mask (fst p) (snd p))) (data_order version).

(** the blocks, interleaved, then at most 7 remainder bits *)
Definition holds (version : Z) (l : level) (mask : N) (d : matrix) (blocks : list (list N * list N)) : Prop :=
  block_shape version l blocks /\
  Forall (fun b => Forall is_byte (fst b) /\ Forall is_byte (snd b)) blocks /\
  exists rest, symbol_bits version d mask = bits (interleave blocks) ++ rest /\ (length rest < 8)%nat.
