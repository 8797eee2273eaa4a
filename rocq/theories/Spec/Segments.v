(** The data segments of a QR Code (ISO/IEC 18004, 7.4), as an encoder writes them.
    Independent of the model. *)
From Coq Require Import List NArith ZArith Bool Ascii String.
From Verif.Spec Require Import Bits.
Import ListNotations.
Open Scope N_scope.

(** table 3: bits in the character count indicator, for modes 1 (numeric),
    2 (alphanumeric) and 4 (byte) *)
Definition count_bits (version : Z) (mode : N) : nat :=
  let pick (a b c : nat) : nat :=
    if (version <=? 9)%Z then a else if (version <=? 26)%Z then b else c in
  match mode with
  | 1 => pick 10%nat 12%nat 14%nat
  | 2 => pick 9%nat 11%nat 13%nat
  | _ => pick 8%nat 16%nat 16%nat
  end.

Definition version_ok (v : Z) : Prop := (1 <= v <= 40)%Z.

(** sizes of the fields that hold [n] characters *)
Definition field_sizes (mode : N) (n : N) : list nat :=
  match mode with
  | 1 => repeat 10%nat (N.to_nat (n / 3)) ++
         (if n mod 3 =? 2 then [7%nat] else if n mod 3 =? 1 then [4%nat] else [])
  | 2 => repeat 11%nat (N.to_nat (n / 2)) ++ (if n mod 2 =? 1 then [6%nat] else [])
  | _ => repeat 8%nat (N.to_nat n)
  end.

(** a segment as it stands in the bit stream: mode, character count and field values.
    The values need not be ones an encoder would write. *)
Record raw := Raw { r_mode : N; r_count : N; r_vals : list N }.

Definition fits (sizes : list nat) (vals : list N) : Prop :=
  Forall2 (fun k v => v < 2 ^ N.of_nat k) sizes vals.

Definition raw_wf (version : Z) (s : raw) : Prop :=
  (r_mode s = 1 \/ r_mode s = 2 \/ r_mode s = 4) /\
  r_count s < 2 ^ N.of_nat (count_bits version (r_mode s)) /\
  fits (field_sizes (r_mode s) (r_count s)) (r_vals s).

Fixpoint fields (sizes : list nat) (vals : list N) : list bool :=
  match sizes, vals with
  | k :: sizes, v :: vals => nbits k v ++ fields sizes vals
  | _, _ => []
  end.

Definition raw_bits (version : Z) (s : raw) : list bool :=
  nbits 4 (r_mode s) ++ nbits (count_bits version (r_mode s)) (r_count s)
  ++ fields (field_sizes (r_mode s) (r_count s)) (r_vals s).

(** *** Numeric *)

(** [v] in decimal with at least [w] digits, for v below 10000 *)
Definition decimal (w : nat) (v : N) : list N :=
  let k := if v <? 10 then 1%nat else if v <? 100 then 2%nat
           else if v <? 1000 then 3%nat else 4%nat in
  map (fun i => 48 + (v / 10 ^ N.of_nat i) mod 10) (rev (seq 0 (Nat.max w k))).

Definition numeric_width (size : nat) : nat :=
  match size with 10 => 3 | 7 => 2 | _ => 1 end%nat.

Fixpoint numeric_text (sizes : list nat) (vals : list N) : list N :=
  match sizes, vals with
  | k :: sizes, v :: vals => decimal (numeric_width k) v ++ numeric_text sizes vals
  | _, _ => []
  end.

(** *** Alphanumeric *)

Definition alphabet : list N :=
  map N_of_ascii (list_ascii_of_string "0123456789ABCDEFGHIJKLMNOPQRSTUVWXYZ $%*+-./:"%string).

Definition alnum_char (v : N) : N := nth (N.to_nat v) alphabet 0.

Fixpoint alnum_text (sizes : list nat) (vals : list N) : list N :=
  match sizes, vals with
  | 11%nat :: sizes, v :: vals => alnum_char (v / 45) :: alnum_char (v mod 45) :: alnum_text sizes vals
  | _ :: sizes, v :: vals => alnum_char v :: alnum_text sizes vals
  | _, _ => []
  end.

(** the values that stand for characters *)
Definition alnum_valid (size : nat) (v : N) : Prop := v < (if Nat.eqb size 11 then 2025 else 45).

(** *** Byte *)

(** UTF-8 (RFC 3629): scalar values and their encoding *)
Definition scalar (c : N) : Prop := c < 55296 \/ 57344 <= c < 1114112.

Definition utf8_char (c : N) : list N :=
  if c <? 128 then [c]
  else if c <? 2048 then [192 + c / 64; 128 + c mod 64]
  else if c <? 65536 then [224 + c / 4096; 128 + (c / 64) mod 64; 128 + c mod 64]
  else [240 + c / 262144; 128 + (c / 4096) mod 64; 128 + (c / 64) mod 64; 128 + c mod 64].

Definition utf8 (text : list N) : list N := flat_map utf8_char text.

(** How the library reads a byte segment, by its documentation of the choice: UTF-8 if
    a byte 0xC3 occurs, ISO 8859-1 otherwise *)
Definition byte_text (bytes text : list N) : Prop :=
  (~ In 195 bytes /\ text = bytes) \/
  (In 195 bytes /\ Forall scalar text /\ utf8 text = bytes).

(** *** The text of a segment *)
Definition raw_text (s : raw) (t : list N) : Prop :=
  let sizes := field_sizes (r_mode s) (r_count s) in
  match r_mode s with
  | 1 => t = numeric_text sizes (r_vals s)
  | 2 => Forall2 alnum_valid sizes (r_vals s) /\ t = alnum_text sizes (r_vals s)
  | _ => byte_text (r_vals s) t
  end.

(** what may follow the last segment: a terminator and anything, or fewer than four bits *)
Definition tail_ok (l : list bool) : Prop :=
  (exists r, l = nbits 4 0 ++ r) \/ (List.length l < 4)%nat.

(** *** Encoder *)

Fixpoint numeric_groups (digits : list N) : list N :=
  match digits with
  | a :: b :: c :: r => (100 * a + 10 * b + c) :: numeric_groups r
  | [a; b] => [10 * a + b]
  | [a] => [a]
  | [] => []
  end.

(** digits are given by their values 0..9 *)
Definition encode_numeric (digits : list N) : raw :=
  Raw 1 (N.of_nat (List.length digits)) (numeric_groups digits).

Fixpoint index_of (c : N) (l : list N) : N :=
  match l with
  | [] => 0
  | x :: l => if c =? x then 0 else 1 + index_of c l
  end.

Fixpoint alnum_groups (chars : list N) : list N :=
  match chars with
  | a :: b :: r => (45 * index_of a alphabet + index_of b alphabet) :: alnum_groups r
  | [a] => [index_of a alphabet]
  | [] => []
  end.

Definition encode_alnum (chars : list N) : raw :=
  Raw 2 (N.of_nat (List.length chars)) (alnum_groups chars).

Definition encode_bytes (bytes : list N) : raw :=
  Raw 4 (N.of_nat (List.length bytes)) bytes.

(** *** Streams that are not complete *)

Definition supported (mode : N) : Prop := mode = 1 \/ mode = 2 \/ mode = 4.

(** after the mode indicator [mode], the stream stops inside the character count or
    inside the characters *)
Definition truncated (version : Z) (mode : N) (l : list bool) : Prop :=
  (List.length l < count_bits version mode)%nat \/
  exists n r, n < 2 ^ N.of_nat (count_bits version mode) /\
              l = nbits (count_bits version mode) n ++ r /\
              (List.length r < fold_right Nat.add 0%nat (field_sizes mode n))%nat.

(** an alphanumeric segment of odd length whose last, single, character has a value
    outside the table of 45 characters, everything before it being valid *)
Definition overrun (s : raw) : Prop :=
  r_mode s = 2 /\
  exists pairs v,
    field_sizes 2 (r_count s) = repeat 11%nat (List.length pairs) ++ [6%nat] /\
    r_vals s = pairs ++ [v] /\ Forall (fun p => p < 2025) pairs /\ 45 <= v.

(** How the part of a stream that follows its complete segments can end *)
Inductive verdict := Done | Unsupported (mode : N) | Truncated | Unreadable | Overrun.

Inductive ending (version : Z) (l : list bool) : verdict -> Prop :=
| ending_done : tail_ok l -> ending version l Done
| ending_unsupported m r :
    l = nbits 4 m ++ r -> m < 16 -> m <> 0 -> ~ supported m ->
    ending version l (Unsupported m)
| ending_truncated m r :
    l = nbits 4 m ++ r -> supported m -> truncated version m r ->
    ending version l Truncated
| ending_unreadable s r :
    l = raw_bits version s ++ r -> raw_wf version s ->
    (forall t, ~ raw_text s t) -> ~ overrun s ->
    ending version l Unreadable
| ending_overrun s r :
    l = raw_bits version s ++ r -> raw_wf version s -> overrun s ->
    ending version l Overrun.
