(** Model of /repo/src/decode/qr/data.rs.  A Rust `String` is the list of its code
    points. *)
From Verif.Model Require Export Chomp.
Open Scope N_scope.

(** `format!("{:0w}", n)` for a u16: decimal digits, padded with '0' to [w] *)
Fixpoint dec_digits (fuel : nat) (n : N) (acc : list N) : list N :=
  match fuel with
  | O => acc
  | S fuel =>
      let acc' := (48 + n mod 10) :: acc in
      if N.eqb (n / 10) 0 then acc' else dec_digits fuel (n / 10) acc'
  end.
Definition format_dec (w : nat) (n : N) : list N :=
  let d := dec_digits 5 n [] in
  repeat 48 (w - length d) ++ d.

(** core::str::from_utf8 (the Rust standard library, not /repo): the well-formed byte
    sequences of table 3-7 of the Unicode standard, with the code points they encode. *)
Definition in_range (a b x : N) : bool := N.leb a x && N.leb x b.
Definition cont (x : N) : bool := in_range 128 191 x.
Fixpoint from_utf8 (bytes : list N) : option (list N) :=
  match bytes with
  | [] => Some []
  | a :: t1 =>
      if in_range 0 127 a then option_map (cons a) (from_utf8 t1)
      else match t1 with
      | [] => None
      | b :: t2 =>
          if in_range 194 223 a && cont b
          then option_map (cons ((a - 192) * 64 + (b - 128))) (from_utf8 t2)
          else match t2 with
          | [] => None
          | c :: t3 =>
              if ((N.eqb a 224 && in_range 160 191 b)
                  || (in_range 225 236 a && cont b)
                  || (N.eqb a 237 && in_range 128 159 b)
                  || (in_range 238 239 a && cont b)) && cont c
              then option_map
                     (cons ((a - 224) * 4096 + (b - 128) * 64 + (c - 128)))
                     (from_utf8 t3)
              else match t3 with
              | [] => None
              | d :: t4 =>
                  if ((N.eqb a 240 && in_range 144 191 b)
                      || (in_range 241 243 a && cont b)
                      || (N.eqb a 244 && in_range 128 143 b)) && cont c && cont d
                  then option_map
                         (cons ((a - 240) * 262144 + (b - 128) * 4096
                                + (c - 128) * 64 + (d - 128)))
                         (from_utf8 t4)
                  else None
              end
          end
      end
  end.

(** data.rs:192-199 `read_bits` *)
Definition read_bits (c : chomp_t) (bits : N) : res (N * chomp_t) :=
  '(o, c') <- chomp_or c bits ;;
  v <- ok_or o (EReadBits bits) ;;
  Ok (v, c').

(** data.rs:201-208 `read_bits_u16` *)
Definition read_bits_u16 (c : chomp_t) (bits : N) : res (N * chomp_t) :=
  '(o, c') <- chomp_or_u16 c bits ;;
  v <- ok_or o (EReadBits bits) ;;
  Ok (v, c').

(** the `match version` of data.rs:26-35, 82-91 and 138-147 *)
Definition length_bits (v : Z) (a b c : N) : res N :=
  if (Z.leb 1 v && Z.leb v 9)%bool then Ok a
  else if (Z.leb 10 v && Z.leb v 26)%bool then Ok b
  else if (Z.leb 27 v && Z.leb v 40)%bool then Ok c
  else Err (EUnknownVersion v).

(** data.rs:46-68: the loop of `numeric`.  The fuel is the character count. *)
Fixpoint numeric_loop (fuel : nat) (c : chomp_t) (length : N) (result : list N)
  : res (list N * chomp_t) :=
  if N.eqb length 0 then Ok (result, c)
  else match fuel with
  | O => Panic PFuel
  | S fuel =>
      if N.leb 3 length then
        '(digits, c') <- read_bits_u16 c 10 ;;
        numeric_loop fuel c' (length - 3) (result ++ format_dec 3 digits)
      else if N.eqb length 2 then
        '(digits, c') <- read_bits_u16 c 7 ;;
        Ok (result ++ format_dec 2 digits, c')
      else
        '(digits, c') <- read_bits_u16 c 4 ;;
        Ok (result ++ format_dec 1 digits, c')
  end.

(** data.rs:25-73 `numeric` *)
Definition numeric (c : chomp_t) (version : Z) : res (list N * chomp_t) :=
  lb <- length_bits version 10 12 14 ;;
  '(o, c') <- chomp_or_u16 c lb ;;
  length <- ok_or o (ENumericLength lb) ;;
  numeric_loop (N.to_nat length) c' length [].

(** data.rs:75-79 `ALPHANUMERIC` as code points *)
Definition ALPHANUMERIC : list N :=
  [48; 49; 50; 51; 52; 53; 54; 55; 56; 57;                 (* 0-9 *)
   65; 66; 67; 68; 69; 70; 71; 72; 73; 74; 75; 76; 77; 78; (* A-N *)
   79; 80; 81; 82; 83; 84; 85; 86; 87; 88; 89; 90;         (* O-Z *)
   32; 36; 37; 42; 43; 45; 46; 47; 58].                    (* " $%*+-./:" *)

(** data.rs:105-130: the loop of `alphanumeric` *)
Fixpoint alphanumeric_loop (fuel : nat) (c : chomp_t) (length : N) (result : list N)
  : res (list N * chomp_t) :=
  if N.eqb length 0 then Ok (result, c)
  else match fuel with
  | O => Panic PFuel
  | S fuel =>
      if N.leb 2 length then
        '(chars, c') <- read_bits_u16 c 11 ;;
        let char1 := chars / 45 in
        let char2 := chars mod 45 in
        if N.ltb 44 char1 then Err (EAlphanumericChar char1)
        else
          a <- get ALPHANUMERIC (N.to_nat char1) ;;
          b <- get ALPHANUMERIC (N.to_nat char2) ;;
          alphanumeric_loop fuel c' (length - 2) (result ++ [a] ++ [b])
      else
        '(chars, c') <- read_bits_u16 c 6 ;;
        a <- get ALPHANUMERIC (N.to_nat chars) ;;
        Ok (result ++ [a], c')
  end.

(** data.rs:81-135 `alphanumeric` *)
Definition alphanumeric (c : chomp_t) (version : Z) : res (list N * chomp_t) :=
  lb <- length_bits version 9 11 13 ;;
  '(o, c') <- chomp_or_u16 c lb ;;
  length <- ok_or o (EAlphanumericLength lb) ;;
  alphanumeric_loop (N.to_nat length) c' length [].

(** data.rs:161-163: `for _ in 0..length` *)
Fixpoint read_bytes (n : nat) (c : chomp_t) (result : list N) : res (list N * chomp_t) :=
  match n with
  | O => Ok (result, c)
  | S n =>
      '(b, c') <- read_bits c 8 ;;
      read_bytes n c' (result ++ [b])
  end.

(** data.rs:167-187: choice of the character set *)
Definition bytes_to_string (result : list N) : res (list N) :=
  let may_be_utf8 := existsb (fun r => N.eqb r 195) result in
  if may_be_utf8 then ok_or (from_utf8 result) (EUtf8 result)
  else Ok result.

(** data.rs:137-190 `eight_bit` *)
Definition eight_bit (c : chomp_t) (version : Z) : res (list N * chomp_t) :=
  lb <- length_bits version 8 16 16 ;;
  '(o, c') <- chomp_or_u16 c lb ;;
  length <- ok_or o (EAlphanumericLength lb) ;;
  '(result, c'') <- read_bytes (N.to_nat length) c' [] ;;
  s <- bytes_to_string result ;;
  Ok (s, c'').

(** data.rs:8-20: the loop of `data`.  Every round takes at least four bits. *)
Fixpoint data_loop (fuel : nat) (c : chomp_t) (version : Z) (result : list N)
  : res (list N) :=
  match fuel with
  | O => Panic PFuel
  | S fuel =>
      '(o, c') <- chomp c 4 ;;
      match o with
      | None => Ok result
      | Some mode =>
          if N.eqb mode 1 then
            '(s, c'') <- numeric c' version ;;
            data_loop fuel c'' version (result ++ s)
          else if N.eqb mode 2 then
            '(s, c'') <- alphanumeric c' version ;;
            data_loop fuel c'' version (result ++ s)
          else if N.eqb mode 4 then
            '(s, c'') <- eight_bit c' version ;;
            data_loop fuel c'' version (result ++ s)
          else if N.eqb mode 0 then Ok result
          else Err (EMode mode)
      end
  end.

(** data.rs:4-23 `data` *)
Definition data (input : list N) (version : Z) : res (list N) :=
  data_loop (2 * length input + 1) (chomp_new input) version [].
