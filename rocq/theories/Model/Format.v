(** Model of /repo/src/decode/qr/format.rs. *)
From Verif.Model Require Export QR Galois.
Open Scope N_scope.

(** format.rs:6 *)
Definition FMASK : list N := [1; 0; 1; 0; 1; 0; 0; 0; 0; 0; 1; 0; 0; 1; 0].

(** format.rs:42-44 and 60-62: `format[i] ^= MASK[i]` *)
Definition xor_mask (format : list N) : res (list N) :=
  foldM (fun f i =>
           a <- get f i ;; m <- get FMASK i ;; set f i (N.lxor a m))
        (range 0 (length format)) format.

(** format.rs:70-72 and 113-115: the sum over i of
    GF4(format[len - i - 1]) * EXP4[(k * i) % 15] *)
Definition format_syndrome (k : nat) (format : list N) : res N :=
  let len := length format in
  foldM (fun s i =>
           j <- sub_nat len (i + 1) ;;
           b <- get format j ;;
           e <- get EXP4 ((k * i) mod 15)%nat ;;
           Ok (gf4_add s (gf4_mul b e)))
        (range 0 len) 0.

(** format.rs:96-104: positions of the errors among the 16 candidates *)
Definition format_error_pos (sigma1 sigma2 sigma3 : N) : res (list N) :=
  foldM (fun error_pos i =>
           let x := N.of_nat i in
           let v := gf4_add (gf4_add (gf4_add sigma3 (gf4_mul sigma2 x))
                                     (gf4_mul (gf4_mul sigma1 x) x))
                            (gf4_mul (gf4_mul x x) x) in
           if N.eqb v 0 then
             log <- get LOG4 i ;;
             Ok (if N.eqb log 0 then error_pos else error_pos ++ [log])
           else Ok error_pos)
        (range 0 16) [].

(** format.rs:67-125 `correct` *)
Definition format_correct (format : list N) : res (list N) :=
  s1 <- format_syndrome 1 format ;;
  if N.eqb s1 0 then Ok format
  else
    let s2 := gf4_mul s1 s1 in
    let s4 := gf4_mul s2 s2 in
    s3 <- format_syndrome 3 format ;;
    s5 <- format_syndrome 5 format ;;
    let sigma1 := s1 in
    let sigma2 :=
      gf4_div (gf4_sub (gf4_add s5 (gf4_mul s4 sigma1))
                       (gf4_mul s2 (gf4_add s3 (gf4_mul s2 sigma1))))
              (gf4_sub s3 (gf4_mul s1 s2)) in
    let sigma3 := gf4_add (gf4_add s3 (gf4_mul s2 sigma1)) (gf4_mul s1 sigma2) in
    error_pos <- format_error_pos sigma1 sigma2 sigma3 ;;
    format' <- foldM (fun f error =>
                        i <- sub_nat (length f) (N.to_nat error + 1) ;;
                        b <- get f i ;;
                        set f i (N.lxor b 1))
                     error_pos format ;;
    s1' <- format_syndrome 1 format' ;;
    if N.eqb s1' 0 then Ok format' else Err EFormatCorrupted.

(** format.rs:23-47 `format1` *)
Definition format1 (q : qrdata) : res (list N) :=
  f1 <- mapM (fun x => qindex q x 8) [0; 1; 2; 3; 4; 5; 7; 8]%Z ;;
  f2 <- mapM (fun y => qindex q 8 y) [7; 5; 4; 3; 2; 1; 0]%Z ;;
  f <- xor_mask (f1 ++ f2) ;;
  format_correct f.

(** format.rs:49-65 `format2` *)
Definition format2 (q : qrdata) : res (list N) :=
  y0 <- sub_Z (qside q) 7 ;;
  f1 <- mapM (fun y => qindex q 8 y)
             (rev (map (fun i => y0 + Z.of_nat i)%Z (range 0 (Z.to_nat (qside q - y0))))) ;;
  x0 <- sub_Z (qside q) 8 ;;
  f2 <- mapM (fun x => qindex q x 8)
             (map (fun i => x0 + Z.of_nat i)%Z (range 0 (Z.to_nat (qside q - x0)))) ;;
  f <- xor_mask (f1 ++ f2) ;;
  format_correct f.

(** format.rs:127-135 `error_correction` *)
Definition error_correction (bytes : N) : option eclevel :=
  match bytes with
  | 1 => Some LOW
  | 0 => Some MEDIUM
  | 3 => Some QUARTILE
  | 2 => Some HIGH
  | _ => None
  end.

(** format.rs:137-150 `mask`.  A boxed closure is represented by its three bit number;
    [mask_cond] below is the closure's body. *)
Definition mask (bytes : N) : option N :=
  if N.ltb bytes 8 then Some bytes else None.

(** the closures of format.rs:140-147, `|j, i|`.  The u32 arithmetic cannot overflow
    for coordinates below 2^16; a QR symbol has at most 177. *)
Definition mask_cond (m : N) (j i : Z) : bool :=
  match m with
  | 0 => ((i + j) mod 2 =? 0)%Z
  | 1 => (i mod 2 =? 0)%Z
  | 2 => (j mod 3 =? 0)%Z
  | 3 => ((i + j) mod 3 =? 0)%Z
  | 4 => ((i / 2 + j / 3) mod 2 =? 0)%Z
  | 5 => ((i * j) mod 2 + (i * j) mod 3 =? 0)%Z
  | 6 => (((i * j) mod 2 + (i * j) mod 3) mod 2 =? 0)%Z
  | _ => (((i * j) mod 3 + (i + j) mod 2) mod 2 =? 0)%Z
  end.

(** format.rs:154-158 `qrmask`: the closure is called with (x, y) *)
Definition qrmask (m : N) (q : qrdata) (i j : Z) : res N :=
  v <- qindex q i j ;;
  Ok (N.lxor v (if mask_cond m i j then 1 else 0)).

(** format.rs:8-21 `format` *)
Definition format (q : qrdata) : res (eclevel * N) :=
  f <- match format1 q with
       | Ok f => Ok f
       | Err _ => format2 q
       | Panic p => Panic p
       end ;;
  f0 <- get f 0 ;; f1 <- get f 1 ;;
  correction <- unwrap (error_correction (2 * f0 + f1)) ;;
  f2 <- get f 2 ;; f3 <- get f 3 ;; f4 <- get f 4 ;;
  m <- unwrap (mask (4 * f2 + 2 * f3 + f4)) ;;
  Ok (correction, m).
