(** f64 and the image and point types.  An f64 is a [spec_float] of the standard
    library at precision 53 and exponent bound 1024, i.e. IEEE 754 binary64 with one NaN
    and round to nearest even.  Everything here is executable and free of axioms. *)
From Coq Require Export Floats.SpecFloat.
From Verif.Model Require Export Base.
Open Scope Z_scope.

Definition f64 := spec_float.
Definition prec64 : Z := 53.
Definition emax64 : Z := 1024.

Definition fadd : f64 -> f64 -> f64 := SFadd prec64 emax64.
Definition fsub : f64 -> f64 -> f64 := SFsub prec64 emax64.
Definition fmul : f64 -> f64 -> f64 := SFmul prec64 emax64.
Definition fdiv : f64 -> f64 -> f64 := SFdiv prec64 emax64.
Definition fsqrt : f64 -> f64 := SFsqrt prec64 emax64.
Definition fabs : f64 -> f64 := SFabs.
Definition fopp : f64 -> f64 := SFopp.
(** `a < b`, `a > b`, `a >= b`; all false when an operand is NaN *)
Definition flt (a b : f64) : bool := SFltb a b.
Definition fgt (a b : f64) : bool := SFltb b a.
Definition fge (a b : f64) : bool := SFleb b a.

(** `f64::from(n)` and `n as f64` for an integer n: round to nearest even *)
Definition of_Z (n : Z) : f64 := binary_normalize prec64 emax64 n 0 false.

(** The literal n/d.  Both integers are exact, so the quotient is the double nearest to
    the decimal fraction, which is what the compiler stores. *)
Definition lit (n d : Z) : f64 := fdiv (of_Z n) (of_Z d).

(** `f64::round`: to the nearest integer, ties away from zero *)
Definition fround (x : f64) : f64 :=
  match x with
  | S754_finite s m e =>
      if Z.leb 0 e then x
      else
        let q := Z.shiftr (Zpos m + Z.shiftl 1 (- e - 1)) (- e) in
        if Z.eqb q 0 then S754_zero s
        else binary_normalize prec64 emax64 (if s then - q else q) 0 s
  | _ => x
  end.

(** `x as u32`: truncation, saturating, NaN gives 0 *)
Definition to_u32 (x : f64) : Z :=
  match x with
  | S754_finite false m e =>
      let v := if Z.leb 0 e then Z.shiftl (Zpos m) e else Z.shiftr (Zpos m) (- e) in
      Z.min v u32_max
  | S754_infinity false => u32_max
  | _ => 0
  end.

(** `x.round() as u32` *)
Definition round_u32 (x : f64) : Z := to_u32 (fround x).

(** `x.max(0.0)`: the other operand if x is NaN *)
Definition fmax0 (x : f64) : f64 :=
  match x with
  | S754_nan => of_Z 0
  | _ => if flt x (of_Z 0) then of_Z 0 else x
  end.

(** util/point.rs:5-11 *)
Record point := Pt { px : f64; py : f64 }.
(** util/point.rs:15-21 *)
Record delta := Dl { dlx : f64; dly : f64 }.

(** util/point.rs:23-32 *)
Definition padd (p : point) (d : delta) : point := Pt (fadd (px p) (dlx d)) (fadd (py p) (dly d)).
(** util/point.rs:34-43 *)
Definition psub (p : point) (d : delta) : point := Pt (fsub (px p) (dlx d)) (fsub (py p) (dly d)).
(** util/point.rs:45-54 *)
Definition pdiff (p q : point) : delta := Dl (fsub (px p) (px q)) (fsub (py p) (py q)).
(** util/point.rs:56-65 *)
Definition dadd (d e : delta) : delta := Dl (fadd (dlx d) (dlx e)) (fadd (dly d) (dly e)).
(** util/point.rs:67-76 *)
Definition dsub (d e : delta) : delta := Dl (fsub (dlx d) (dlx e)) (fsub (dly d) (dly e)).
(** util/point.rs:89-98, `f64 * Delta` *)
Definition dmul (s : f64) (d : delta) : delta := Dl (fmul (dlx d) s) (fmul (dly d) s).
(** util/point.rs:100-109 *)
Definition ddiv (d : delta) (s : f64) : delta := Dl (fdiv (dlx d) s) (fdiv (dly d) s).

(** `a..b` over u32 *)
Definition zrange (a b : Z) : list Z :=
  map (fun i => a + Z.of_nat i) (seq 0 (Z.to_nat (b - a))).

(** image::GrayImage (external crate): width, height and the row-major buffer *)
Record gray := Gray { gw : Z; gh : Z; gbuf : list N }.

Definition wf_gray (g : gray) : Prop :=
  0 <= gw g <= u32_max /\ 0 <= gh g <= u32_max /\
  length (gbuf g) = Z.to_nat (gw g * gh g) /\
  Forall (fun b => (b < 256)%N) (gbuf g).

(** `get_pixel(x, y)[0]`: panics outside the image *)
Definition get_pixel (g : gray) (x y : Z) : res N :=
  if Z.ltb x (gw g) && Z.ltb y (gh g)
  then get (gbuf g) (Z.to_nat (y * gw g + x))
  else Panic PIndex.

(** `enumerate_pixels()`: row by row, x running fastest *)
Definition coords (g : gray) : list (Z * Z) :=
  flat_map (fun y => map (fun x => (x, y)) (zrange 0 (gw g))) (zrange 0 (gh g)).
Definition enumerate_pixels (g : gray) : list (Z * Z * N) :=
  combine (coords g) (gbuf g).
