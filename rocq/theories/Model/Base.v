(** Base definitions of the model: results, panics, vectors, loops.

    Everything in this file models Rust itself rather than a function of /repo:
    [res] is `Result<_, QRError>` plus the possibility of a panic, [get]/[set] are
    `Vec` indexing with its bounds check, [foldM] is a `for` loop whose body may
    fail or panic, and the checked operations are those of a build with overflow
    checks (debug profile). *)
From Coq Require Export List NArith ZArith Bool.
Export ListNotations.

(** /repo/src/util/qr.rs:116-125 *)
Inductive eclevel := LOW | MEDIUM | QUARTILE | HIGH.

(** /repo/src/util/qr.rs:8-26.  The message text of a [QRError] is not modelled: each
    place that creates one is a constructor that carries the values shown in the
    message.  [ECustom] stands for any error made by code outside the crate. *)
Inductive qrerror :=
| EFormatCorrupted                         (* decode/qr/format.rs:122 *)
| EVersionLevel (v : Z) (l : eclevel)      (* decode/qr/mod.rs:657 *)
| ENoAlignmentInfo (v : Z)                 (* decode/qr/blocks.rs:184 *)
| EBlockCount (expected found : nat)       (* decode/qr/blocks.rs:41 *)
| ECodewordCount (expected i found : nat)  (* decode/qr/blocks.rs:52 *)
| ESigma                                   (* decode/qr/correct.rs:90 *)
| EDistances                               (* decode/qr/correct.rs:27 *)
| ENotFixed                                (* decode/qr/correct.rs:46 *)
| EMode (m : N)                            (* decode/qr/data.rs:15 *)
| EUnknownVersion (v : Z)                  (* decode/qr/data.rs:31,87,143 *)
| EReadBits (n : N)                        (* decode/qr/data.rs:195,204 *)
| ENumericLength (n : N)                   (* decode/qr/data.rs:39 *)
| EAlphanumericLength (n : N)              (* decode/qr/data.rs:95,151 *)
| EAlphanumericChar (c : N)                (* decode/qr/data.rs:112 *)
| EUtf8 (bytes : list N)                   (* util/qr.rs:17-26 *)
| ENoAlignmentPattern                      (* extract/qr/mod.rs:180 *)
| ECustom (msg : list N).

(** The ways in which the modelled code can abort.  [PFuel] is an artifact of the
    model: a fuelled loop ran out of fuel.  Theorems exclude it. *)
Inductive panic :=
| PIndex      (* index or slice out of bounds, pixel outside the image *)
| PArith      (* integer overflow, shift too far *)
| PDivZero    (* integer division by zero *)
| PUnwrap     (* unwrap of None *)
| PMissing    (* DecoderBuilder::build without a component *)
| PFuel.

Inductive res (A : Type) :=
| Ok (a : A)
| Err (e : qrerror)
| Panic (p : panic).
Arguments Ok {A} a.
Arguments Err {A} e.
Arguments Panic {A} p.

Definition bind {A B} (x : res A) (f : A -> res B) : res B :=
  match x with
  | Ok a => f a
  | Err e => Err e
  | Panic p => Panic p
  end.

Notation "x <- e ;; f" := (bind e (fun x => f))
  (at level 61, e at next level, right associativity).
Notation "' p <- e ;; f" := (bind e (fun x => match x with p => f end))
  (at level 61, p pattern, e at next level, right associativity).

(** `Option::ok_or` *)
Definition ok_or {A} (o : option A) (e : qrerror) : res A :=
  match o with Some a => Ok a | None => Err e end.

(** `Option::unwrap` *)
Definition unwrap {A} (o : option A) : res A :=
  match o with Some a => Ok a | None => Panic PUnwrap end.

(** `v[i]` *)
Definition get {A} (v : list A) (i : nat) : res A :=
  match nth_error v i with Some a => Ok a | None => Panic PIndex end.

Fixpoint update {A} (v : list A) (i : nat) (a : A) : list A :=
  match v, i with
  | [], _ => []
  | _ :: t, O => a :: t
  | x :: t, S i => x :: update t i a
  end.

(** `v[i] = a` *)
Definition set {A} (v : list A) (i : nat) (a : A) : res (list A) :=
  if Nat.ltb i (length v) then Ok (update v i a) else Panic PIndex.

(** `&v[a..b]` *)
Definition slice {A} (v : list A) (a b : nat) : res (list A) :=
  if andb (Nat.leb a b) (Nat.leb b (length v))
  then Ok (firstn (b - a) (skipn a v)) else Panic PIndex.

(** `a..b` over usize *)
Definition range (a b : nat) : list nat := seq a (b - a).

(** `for x in l { body }` where the body updates the state [s] *)
Fixpoint foldM {A S} (f : S -> A -> res S) (l : list A) (s : S) : res S :=
  match l with
  | [] => Ok s
  | a :: l => s' <- f s a ;; foldM f l s'
  end.

(** `iter().map(f).collect()` for a body that may panic, evaluated from left to right *)
Fixpoint mapM {A B} (f : A -> res B) (l : list A) : res (list B) :=
  match l with
  | [] => Ok []
  | a :: l => b <- f a ;; bs <- mapM f l ;; Ok (b :: bs)
  end.

(** Checked operations on unsigned integers of any width: subtraction below zero
    panics. *)
Definition sub_nat (a b : nat) : res nat :=
  if Nat.ltb a b then Panic PArith else Ok (a - b).
Definition sub_N (a b : N) : res N :=
  if N.ltb a b then Panic PArith else Ok (N.sub a b).
Definition sub_Z (a b : Z) : res Z :=
  if Z.ltb a b then Panic PArith else Ok (Z.sub a b).

(** Results of u32 operations *)
Definition u32_max : Z := 4294967295%Z.
Definition chk_u32 (a : Z) : res Z :=
  if Z.leb 0 a && Z.leb a u32_max then Ok a else Panic PArith.

(** Shifts of u8/u16 values: the amount must be below the width, high bits are lost. *)
Definition shr_u8 (a k : N) : res N :=
  if N.leb 8 k then Panic PArith else Ok (N.shiftr a k).
Definition shl_u8 (a k : N) : res N :=
  if N.leb 8 k then Panic PArith else Ok (N.modulo (N.shiftl a k) 256).
Definition shl_u16 (a k : N) : res N :=
  if N.leb 16 k then Panic PArith else Ok (N.modulo (N.shiftl a k) 65536).
Definition add_u8 (a b : N) : res N :=
  if N.leb 256 (N.add a b) then Panic PArith else Ok (N.add a b).
Definition mul_u8 (a b : N) : res N :=
  if N.leb 256 (N.mul a b) then Panic PArith else Ok (N.mul a b).
Definition add_u16 (a b : N) : res N :=
  if N.leb 65536 (N.add a b) then Panic PArith else Ok (N.add a b).
