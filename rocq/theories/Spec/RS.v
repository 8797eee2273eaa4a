(** The Reed-Solomon codes of QR Codes (ISO/IEC 18004, 7.5.2 and annex A).
    Independent of the model. *)
From Coq Require Import NArith List.
From Verif.Spec Require Import GF256.
Import ListNotations.
Open Scope N_scope.

(** a block as a polynomial, its first codeword being the highest coefficient *)
Definition value_at (block : list N) (x : N) : N :=
  fold_left (fun acc c => N.lxor (fmul acc x) c) block 0.

(** the generator polynomial has the roots 2^0 .. 2^(roots-1): a block is a code word
    when it is a multiple of the generator, i.e. vanishes at its roots *)
Definition codeword (roots : nat) (block : list N) : Prop :=
  forall i, (i < roots)%nat -> value_at block (fpow 2 i) = 0.

(** number of positions in which two blocks differ *)
Fixpoint distance (a b : list N) : nat :=
  match a, b with
  | x :: a, y :: b => ((if N.eqb x y then 0 else 1) + distance a b)%nat
  | _, _ => 0%nat
  end.

Fixpoint ones_pos (p : positive) : N :=
  match p with xH => 1 | xO p => ones_pos p | xI p => 1 + ones_pos p end.
Definition ones (n : N) : N := match n with N0 => 0 | Npos p => ones_pos p end.

(** number of bits in which two blocks differ *)
Fixpoint bit_distance (a b : list N) : N :=
  match a, b with
  | x :: a, y :: b => ones (N.lxor x y) + bit_distance a b
  | _, _ => 0
  end.

(** *** Damage *)
(** the wrong codewords of [b] where [c] was meant: power of x and error value *)
Fixpoint errors (c b : list N) : list (nat * N) :=
  match c, b with
  | x :: c, y :: b => if N.eqb x y then errors c b else (length b, N.lxor x y) :: errors c b
  | _, _ => []
  end.

(** the sum of e * f(2^p) over the errors *)
Definition moment (es : list (nat * N)) (f : N -> N) : N :=
  fold_right (fun '(p, e) acc => N.lxor (fmul e (f (fpow 2 p))) acc) 0 es.

(** a polynomial given by its coefficients, lowest first *)
Definition feval (p : list N) (x : N) : N := fold_right (fun a acc => N.lxor a (fmul x acc)) 0 p.

(** the product of the (x - 2^l) for l in [ls] *)
Definition product (ls : list nat) (x : N) : N :=
  fold_right (fun l acc => fmul (N.lxor x (fpow 2 l)) acc) 1 ls.

(** Σ e·(x^k + P(x))·x^b over the errors *)
Definition pairing (es : list (nat * N)) (P : list N) (k b : nat) : N :=
  moment es (fun x => fmul (N.lxor (feval P x) (fpow x k)) (fpow x b)).

(** no zero is met when the first rows of the syndrome matrix are eliminated: for each
    row k there is a monic polynomial of degree k orthogonal to the lower powers, and to
    no power from k to z *)
Definition regular (z : nat) (es : list (nat * N)) : Prop :=
  forall k, (k < length es)%nat -> exists P,
    Forall (fun a => a < 256) P /\ (length P <= k)%nat /\
    (forall b, (b < k)%nat -> pairing es P k b = 0) /\
    (forall b, (k <= b <= z)%nat -> pairing es P k b <> 0).

(** x^z + x^(z-1) + Q(x); without the second term if there are z errors *)
Definition locator (v z : nat) (Q : list N) (x : N) : N :=
  N.lxor (N.lxor (fpow x z) (if Nat.ltb v z then fpow x (z - 1) else 0)) (feval Q x).
