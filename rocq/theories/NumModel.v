(** * The text of numbers written to an output stream

    operator<< of std::ostream for int, size_t and bool (plain decimal), and for double with the default format
    flags and the default precision 6, i.e. printf's %.6g in the "C" locale.  No program of the project
    changes the format of a stream.  (C++ standard library; used in CmdLineArgParser.h:190-212,
    upwind.cxx:177-201, saveVTK.h:13-57, writeVTK.cpp:67-88, Filter.cpp, laplacian.cxx:113-115,
    upwindMpi.cxx:121 and 148-150) *)
From Coq Require Import ZArith Floats.SpecFloat String Ascii.
From Verif Require Import Cpp.
Local Open Scope string_scope.
Local Open Scope Z_scope.

(** ** Integers *)

(** The character of a digit 0..9 *)
Definition show_digit (d : Z) : ascii := ascii_of_N (48 + Z.to_N d).

(** The last [w] digits of [n] *)
Fixpoint show_digits (w : nat) (n : Z) : string :=
  match w with
  | O => ""
  | S w' => show_digits w' (n / 10) ++ String (show_digit (n mod 10)) ""
  end.

(** The number of digits of [n], at least one *)
Fixpoint width (fuel : nat) (n : Z) : nat :=
  match fuel with
  | O => 1%nat
  | S f => if n <? 10 then 1%nat else S (width f (n / 10))
  end.

Definition show_nat (n : Z) : string := show_digits (width (Z.to_nat (Z.log2 n)) n) n.
Definition show_int (z : Z) : string := if z <? 0 then "-" ++ show_nat (- z) else show_nat z.
(** bool without std::boolalpha *)
Definition show_bool (b : bool) : string := if b then "1" else "0".

(** ** Doubles: %.6g *)

(** The nearest integer to n / d, ties to even *)
Definition round_div (n d : Z) : Z :=
  let q := n / d in
  match 2 * (n mod d) ?= d with
  | Lt => q
  | Eq => if Z.even q then q else q + 1
  | Gt => q + 1
  end.

(** 10^X <= a / b *)
Definition pow10_le (X a b : Z) : bool :=
  if 0 <=? X then 10 ^ X * b <=? a else b <=? a * 10 ^ (- X).

(** The largest X <= X0 with 10^X <= a / b *)
Fixpoint dec_exp (fuel : nat) (X a b : Z) : Z :=
  match fuel with
  | O => X
  | S f => if pow10_le X a b then X else dec_exp f (X - 1) a b
  end.

(** a / b in units of 10^(X-5), rounded *)
Definition six_units (X a b : Z) : Z :=
  if X <=? 5 then round_div (a * 10 ^ (5 - X)) b else round_div a (b * 10 ^ (X - 5)).

(** Trailing zeros removed *)
Fixpoint strip_zeros (s : string) : string :=
  match s with
  | "" => ""
  | String c t => match strip_zeros t with
                  | "" => if Ascii.eqb c "0" then "" else String c ""
                  | t' => String c t'
                  end
  end.

(** The fractional part [f] with [p] digits; the point is dropped when nothing is left *)
Definition show_frac (p : nat) (f : Z) : string :=
  match strip_zeros (show_digits p f) with
  | "" => ""
  | s => "." ++ s
  end.

(** D * 10^-p *)
Definition show_fixed (p : nat) (D : Z) : string :=
  show_nat (D / 10 ^ Z.of_nat p) ++ show_frac p (D mod 10 ^ Z.of_nat p).

(** An exponent: sign and at least two digits *)
Definition show_exp (X : Z) : string :=
  (if X <? 0 then "-" else "+") ++ (if Z.abs X <? 10 then "0" else "") ++ show_nat (Z.abs X).

(** The positive number a / b: fixed notation when its decimal exponent is between -4 and 5 *)
Definition show_positive (a b : Z) : string :=
  let X := dec_exp 632 (if pow10_le 7 a b then 308 else 6) a b in
  let D := six_units X a b in
  let '(X, D) := if D =? 1000000 then (X + 1, 100000) else (X, D) in
  if (-4 <=? X) && (X <? 6) then show_fixed (Z.to_nat (5 - X)) D
  else show_fixed 5 D ++ "e" ++ show_exp X.

Definition show_double (x : spec_float) : string :=
  match x with
  | S754_zero s => if s then "-0" else "0"
  | S754_infinity s => if s then "-inf" else "inf"
  | S754_nan => "nan"
  | S754_finite s m e =>
      (if s then "-" else "") ++ show_positive (Zpos m * 2 ^ (Z.max e 0)) (2 ^ (Z.max (- e) 0))
  end.
