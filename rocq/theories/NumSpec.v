(** * Specification vocabulary for printed numbers: reading decimal numerals, rounding to six digits *)
From Coq Require Import Reals ZArith String Ascii.
From Flocq Require Import Core.
Local Open Scope Z_scope.

Definition digit_of (c : ascii) : option Z :=
  let n := Z.of_N (N_of_ascii c) in
  if ((48 <=? n) && (n <=? 57))%bool then Some (n - 48) else None.

(** Reads digits: the number continued from [acc], how many digits, and the rest. *)
Fixpoint read_digits (acc n : Z) (s : string) : Z * Z * string :=
  match s with
  | EmptyString => (acc, n, s)
  | String c t => match digit_of c with
                  | Some d => read_digits (10 * acc + d) (n + 1) t
                  | None => (acc, n, s)
                  end
  end.

(** Digits to the end of the string, at least one. *)
Definition read_nat (s : string) : option Z :=
  match read_digits 0 0 s with
  | (m, n, EmptyString) => if n =? 0 then None else Some m
  | _ => None
  end.

(** An unsigned numeral 12.5e-03 as mantissa and power of ten: digits, optionally a point and digits, optionally
    an exponent with sign (e or E). *)
Definition read_unsigned (s : string) : option (Z * Z) :=
  let '(m, n, s) := read_digits 0 0 s in
  if n =? 0 then None else
  let '(m, k, s) := match s with
                    | String "." t => read_digits m 0 t
                    | _ => (m, 0, s)
                    end in
  match s with
  | EmptyString => Some (m, - k)
  | String "e" (String "+" t) => match read_nat t with Some e => Some (m, e - k) | None => None end
  | String "e" (String "-" t) => match read_nat t with Some e => Some (m, - e - k) | None => None end
  | String "E" (String "+" t) => match read_nat t with Some e => Some (m, e - k) | None => None end
  | String "E" (String "-" t) => match read_nat t with Some e => Some (m, - e - k) | None => None end
  | _ => None
  end.

Definition numeral (s : string) : option (Z * Z) :=
  match s with
  | String "-" t => match read_unsigned t with Some (m, k) => Some (- m, k) | None => None end
  | _ => read_unsigned s
  end.

Definition radix10 : radix := Build_radix 10 eq_refl.

(** The numeral [s] denotes the real number [r]. *)
Definition denotes (s : string) (r : R) : Prop :=
  exists m k, numeral s = Some (m, k) /\ (r = IZR m * bpow radix10 k)%R.

(** [r] rounded to six significant decimal digits, ties to even. *)
Definition six_digits (r : R) : R := round radix10 (FLX_exp 6) ZnearestE r.
