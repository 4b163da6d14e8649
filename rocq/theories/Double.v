(** * IEEE double precision as an arithmetic
    The type double with round to nearest even (the default rounding mode), from the executable specification
    of the standard library (no axiom).  A decimal literal with at most 22 digits after the point and a
    mantissa below 2^53 is the correctly rounded quotient of two exactly representable integers. *)
From Coq Require Import ZArith Floats.SpecFloat.
From Verif Require Import Cpp CdModel.
Local Open Scope Z_scope.

Definition arD : arith spec_float :=
  mkArith spec_float (S754_zero false) (dbl_of_Z 1) dbl_of_Z (fun m e => dbl_div (dbl_of_Z m) (dbl_of_Z (10 ^ e)))
    (SFadd 53 1024) (SFsub 53 1024) (SFmul 53 1024) dbl_div SFopp SFltb dbl_max.
