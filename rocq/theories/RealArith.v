(** * Exact arithmetic: laws, and the real numbers as an instance *)
From Coq Require Import Reals Ring_theory Lra RealField.
From Verif Require Import Cpp FilterSum.
Local Open Scope Z_scope.

(** Arithmetic without rounding: a commutative ring in which the conversions from integers and the decimal
    literals that denote integers are exact. *)
Record exact_numbers {D} (ar : arith D) : Prop := {
  en_ring : exact_arith ar;
  en_zero : a_ofZ ar 0 = a_zero ar;
  en_one : a_ofZ ar 1 = a_one ar;
  en_add : forall x y, a_ofZ ar (x + y) = a_add ar (a_ofZ ar x) (a_ofZ ar y);
  en_mul : forall x y, a_ofZ ar (x * y) = a_mul ar (a_ofZ ar x) (a_ofZ ar y);
  en_opp : forall x, a_ofZ ar (- x) = a_neg ar (a_ofZ ar x);
  en_dec : forall x, a_dec ar (x * 10) 1 = a_ofZ ar x
}.

Definition arR : arith R :=
  mkArith R 0%R 1%R IZR (fun m e => (IZR m / powerRZ 10 e)%R) Rplus Rminus Rmult Rdiv Ropp
    (fun x y => if Rlt_dec x y then true else false) (IZR (2 ^ 1024 - 2 ^ 971)).

Lemma arR_exact : exact_numbers arR.
Proof.
  constructor; cbn [arR a_ofZ a_zero a_one a_add a_mul a_neg a_dec].
  - exact RTheory.
  - reflexivity.
  - reflexivity.
  - intros. apply plus_IZR.
  - intros. apply mult_IZR.
  - intros. apply opp_IZR.
  - intros x. rewrite mult_IZR. simpl. lra.
Qed.
