(** * Specification vocabulary for double precision results *)
From Coq Require Import Reals ZArith Floats.SpecFloat.
From Flocq Require Import Core BinarySingleNaN.

(** [x] is a finite IEEE double, the real number [r].  (Not a NaN, not an infinity.) *)
Definition double_value (x : spec_float) (r : R) : Prop :=
  valid_binary 53 1024 x = true /\ is_finite_SF x = true /\ SF2R radix2 x = r.

(** Every element of [f] is a finite double between 0 and 1. *)
Definition unit_values (f : list spec_float) : Prop :=
  forall x, List.In x f -> exists r, double_value x r /\ (0 <= r <= 1)%R.
