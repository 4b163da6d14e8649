(** * Specification vocabulary for the Python version of the upwind benchmark *)
From Coq Require Import List ZArith String.
From Verif Require Import Cpp FilterSpec.
Import ListNotations.
Local Open Scope Z_scope.

(** A sum of the elements of the list in any order and grouping, with at most two zeros added (numpy.sum: the start value
    of the reduction and of its loops). *)
Definition sums {D} (ar : arith D) (psum : list D -> D) : Prop :=
  forall l, exists zs, (List.length zs <= 2)%nat /\ (forall z, In z zs -> z = a_ofZ ar 0 \/ z = a_neg ar (a_ofZ ar 0)) /\
    reduction (a_add ar) (zs ++ l) (psum l).

(** The list cut into pieces of ten elements, the last one being shorter when the length is no multiple of ten. *)
Definition tens {A} (l : list A) : list (list A) :=
  map (fun k => firstn 10 (skipn (10 * k) l)) (seq 0 ((List.length l + 9) / 10)).
