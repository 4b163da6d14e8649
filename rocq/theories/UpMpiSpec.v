(** * Specification vocabulary for the MPI upwind benchmark *)
From Coq Require Import List ZArith.
From Verif Require Import Cpp MaiSpec FilterSpec.
Import ListNotations.
Local Open Scope Z_scope.

Section Spec.
  Context {D : Type} (ar : arith D).

  (** One in the first cell, zero in the others, as integers converted to double. *)
  Definition origin_field (dims g : list Z) : D :=
    if list_eq_dec Z.eq_dec g (repeat 0 (length dims)) then a_ofZ ar 1 else a_ofZ ar 0.

  (** Each process adds up the values of its box, in column-major order. *)
  Definition box_sums (F : list Z -> D) (boxes : list (list Z * list Z)) : list D :=
    map (fun b => fold_left (a_add ar) (map F (col_major (fst b) (snd b))) (a_zero ar)) boxes.
End Spec.
