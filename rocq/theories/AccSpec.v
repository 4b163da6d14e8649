(** * Specification vocabulary for the accelerator versions of the upwind benchmark *)
From Coq Require Import List ZArith.
From Verif Require Import Cpp MaiSpec CdSpec FilterSpec LapSpec UpSpec.
Import ListNotations.
Local Open Scope Z_scope.

(** Every axis has fewer than 2^30 cells. *)
Definition shorter_axes (dims : list Z) : Prop := forall j, (j < length dims)%nat -> nth j dims 0 < 2 ^ 30.

Section Scheme.
  Context {D : Type} (ar : arith D).

  (** dt (v (+-1) / dx): the coefficient of [courant] with the products taken in another order. *)
  Definition acc_courant (dims : list Z) (v lengths : list D) (dt : D) (j : nat) : D :=
    a_mul ar dt (a_div ar (a_mul ar (axis_velocity ar v j) (a_ofZ ar (upwind_side ar (axis_velocity ar v j)))) (cell_size ar dims lengths j)).

  (** The upwind scheme with these coefficients. *)
  Definition acc_formula (dims : list Z) (v lengths : list D) (dt : D) (G : list Z -> D) (g : list Z) : D :=
    fold_left (fun acc j =>
      a_sub ar acc (a_mul ar (acc_courant dims v lengths dt j)
        (a_sub ar (G (neighbour dims g j (upwind_side ar (axis_velocity ar v j)))) (G g))))
      (seq 0 (length dims)) (G g).

  Fixpoint acc_iter (n : nat) (dims : list Z) (v lengths : list D) (dt : D) (G : list Z -> D) : list Z -> D :=
    match n with
    | O => G
    | S m => acc_formula dims v lengths dt (acc_iter m dims v lengths dt G)
    end.

  (** Multiplication and division can be regrouped (true of the real numbers, false of floating-point numbers). *)
  Definition regroups : Prop :=
    (forall x y z, a_mul ar x (a_mul ar y z) = a_mul ar (a_mul ar x y) z) /\
    (forall x y z, a_mul ar x (a_div ar y z) = a_div ar (a_mul ar x y) z).
End Scheme.
