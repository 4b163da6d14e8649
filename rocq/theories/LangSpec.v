(** * Specification vocabulary for the Fortran, Python and Julia versions of the upwind benchmark *)
From Coq Require Import List ZArith.
From Verif Require Import Cpp MaiSpec CdSpec FilterSpec LapSpec UpSpec.
Import ListNotations.
Local Open Scope Z_scope.

Section Scheme.
  Context {D : Type} (ar : arith D).

  (** The upwind scheme, [term j a b] being what is subtracted for axis [j]: [a] is the value in the upwind neighbour,
      [b] the value in the cell. *)
  Definition scheme (term : nat -> D -> D -> D) (dims : list Z) (v : list D) (G : list Z -> D) (g : list Z) : D :=
    fold_left (fun acc j => a_sub ar acc (term j (G (neighbour dims g j (upwind_side ar (axis_velocity ar v j)))) (G g)))
      (seq 0 (length dims)) (G g).

  Fixpoint scheme_iter (n : nat) (term : nat -> D -> D -> D) (dims : list Z) (v : list D) (G : list Z -> D) : list Z -> D :=
    match n with
    | O => G
    | S m => scheme term dims v (scheme_iter m term dims v G)
    end.

  (** (dt v (+-1) / dx) (a - b): C++ and Julia *)
  Definition cxx_term (dims : list Z) (v lengths : list D) (dt : D) (j : nat) (a b : D) : D :=
    a_mul ar (a_div ar (a_mul ar (a_mul ar dt (axis_velocity ar v j)) (a_ofZ ar (upwind_side ar (axis_velocity ar v j)))) (cell_size ar dims lengths j))
             (a_sub ar a b).
  (** (dt (v (+-1) / dx)) (a - b): Python, upwindAcc *)
  Definition py_term (dims : list Z) (v lengths : list D) (dt : D) (j : nat) (a b : D) : D :=
    a_mul ar (a_mul ar dt (a_div ar (a_mul ar (axis_velocity ar v j) (a_ofZ ar (upwind_side ar (axis_velocity ar v j)))) (cell_size ar dims lengths j)))
             (a_sub ar a b).
  (** dt v (+-1) (a - b) / dx: Fortran *)
  Definition f90_term (dims : list Z) (v lengths : list D) (dt : D) (j : nat) (a b : D) : D :=
    a_div ar (a_mul ar (a_mul ar (a_mul ar dt (axis_velocity ar v j)) (a_ofZ ar (upwind_side ar (axis_velocity ar v j)))) (a_sub ar a b))
             (cell_size ar dims lengths j).

  (** [one] in the first cell, [zero] in the others. *)
  Definition corner (zero one : D) (dims : list Z) (g : list Z) : D :=
    if list_eq_dec Z.eq_dec g (repeat 0 (length dims)) then one else zero.

  (** A division can be moved across a product (true of the real numbers, false of floating-point numbers). *)
  Definition divides_through : Prop := forall x y z, a_div ar (a_mul ar x y) z = a_mul ar (a_div ar x z) y.
End Scheme.

(** The cells, first index varying fastest. *)
Definition cells_first (dims : list Z) : list (list Z) := col_major (repeat 0 (length dims)) dims.

(** A rectilinear grid file describes a grid when, along each of the three axes, it announces and gives as many
    coordinates as it has points. *)
Definition coords_fit {D} (dims : list Z) (coords : list (Z * list D)) : Prop :=
  map fst coords = dims /\ Forall (fun c => vlen (snd c) = fst c) coords.
