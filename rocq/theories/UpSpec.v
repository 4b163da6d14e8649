(** * Specification vocabulary for the upwind benchmark: the periodic first-order upwind scheme *)
From Coq Require Import List ZArith.
From Verif Require Import Cpp MaiSpec CdSpec FilterSpec LapSpec.
Import ListNotations.
Local Open Scope Z_scope.

(** A grid with at least one axis, no empty axis, fewer than 2^31 cells. *)
Definition up_grid (dims : list Z) : Prop :=
  dims <> [] /\ Z.of_nat (length dims) < 2 ^ 31 /\
  (forall j, (j < length dims)%nat -> 0 < nth j dims 0) /\
  prodZ dims < 2 ^ 31.

(** No axis with more than 2^30 cells. *)
Definition short_axes (dims : list Z) : Prop := forall j, (j < length dims)%nat -> nth j dims 0 <= 2 ^ 30.

(** The cells, last index varying fastest. *)
Definition cells (dims : list Z) : list (list Z) := row_major (repeat 0 (length dims)) dims.

(** The periodic neighbour of [g] at distance [d] along axis [j]. *)
Definition neighbour (dims g : list Z) (j : nat) (d : Z) : list Z := wrap dims (shift g (unit_vec (length dims) j d)).

Section Scheme.
  Context {D : Type} (ar : arith D).

  (** The side the velocity comes from: one cell up for a negative velocity, otherwise one cell down. *)
  Definition upwind_side (v : D) : Z := if a_lt ar v (a_dec ar 0 1) then 1 else -1.

  Definition axis_velocity (v : list D) (j : nat) : D := nth j v (a_zero ar).
  Definition cell_size (dims : list Z) (lengths : list D) (j : nat) : D :=
    a_div ar (nth j lengths (a_zero ar)) (a_ofZ ar (nth j dims 0)).

  (** Along axis j: dt v (+-1) / dx. *)
  Definition courant (dims : list Z) (v lengths : list D) (dt : D) (j : nat) : D :=
    a_div ar (a_mul ar (a_mul ar dt (axis_velocity v j)) (a_ofZ ar (upwind_side (axis_velocity v j))))
             (cell_size dims lengths j).

  (** One time step: f(g) - sum over the axes of c_j (f(upwind neighbour) - f(g)), subtracted one after the other. *)
  Definition upwind_formula (dims : list Z) (v lengths : list D) (dt : D) (G : list Z -> D) (g : list Z) : D :=
    fold_left (fun acc j =>
      a_sub ar acc (a_mul ar (courant dims v lengths dt j)
        (a_sub ar (G (neighbour dims g j (upwind_side (axis_velocity v j)))) (G g))))
      (seq 0 (length dims)) (G g).

  Fixpoint upwind_iter (n : nat) (dims : list Z) (v lengths : list D) (dt : D) (G : list Z -> D) : list Z -> D :=
    match n with
    | O => G
    | S m => upwind_formula dims v lengths dt (upwind_iter m dims v lengths dt G)
    end.

  (** The initial field: one in the first cell, zero in the others. *)
  Definition first_cell (dims : list Z) (g : list Z) : D :=
    if list_eq_dec Z.eq_dec g (repeat 0 (length dims)) then a_ofZ ar 1 else a_dec ar 0 1.
End Scheme.
