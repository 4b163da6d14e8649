(** * Specification vocabulary for the MPI version in Python of the upwind benchmark *)
From Coq Require Import List ZArith Bool.
From Verif Require Import Cpp MaiSpec CdSpec FilterSpec LapSpec UpSpec.
Import ListNotations.
Local Open Scope Z_scope.

(** A field of the whole grid cut into pieces: each piece lists the values at the cells of its box, last index varying fastest. *)
Definition distributed_c {D} (dims : list Z) (F : list Z -> D) (pieces : list (list Z * list Z * list D)) : Prop :=
  tiling dims (map fst pieces) /\
  forall lo hi data, In (lo, hi, data) pieces -> data = map F (row_major lo hi).

(** Number of cells of a process along axis [j]. *)
Definition own_cells (dims dec : list Z) (j : nat) : Z := nth j (local_dims dims dec) 0.

(** Is the cell in the first layer of its process along axis [j]? *)
Definition first_layer (dims dec g : list Z) (j : nat) : bool := nth j g 0 mod own_cells dims dec j =? 0.

Section Formula.
  Context {D : Type} (ar : arith D).

  (** How far away along axis [j] the value used in cell [g] is: one cell down, except in the first layer of a process when the
      velocity is negative: then it is the first layer of the next process. *)
  Definition reach (dims dec : list Z) (v : list D) (g : list Z) (j : nat) : Z :=
    if first_layer dims dec g j && (upwind_side ar (axis_velocity ar v j) =? 1) then own_cells dims dec j else -1.

  (** v (+-1) / dx *)
  Definition rate (dims : list Z) (v lengths : list D) (j : nat) : D :=
    a_div ar (a_mul ar (axis_velocity ar v j) (a_ofZ ar (upwind_side ar (axis_velocity ar v j)))) (cell_size ar dims lengths j).

  (** One time step: f + (dt sum) f, from which the terms of the axes along which the cell is not in the first layer of its
      process are subtracted, then those of the other axes. *)
  Definition mpi_formula (psum : list D -> D) (dims dec : list Z) (v lengths : list D) (dt : D) (G : list Z -> D) (g : list Z) : D :=
    let axes := seq 0 (length dims) in
    fold_left (fun acc j => a_sub ar acc (a_mul ar (a_mul ar dt (rate dims v lengths j)) (G (neighbour dims g j (reach dims dec v g j)))))
      (filter (fun j => negb (first_layer dims dec g j)) axes ++ filter (first_layer dims dec g) axes)
      (a_add ar (G g) (a_mul ar (a_mul ar dt (psum (map (rate dims v lengths) axes))) (G g))).

  Fixpoint mpi_iter (n : nat) (psum : list D -> D) (dims dec : list Z) (v lengths : list D) (dt : D) (G : list Z -> D) : list Z -> D :=
    match n with
    | O => G
    | S m => mpi_formula psum dims dec v lengths dt (mpi_iter m psum dims dec v lengths dt G)
    end.

  (** The elements of all the lists added in any order and grouping, any number of zeros being added too. *)
  Definition adds_all (red : list (list D) -> D) : Prop :=
    forall ls, exists zs, (forall z, In z zs -> z = a_dec ar 0 1) /\ reduction (a_add ar) (zs ++ List.concat ls) (red ls).
End Formula.
