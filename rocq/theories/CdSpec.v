(** * Specification vocabulary for domain decompositions *)
From Coq Require Import List ZArith.
From Verif Require Import MaiSpec.
Import ListNotations.
Local Open Scope Z_scope.

(** [d] assigns to every axis a number of processes that divides the number of cells; the numbers
    multiply to [nprocs]. *)
Definition is_decomp (nprocs : Z) (dims d : list Z) : Prop :=
  length d = length dims /\
  (forall j, (j < length dims)%nat -> 0 < nth j d 0 /\ (nth j d 0 | nth j dims 0)) /\
  prodZ d = nprocs.

(** A grid with 1 to 32 axes, no empty axis, fewer than 2^31 cells. *)
Definition grid_ok (dims : list Z) : Prop :=
  dims <> [] /\ (length dims <= 32)%nat /\
  (forall j, (j < length dims)%nat -> 0 < nth j dims 0) /\
  prodZ dims < 2 ^ 31.

(** Local extents of a decomposition. *)
Definition local_dims (dims d : list Z) : list Z := map (fun p => fst p / snd p) (combine dims d).

(** Sum over the axes of the product of the other extents: half the surface of a box. *)
Fixpoint half_surface (l : list Z) : Z :=
  match l with
  | [] => 0
  | x :: t => prodZ t + x * half_surface t
  end.

(** Surface to volume ratio of a box with extents [l] at most that of a box with extents [l']. *)
Definition ratio_le (l l' : list Z) : Prop :=
  half_surface l * prodZ l' <= half_surface l' * prodZ l.
