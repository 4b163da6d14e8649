(** * Specification vocabulary for the Julia versions of the upwind benchmark *)
From Coq Require Import List ZArith.
From Verif Require Import Cpp.
Import ListNotations.
Local Open Scope Z_scope.

(** At least one axis, at least one cell along each, fewer than 2^60 cells. *)
Definition large_grid (dims : list Z) : Prop :=
  dims <> [] /\ Z.of_nat (length dims) < 2 ^ 31 /\ (forall j, (j < length dims)%nat -> 0 < nth j dims 0) /\ fold_right Z.mul 1 dims < 2 ^ 60.

(** One velocity and one length per axis. *)
Definition large_args {D} (dims : list Z) (v lengths : list D) : Prop :=
  large_grid dims /\ length v = length dims /\ length lengths = length dims.

(** Numbers of cells that are represented exactly as Float64. *)
Definition float_axes (dims : list Z) : Prop := Forall (fun n => n <= 2 ^ 53) dims.
