(** * Specification vocabulary for C71: applyFilter on every grid and every number of processes

    The index of a displaced cell is computed in an unsigned 64-bit type (Filter.cpp:236-238), so that a step to the
    left of cell 0 leads to cell (2^64 - 1) mod n instead of n - 1.  What follows from this depends on where
    that cell lies: in the box of the same process, in the layer received from the neighbour, or in neither. *)
From Coq Require Import List ZArith.
From Verif Require Import Cpp MaiSpec CdSpec FilterSpec.
Import ListNotations.
Local Open Scope Z_scope.

(** Displaced cell with the remainder taken of the sum converted to an unsigned 64-bit integer. *)
Definition unsigned_cell (dims v : list Z) : list Z := map (fun p => (fst p mod 2 ^ 64) mod snd p) (combine v dims).

(** The stencil with that convention: weights times displaced values, in the order of the map. *)
Definition unsigned_sum {D} (ar : arith D) (dims : list Z) (st : list (list Z * D)) (G : list Z -> D) (g : list Z) : D :=
  fold_left (fun acc p => a_add ar acc (a_mul ar (snd p) (G (unsigned_cell dims (shift g (fst p)))))) st (a_zero ar).

(** The displacement moves along axis [j], and [d] cuts this axis into several parts. *)
Definition crosses (d off : list Z) (j : nat) : Prop := nth j off 0 <> 0 /\ 1 < nth j d 0.

(** Displacements for which every cell read is either in the box of the process or in the layer received
    from the neighbour: if an axis that is cut is crossed, the other axes of the displacement have one cell per
    process; and the step to the left of cell 0 leads to the last cell, or stays (wrongly) with the process. *)
Definition sound_offset (dims d off : list Z) : Prop :=
  (forall i j, crosses d off j -> nth i off 0 <> 0 -> i <> j -> nth i dims 0 = nth i d 0) /\
  (forall j, crosses d off j -> nth j off 0 < 0 ->
     (nth j dims 0 | 2 ^ 64) \/
     ((2 ^ 64 - 1) mod nth j dims 0 < nth j dims 0 / nth j d 0 /\ forall i, crosses d off i -> i = j)).
Definition sound_stencil {D} (dims d : list Z) (st : list (list Z * D)) : Prop :=
  forall off w, In (off, w) st -> sound_offset dims d off.

Definition unit_stencil {D} (dims : list Z) (st : list (list Z * D)) : Prop :=
  is_map st /\ forall off w, In (off, w) st -> unit_offset (length dims) off.

(** Meaning of the calls for the pair (input field, output field), with the unsigned convention. *)
Definition unsigned_meaning {D} (ar : arith D) (dims : list Z) (xmins xmaxs : list D) (st : list (list Z * D))
    (o : op D) (GF : (list Z -> D) * (list Z -> D)) : (list Z -> D) * (list Z -> D) :=
  match o with
  | Apply => (fst GF, unsigned_sum ar dims st (fst GF))
  | o => meaning ar dims xmins xmaxs st o GF
  end.

(** [n] applications. *)
Fixpoint unsigned_iter {D} (ar : arith D) (n : nat) (dims : list Z) (st : list (list Z * D)) (G : list Z -> D) : list Z -> D :=
  match n with
  | O => G
  | S m => unsigned_sum ar dims st (unsigned_iter ar m dims st G)
  end.

(** Square grids of [m] cells along each axis, cut according to [d]: either the step to the left of cell 0 leads to
    the last cell, or along the axes that are cut it leads to a cell of the same process. *)
Definition stays (m : Z) (d : list Z) : Prop :=
  (m | 2 ^ 64) \/ forall j, 1 < nth j d 0 -> (2 ^ 64 - 1) mod m < m / nth j d 0.
