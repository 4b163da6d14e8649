(** * Specification vocabulary for the distributed filter: the serial periodic stencil *)
From Coq Require Import List ZArith Sorted Permutation.
From Verif Require Import Cpp MaiSpec CdSpec.
Import ListNotations.
Local Open Scope Z_scope.

(** Cell [g] displaced by [off], and brought back into the periodic grid. *)
Definition shift (g off : list Z) : list Z := map (fun p => fst p + snd p) (combine g off).
Definition wrap (dims v : list Z) : list Z := map (fun p => fst p mod snd p) (combine v dims).

(** The cells of a grid: index sets between 0 and [dims]. *)
Definition in_grid (dims g : list Z) : Prop := in_box (repeat 0 (length dims)) dims g.

(** A stencil is a std::map from displacements to weights: keys in strictly increasing order. *)
Definition is_map {D} (st : list (list Z * D)) : Prop :=
  StronglySorted (fun a b => lexcmp (fst a) (fst b) = Lt) st.

Section Serial.
  Context {D : Type} (ar : arith D).

  (** The serial periodic stencil: weights times displaced values, added one after the other in the order
      of the map, starting from zero. *)
  Definition stencil_sum (dims : list Z) (st : list (list Z * D)) (G : list Z -> D) (g : list Z) : D :=
    fold_left (fun acc p => a_add ar acc (a_mul ar (snd p) (G (wrap dims (shift g (fst p)))))) st (a_zero ar).

  (** [n] applications. *)
  Fixpoint stencil_iter (n : nat) (dims : list Z) (st : list (list Z * D)) (G : list Z -> D) : list Z -> D :=
    match n with
    | O => G
    | S m => stencil_sum dims st (stencil_iter m dims st G)
    end.
End Serial.

(** Displacements by at most one cell along at most one axis. *)
Definition unit_offset (n : nat) (off : list Z) : Prop :=
  length off = n /\ forall j, (j < n)%nat -> -1 <= nth j off 0 <= 1.
Definition axis_offset (off : list Z) : Prop :=
  forall i j, nth i off 0 <> 0 -> nth j off 0 <> 0 -> i = j.

(** Grid sizes for which the unsigned remainder of a negative index is the periodic one. *)
Definition wraps (dims off : list Z) : Prop :=
  forall j, (j < length dims)%nat -> nth j off 0 < 0 -> (nth j dims 0 | 2 ^ 64).

(** Stencils for which the filter is meant. *)
Definition axis_stencil {D} (dims : list Z) (st : list (list Z * D)) : Prop :=
  is_map st /\ forall off w, In (off, w) st -> unit_offset (length dims) off /\ axis_offset off.
Definition periodic_stencil {D} (dims : list Z) (st : list (list Z * D)) : Prop :=
  forall off w, In (off, w) st -> wraps dims off.

(** A number of processes for which the grid can be decomposed evenly. *)
Definition decomposable (nprocs : Z) (dims : list Z) : Prop := exists d, is_decomp nprocs dims d.

(** Sums combined in any order and association (MPI_Reduce does not specify one). *)
Inductive reduction {D} (add : D -> D -> D) : list D -> D -> Prop :=
| red_one : forall x, reduction add [x] x
| red_node : forall l l1 l2 a b, Permutation l (l1 ++ l2) ->
    reduction add l1 a -> reduction add l2 b -> reduction add l (add a b).

(** Boxes that cover the grid, each cell once. *)
Definition tiling (dims : list Z) (boxes : list (list Z * list Z)) : Prop :=
  (forall lo hi, In (lo, hi) boxes ->
     length lo = length dims /\ length hi = length dims /\ forall g, in_box lo hi g -> in_grid dims g) /\
  (forall g, in_grid dims g -> exists! i : nat, exists lo hi, nth_error boxes i = Some (lo, hi) /\ in_box lo hi g).

(** A field of the whole grid cut into pieces: each piece lists the values at the cells of its box, in
    column-major order. *)
Definition distributed {D} (dims : list Z) (F : list Z -> D) (pieces : list (list Z * list Z * list D)) : Prop :=
  tiling dims (map fst pieces) /\
  forall lo hi data, In (lo, hi, data) pieces -> data = map F (col_major lo hi).

(** The layer of cells of the box that touches the side a displacement [off] comes in through. *)
Definition border_lo (off lo hi : list Z) : list Z :=
  map (fun p => if fst (fst p) <? 0 then snd p - 1 else snd (fst p)) (combine (combine off lo) hi).
Definition border_hi (off lo hi : list Z) : list Z :=
  map (fun p => if 0 <? fst (fst p) then snd (fst p) + 1 else snd p) (combine (combine off lo) hi).

(** Centre of a cell of a uniform grid on the box [xmins, xmaxs]. *)
Definition centre {D} (ar : arith D) (dims : list Z) (xmins xmaxs : list D) (g : list Z) : list D :=
  map (fun p => let '(n, x0, x1, k) := p in
    a_add ar x0 (a_mul ar (a_add ar (a_ofZ ar k) (a_dec ar 5 1)) (a_div ar (a_sub ar x1 x0) (a_ofZ ar n))))
    (combine (combine (combine dims xmins) xmaxs) g).

(** What a program does with a filter, and its meaning for the pair (input field, output field) of the
    whole grid. *)
Inductive op (D : Type) : Type :=
| SetByPosition (u : list D -> D)
| SetByIndices (G : list Z -> D)
| Apply
| Copy
| CheckSum (input : bool)
| Print (input : bool).
Arguments SetByPosition {D}. Arguments SetByIndices {D}. Arguments Apply {D}. Arguments Copy {D}.
Arguments CheckSum {D}. Arguments Print {D}.

Definition sets {D} (o : op D) : Prop := match o with SetByPosition _ | SetByIndices _ => True | _ => False end.

Definition meaning {D} (ar : arith D) (dims : list Z) (xmins xmaxs : list D) (st : list (list Z * D))
    (o : op D) (GF : (list Z -> D) * (list Z -> D)) : (list Z -> D) * (list Z -> D) :=
  let (G, F) := GF in
  match o with
  | SetByPosition u => (fun g => u (centre ar dims xmins xmaxs g), F)
  | SetByIndices G' => (G', F)
  | Apply => (G, stencil_sum ar dims st G)
  | Copy => (F, F)
  | CheckSum _ | Print _ => (G, F)
  end.
