(** * Specification vocabulary for index boxes: plain nested loops *)
From Coq Require Import List ZArith.
Import ListNotations.
Local Open Scope Z_scope.

(** The integers l, l+1, ..., h-1. *)
Definition range (l h : Z) : list Z := map (fun k => l + Z.of_nat k) (seq 0 (Z.to_nat (h - l))).

(** Index tuples in the order of the nested loops
    [for i0 in lo0..hi0-1 { for i1 in lo1..hi1-1 { ... } }]: the last index varies fastest. *)
Fixpoint row_major (lo hi : list Z) : list (list Z) :=
  match lo, hi with
  | l :: lo', h :: hi' => flat_map (fun i => map (cons i) (row_major lo' hi')) (range l h)
  | _, _ => [[]]
  end.

(** The loops nested the other way round: the first index varies fastest. *)
Definition col_major (lo hi : list Z) : list (list Z) :=
  map (@rev Z) (row_major (rev lo) (rev hi)).

Definition nested_loops (rowMajor : bool) (lo hi : list Z) : list (list Z) :=
  if rowMajor then row_major lo hi else col_major lo hi.

(** [v] is in the box [lo, hi). *)
Definition in_box (lo hi v : list Z) : Prop :=
  length v = length lo /\ length v = length hi /\
  forall j, (j < length v)%nat -> nth j lo 0 <= nth j v 0 < nth j hi 0.

(** Number of cells of a grid. *)
Definition prodZ (l : list Z) : Z := fold_right Z.mul 1 l.

Definition extents (lo hi : list Z) : list Z := map (fun p => snd p - fst p) (combine lo hi).

(** A box whose corners are size_t vectors of the same, non-zero, length (fewer than 2^31 axes). *)
Definition wf_box (lo hi : list Z) : Prop :=
  length lo = length hi /\ lo <> [] /\ Z.of_nat (length lo) < 2 ^ 31 /\
  forall j, (j < length lo)%nat -> 0 <= nth j lo 0 <= nth j hi 0 /\ nth j hi 0 < 2 ^ 64.

Definition nonempty_box (lo hi : list Z) : Prop :=
  forall j, (j < length lo)%nat -> nth j lo 0 < nth j hi 0.
