(** * Specification vocabulary for matmult *)
From Coq Require Import ZArith List String.
From Verif Require Import Cpp.
Import ListNotations.
Local Open Scope Z_scope.

(** The list holds the n x m matrix A by columns. *)
Definition by_columns {D} (n m : Z) (A : Z -> Z -> D) (l : list D) : Prop :=
  Z.of_nat (List.length l) = n * m /\
  forall i j, 1 <= i <= n -> 1 <= j <= m -> nth_error l (Z.to_nat ((i - 1) + n * (j - 1))) = Some (A i j).

(** 1, 2, ..., m *)
Definition upto (m : Z) : list Z := map (fun k => Z.of_nat k + 1) (seq 0 (Z.to_nat m)).

(** Element (i, k) of the product of A and B in the arithmetic [ar]: the m products are added one after the other to 0. *)
Definition dot_product {D} (ar : arith D) (m : Z) (A B : Z -> Z -> D) (i k : Z) : D :=
  fold_left (fun s j => a_add ar s (a_mul ar (A i j) (B j k))) (upto m) (a_ofZ ar 0).

(** 1 + 1 + ... + 1, counted in the arithmetic [ar]. *)
Fixpoint counted {D} (ar : arith D) (k : nat) : D := match k with O => a_ofZ ar 1 | S k => a_add ar (counted ar k) (a_ofZ ar 1) end.

(** The sum over the integers 1 .. m. *)
Definition zsum (m : Z) (f : Z -> Z) : Z := fold_right Z.add 0 (map f (upto m)).

(** [val k] is argument k (from 1) when it is given: all arguments before the first blank one are integers. *)
Definition given (read : string -> option Z) (blank : string -> bool) (args : list string) (vals : list Z) : Prop :=
  exists used rest, args = (used ++ rest)%list /\ (forall a, In a used -> blank a = false) /\
    (rest = [] \/ exists a r, rest = a :: r /\ blank a = true) /\ Forall2 (fun a v => read a = Some v) used vals.
