(** * Specification vocabulary for the Laplacian benchmark *)
From Coq Require Import List ZArith Permutation.
From Verif Require Import Cpp MaiSpec CdSpec FilterSpec FilterSum.
Import ListNotations.
Local Open Scope Z_scope.

(** The vector with [v] along axis [i] and 0 along the others. *)
Definition unit_vec (n i : nat) (v : Z) : list Z := map (fun j => if Nat.eqb j i then v else 0) (seq 0 n).

(** The second difference summed over the axes of a periodic grid. *)
Definition laplace {D} (ar : arith D) (dims : list Z) (G : list Z -> D) (g : list Z) : D :=
  let n := length dims in
  sum_of ar (map (fun j =>
    a_sub ar (a_add ar (G (wrap dims (shift g (unit_vec n j 1)))) (G (wrap dims (shift g (unit_vec n j (-1))))))
             (a_add ar (G g) (G g))) (seq 0 n)).
