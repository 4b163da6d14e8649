(** * Specification vocabulary: which cells a cell depends on after a number of steps, and the random walk *)
From Coq Require Import List ZArith Reals.
From Verif Require Import Cpp MaiSpec CdSpec FilterSpec LapSpec UpSpec ConvSpec.
Import ListNotations.

(** The cell [a_0] cells upwind of [g] along axis 0, [a_1] cells upwind along axis 1 and so on, on the periodic grid. *)
Definition steps_upwind {D} (ar : arith D) (dims : list Z) (v : list D) (g : list Z) (a : list nat) : list Z :=
  wrap dims (shift g (map (fun j => upwind_side ar (axis_velocity ar v j) * Z.of_nat (nth j a 0%nat))%Z (seq 0 (length dims)))).

(** The words of length [k] over the letters 0 (stay) and j+1 (one cell along axis j). *)
Fixpoint words (nd k : nat) : list (list nat) :=
  match k with
  | O => [[]]
  | S m => flat_map (fun l => map (cons l) (words nd m)) (seq 0 (S nd))
  end.

(** How often a word moves along each axis. *)
Definition moves (nd : nat) (word : list nat) : list nat := map (fun j => count_occ Nat.eq_dec word (S j)) (seq 0 nd).

Local Open Scope R_scope.

(** The share of the neighbour along axis [j] that enters a cell in one step. *)
Definition share (dims : list Z) (v lengths : list R) (dt : R) (j : nat) : R :=
  Rabs (nth j v 0) * dt / (nth j lengths 0 / IZR (nth j dims 0%Z)).
Definition rest (dims : list Z) (v lengths : list R) (dt : R) : R := 1 - sum_axes (length dims) (share dims v lengths dt).

(** The probability of a word when letter j+1 has probability [share j] and letter 0 the rest. *)
Definition probability (dims : list Z) (v lengths : list R) (dt : R) (word : list nat) : R :=
  fold_right Rmult 1 (map (fun l => match l with O => rest dims v lengths dt | S j => share dims v lengths dt j end) word).

Definition prod_axes (nd : nat) (F : nat -> R) : R := fold_right Rmult 1 (map F (seq 0 nd)).

(** k! / (a_0! a_1! ... (k - a_0 - a_1 - ...)!), zero if the a_j exceed k together. *)
Definition multinomial (nd k : nat) (a : list nat) : R :=
  if (list_sum a <=? k)%nat then INR (fact k) / (prod_axes nd (fun j => INR (fact (nth j a 0%nat))) * INR (fact (k - list_sum a))) else 0.
