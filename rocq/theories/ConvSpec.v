(** * Specification vocabulary for the accuracy of the upwind scheme: the advection equation with periodic boundary conditions *)
From Coq Require Import List ZArith Reals.
Import ListNotations.
Local Open Scope R_scope.

(** A point is given by its coordinates; only the first [nd] matter. *)
Definition point := nat -> R.

Definition sum_axes (nd : nat) (F : nat -> R) : R := fold_right Rplus 0 (map F (seq 0 nd)).

(** The point moved by [a] along axis [j]. *)
Definition move (x : point) (j : nat) (a : R) : point := fun i => if Nat.eqb i j then x i + a else x i.

(** [u] repeats itself after the length of the domain along every axis. *)
Definition periodic (nd : nat) (lengths : list R) (u : point -> R) : Prop :=
  forall x j, (j < nd)%nat -> u (move x j (nth j lengths 0)) = u x.

(** [u] is differentiable with gradient [du], with a quadratic remainder: |u(x+h) - u(x) - du(x).h| <= M/2 |h|^2, where
    |h| is the sum of the absolute values (a bound M on the second derivatives gives this). *)
Definition smooth (nd : nat) (M : R) (u : point -> R) (du : point -> nat -> R) : Prop :=
  forall x h : point,
    Rabs (u (fun j => x j + h j) - u x - sum_axes nd (fun j => du x j * h j)) <= M / 2 * (sum_axes nd (fun j => Rabs (h j))) ^ 2.

(** The initial profile [u] carried along with the velocity for the time [t]. *)
Definition carried (v : list R) (t : R) (u : point -> R) : point -> R := fun x => u (fun j => x j - nth j v 0 * t).

(** The place of cell [g]: [x0] is the place of the first cell (its centre, say), cells are a fraction of the length apart. *)
Definition place (dims : list Z) (lengths : list R) (x0 : point) (g : list Z) : point :=
  fun j => x0 j + IZR (nth j g 0%Z) * (nth j lengths 0 / IZR (nth j dims 0%Z)).

Definition sample (dims : list Z) (lengths : list R) (x0 : point) (u : point -> R) (g : list Z) : R := u (place dims lengths x0 g).
