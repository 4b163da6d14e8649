(** * Which collective calls a rank should make *)
From Coq Require Import List.
From Verif Require Import MpiSchedModel.
Import ListNotations.

(** The number of windows after some calls, with [n] windows before; None when a window is freed that does not exist, or MPI
    is started or ended. *)
Fixpoint windows_left (n : nat) (calls : list call) : option nat :=
  match calls with
  | [] => Some n
  | (Init | Finalize) :: _ => None
  | WinCreate :: t => windows_left (S n) t
  | WinFree _ :: t => match n with O => None | S n => windows_left n t end
  | (Reduce _ | Gather) :: t => windows_left n t
  end.

(** MPI_Init, then the other calls, then, when all windows have been freed, MPI_Finalize. *)
Definition orderly (calls : list call) : Prop :=
  exists mid, calls = Init :: mid ++ [Finalize] /\ windows_left 0 mid = Some 0.
