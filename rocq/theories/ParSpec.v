(** * Specification vocabulary for parallel executions *)
From Coq Require Import List ZArith Permutation.
From Verif Require Import Cpp ParModel.
Import ListNotations.
Local Open Scope Z_scope.

(** The threads 0 .. T-1 together execute each of the iterations 0 .. n-1 once. *)
Definition shares (T : nat) (n : Z) (who : nat -> list Z) : Prop :=
  Permutation (flat_map who (seq 0 T)) (map Z.of_nat (seq 0 (Z.to_nat n))).

(** The next access of a thread to shared memory, and whether it is a write. *)
Definition next_access {D} (th : thread D) : option (loc * bool) :=
  match fst th with Rd a _ => Some (a, false) | Wr a _ _ => Some (a, true) | _ => None end.

(** Two threads are about to access the same element, one of them to write it. *)
Definition race {D} (c : config D) : Prop :=
  exists t t' th th' a w w', t <> t' /\ nth_error (snd c) t = Some th /\ nth_error (snd c) t' = Some th' /\
    next_access th = Some (a, w) /\ next_access th' = Some (a, w') /\ w || w' = true.

(** [c'] can be reached from [c]. *)
Definition reaches {D} (c c' : config D) : Prop := exists s, run s c = Some (Ok c').
