(** * What an execution of all ranks should do: rounds, all ranks together *)
From Verif Require Import Cpp MpiSchedModel.
Local Open Scope Z_scope.

Section Spec.
  Context {S E V R : Type} (expose : S -> list Z -> res (list E)).

  (** All ranks [ps] make one exchange on window [w] and continue as [ps']: everyone receives the beginning of what its
      target has in its window. *)
  Definition exchange (w : list Z) (ps ps' : list (proc S E V R)) : Prop :=
    length ps' = length ps /\
    forall i p, nth_error ps i = Some p ->
      exists s t n k q st d,
        p = FenceOpen w s (Get w t n s (FenceClose w s k)) /\
        0 <= t /\ nth_error ps (Z.to_nat t) = Some q /\ memory q = Ok st /\ expose st w = Ok d /\
        0 <= n <= vlen d /\ nth_error ps' i = Some (k (firstn (Z.to_nat n) d)).

  (** All ranks make the collective call [a], with the same number of elements; rank 0 receives them if [a] says so. *)
  Definition collective (a : call) (ps ps' : list (proc S E V R)) : Prop :=
    length ps' = length ps /\
    exists n vs, length vs = length ps /\ (forall v, In v vs -> receives a = true -> length v = n) /\
    forall i p, nth_error ps i = Some p ->
      exists v s k, p = Coll a v s k /\ nth_error vs i = Some v /\
        nth_error ps' i = Some (k (if receives a && (i =? 0)%nat then vs else [])).

  (** Rounds until all ranks have finished with results [xs]. *)
  Inductive lockstep : list (proc S E V R) -> list R -> Prop :=
  | lockstep_end xs : lockstep (map (@Ret S E V R) xs) xs
  | lockstep_round w ps ps' xs : exchange w ps ps' -> lockstep ps' xs -> lockstep ps xs
  | lockstep_coll a ps ps' xs : collective a ps ps' -> lockstep ps' xs -> lockstep ps xs.

  (** Every execution of [ps], in whatever order, comes to no harm, is bounded, and ends with the results [xs] after the
      same number of events; as long as it has not ended, something is bound to happen. *)
  Definition always_ends (ps : list (proc S E V R)) (xs : list R) : Prop :=
    exists M, forall sched r, run expose sched (start ps) = Some r ->
      exists c, r = Ok c /\ (length sched <= M)%nat /\
        (forall ys, finished c ys -> ys = xs /\ length sched = M) /\
        (finished c xs \/ exists ev c', unavoidable ev c = true /\ turn expose ev c = Some (Ok c')) /\
        exists sched' c', run expose (sched ++ sched') (start ps) = Some (Ok c') /\ finished c' xs.
End Spec.
