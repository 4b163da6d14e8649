(** * Parallel executions of the loops of upwind.cxx, upwindOMPTasks.cxx, upwindAcc.cxx, upwindAcc2.cxx, upwindOMP5.cxx

    A thread performs one access to the shared arrays f and oldF at a time; the accesses of different threads are
    interleaved in any order.  A thread that has finished its share of a parallel loop waits at the barrier that ends
    the loop until all threads have arrived.  The members v, upDirection, deltas, dimProd, numCells, coeff are not
    written inside the loops: reading them is not an access here.  The loop counters, inds, upI and coeff are private
    (declared in the parallel region, or listed in a private clause).  Interleavings of whole accesses describe all
    executions of C++ only when there are no data races; freedom from races is proved separately. *)
From Verif Require Import Cpp UpModel AccModel.
From Coq Require Import List.
Import ListNotations.
Local Open Scope Z_scope.

(** ** Machine *)
Section Machine.
  Context {D : Type}.

  (** The shared arrays and their elements. *)
  Inductive array := F | OldF.
  Definition loc : Type := array * Z.
  Definition mem : Type := list D * list D.

  Definition mget (m : mem) (a : loc) : res D :=
    match fst a with F => vget (fst m) (snd a) | OldF => vget (snd m) (snd a) end.
  Definition mset (m : mem) (a : loc) (x : D) : res mem :=
    match fst a with
    | F => f <- vset (fst m) (snd a) x ;; Ok (f, snd m)
    | OldF => o <- vset (snd m) (snd a) x ;; Ok (fst m, o)
    end.

  (** What a thread does between two barriers. *)
  Inductive cmd : Type :=
  | Done
  | Rd (a : loc) (k : D -> cmd)
  | Wr (a : loc) (x : D) (k : cmd)
  | Stop (u : ub).

  (** A private computation. *)
  Definition priv {A} (r : res A) (k : A -> cmd) : cmd := match r with Ok a => k a | Undef u => Stop u end.
  Fixpoint andthen (c d : cmd) : cmd :=
    match c with
    | Done => d
    | Rd a k => Rd a (fun x => andthen (k x) d)
    | Wr a x k => Wr a x (andthen k d)
    | Stop u => Stop u
    end.
  (** A loop with private state inside a thread. *)
  Fixpoint ploop {S} (k cnt : nat) (body : Z -> S -> (S -> cmd) -> cmd) (s : S) (after : S -> cmd) : cmd :=
    match cnt with
    | O => after s
    | Datatypes.S c => body (Z.of_nat k) s (fun s => ploop (Datatypes.S k) c body s after)
    end.
  (** The iterations [l] of a loop, one after the other. *)
  Definition share (task : Z -> cmd) (l : list Z) : cmd := fold_right (fun i c => andthen (task i) c) Done l.

  (** A thread: what is left before the next barrier, what comes after the following barriers. *)
  Definition thread : Type := cmd * list cmd.
  Definition config : Type := mem * list thread.

  Definition is_done (c : cmd) : bool := match c with Done => true | _ => false end.

  (** Thread [th] is at the barrier after which [n] loops remain, or past it. *)
  Definition arrived (n : nat) (th : thread) : bool :=
    (length (snd th) <? n)%nat || ((length (snd th) =? n)%nat && is_done (fst th)).

  (** Thread [t] takes a step; None when it cannot: it has finished or waits at a barrier. *)
  Definition turn (t : nat) (c : config) : option (res config) :=
    let (m, ths) := c in
    match nth_error ths t with
    | None => None
    | Some (Rd a k, rest) => Some (x <- mget m a ;; Ok (m, upd ths t (k x, rest)))
    | Some (Wr a x k, rest) => Some (m <- mset m a x ;; Ok (m, upd ths t (k, rest)))
    | Some (Stop u, _) => Some (Undef u)
    | Some (Done, []) => None
    | Some (Done, c :: rest) =>
        if forallb (arrived (S (length rest))) ths then Some (Ok (m, upd ths t (c, rest))) else None
    end.

  (** The threads listed take a step each, in this order. *)
  Fixpoint run (s : list nat) (c : config) : option (res config) :=
    match s with
    | [] => Some (Ok c)
    | t :: s => match turn t c with
                | None => None
                | Some (Undef u) => Some (Undef u)
                | Some (Ok c) => run s c
                end
    end.

  Definition finished (c : config) : Prop := forall th, In th (snd c) -> th = (Done, []).

  (** [T] threads about to enter a region with parallel loops [loops], [loops] giving the share of each thread. *)
  Definition region (T : nat) (loops : list (nat -> cmd)) (m : mem) : config :=
    (m, map (fun t => (Done, map (fun l => l t) loops)) (seq 0 T)).

  (** One thread alone. *)
  Fixpoint alone (c : cmd) (m : mem) : res mem :=
    match c with
    | Done => Ok m
    | Rd a k => x <- mget m a ;; alone (k x) m
    | Wr a x k => m <- mset m a x ;; alone k m
    | Stop u => Undef u
    end.
End Machine.
Arguments mem : clear implicits.
Arguments cmd : clear implicits.
Arguments config : clear implicits.
Arguments thread : clear implicits.

(** ** The loops *)
Section Loops.
  Context {D : Type} (ar : arith D).

  (** upwind.cxx:61, upwindAcc2.cxx:72, upwindOMP5.cxx:73 *)
  Definition copy_task (i : Z) : cmd D := Rd (F, i) (fun x => Wr (OldF, i) x Done).

  (** upwind.cxx:71-78: coefficient, indices of the neighbour, its flat index and the saved index *)
  Definition up_private (u : upwind D) (deltaTime : D) (j : Z) (inds : list Z) : res (D * list Z * Z * Z) :=
    oldIndex <- vget inds j ;;
    vj <- vget (up_v u) j ;;
    uj <- vget (up_upDirection u) j ;;
    dj <- vget (up_deltas u) j ;;
    let coeff := a_div ar (a_mul ar (a_mul ar deltaTime vj) (a_ofZ ar uj)) dj in
    nj <- vget (up_numCells u) j ;;
    inds <- vset inds j (i32 (u64 (u64 oldIndex + u64 (u64 uj + nj)))) ;;
    x <- vget inds j ;;
    r <- umod (u64 x) nj ;;
    inds <- vset inds j (i32 r) ;;
    upI <- up_getFlatIndex u inds ;;
    Ok (coeff, inds, upI, oldIndex).

  (** upwind.cxx:71-82 *)
  Definition up_axis_task (u : upwind D) (deltaTime : D) (i j : Z) (inds : list Z) (k : list Z -> cmd D) : cmd D :=
    priv (up_private u deltaTime j inds) (fun '(coeff, inds, upI, oldIndex) =>
    Rd (F, i) (fun fi =>
    Rd (OldF, upI) (fun a =>
    Rd (OldF, i) (fun b =>
    Wr (F, i) (a_sub ar fi (a_mul ar coeff (a_sub ar a b)))
    (priv (vset inds j oldIndex) k))))).

  (** upwind.cxx:67-83 *)
  Definition up_cell_task (NDIMS : Z) (u : upwind D) (deltaTime : D) (i : Z) : cmd D :=
    priv (up_getIndexSet NDIMS u i) (fun inds => ploop 0 (Z.to_nat NDIMS) (up_axis_task u deltaTime i) inds (fun _ => Done)).

  (** Which iterations of the two loops of a time step a thread executes: step, loop, thread. *)
  Definition assignment : Type := nat -> bool -> nat -> list Z.

  (** The parallel loops of advect, upwind.cxx:56-85: two for each time step. *)
  Definition up_loops (NDIMS : Z) (u : upwind D) (deltaTime : D) (who : assignment) (steps : list nat) : list (nat -> cmd D) :=
    flat_map (fun s => [fun t => share copy_task (who s false t); fun t => share (up_cell_task NDIMS u deltaTime) (who s true t)]) steps.
  (** advect with [T] threads *)
  Definition up_region (T : nat) (NDIMS : Z) (u : upwind D) (numTimeSteps : Z) (deltaTime : D) (who : assignment) : config D :=
    region T (up_loops NDIMS u deltaTime who (seq 0 (Z.to_nat numTimeSteps))) (up_f u, up_oldF u).

  (** upwindAcc.cxx:76-78 and the two similar updates *)
  Definition acc_axis_task (NDIMS : Z) (a : accel D) (deltaTime : D) (inds : list Z) (i k : Z) (upI : option Z) (after : option Z -> cmd D) : cmd D :=
    priv (upI <- (if k <? NDIMS then u <- acc_upI a inds k ;; Ok (Some u) else Ok upI) ;;
          c <- vget (ac_coeff a) k ;;
          u <- (match upI with Some u => Ok u | None => Undef UninitRead end) ;;
          Ok (upI, c, u)) (fun '(upI, c, u) =>
    Rd (OldF, u) (fun x =>
    Rd (OldF, i) (fun y =>
    Rd (F, i) (fun fi =>
    Wr (F, i) (a_sub ar fi (a_mul ar (a_mul ar deltaTime c) (a_sub ar x y)))
    (after upI))))).

  (** upwindAcc.cxx:70-88, upwindAcc2.cxx:76-93, upwindOMP5.cxx:77-94 *)
  Definition acc_cell_task (NDIMS : Z) (a : accel D) (deltaTime : D) (i : Z) : cmd D :=
    priv (acc_inds NDIMS a i) (fun inds => ploop 0 3 (acc_axis_task NDIMS a deltaTime inds i) None (fun _ => Done)).

  (** The kernel of upwindAcc.cxx:65-88; the copy of line 52 is made by the host before. *)
  Definition acc1_region (T : nat) (NDIMS : Z) (a : accel D) (deltaTime : D) (who : nat -> list Z) : config D :=
    region T [fun t => share (acc_cell_task NDIMS a deltaTime) (who t)] (ac_f a, ac_f a).

  (** The kernels of upwindAcc2.cxx:68-95, [T] being the number of workers; a kernel ends before the next one starts
      (no async clause). *)
  Definition acc_loops (NDIMS : Z) (a : accel D) (deltaTime : D) (who : assignment) (steps : list nat) : list (nat -> cmd D) :=
    flat_map (fun s => [fun t => share copy_task (who s false t); fun t => share (acc_cell_task NDIMS a deltaTime) (who s true t)]) steps.
  Definition acc2_region (T : nat) (NDIMS : Z) (a : accel D) (numTimeSteps : Z) (deltaTime : D) (who : assignment) : config D :=
    region T (acc_loops NDIMS a deltaTime who (seq 0 (Z.to_nat numTimeSteps))) (ac_f a, ac_fOld a).

  (** upwindOMP5.cxx:69-96: the time steps are distributed over the teams; [who g] are the steps of team [g].  A team is
      taken to have one thread, which executes the two inner loops in the order of their counters.  There is no
      synchronisation between teams. *)
  Definition omp5_step (NDIMS : Z) (a : accel D) (deltaTime : D) : cmd D :=
    let all := map Z.of_nat (seq 0 (Z.to_nat (ac_ntot a))) in
    andthen (share copy_task all) (share (acc_cell_task NDIMS a deltaTime) all).
  Definition omp5_region (T : nat) (NDIMS : Z) (a : accel D) (deltaTime : D) (who : nat -> list nat) : config D :=
    region T [fun g => fold_right (fun _ c => andthen (omp5_step NDIMS a deltaTime) c) Done (who g)] (ac_f a, ac_f a).
End Loops.
