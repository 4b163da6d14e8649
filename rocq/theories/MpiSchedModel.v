(** * Executions of the ranks of an MPI program that uses class Filter

    The ranks advance independently.  What couples them are the MPI calls of Filter::fetch (cxx/Filter.cpp:114-129):
    MPI_Win_fence(MPI_MODE_NOPUT | MPI_MODE_NOPRECEDE, win), MPI_Get, MPI_Win_fence(MPI_MODE_NOSUCCEED, win).
    Their rules, from the MPI standard (one-sided communication, fence synchronisation):

    - A fence with NOPRECEDE ends no epoch.  It does not wait for anybody.
    - MPI_Get does not wait.  The elements arrive later, in any order, one by one.  They may be read in the target's
      window once the target has called its opening fence of the same epoch.
    - The closing fence returns only when the elements asked by the rank have arrived, when every rank has called its
      closing fence of the same epoch, and when the elements which other ranks asked from this one have been read.

    Epochs are counted for each window separately.  Nothing forbids reading in the window of a rank after its
    closing fence, other than the rules above.

    The other calls concern all the ranks of MPI_COMM_WORLD: MPI_Init, MPI_Win_create, MPI_Win_free, MPI_Reduce, MPI_Gather,
    MPI_Finalize.  The n-th such call of a rank matches the n-th of every other rank; different functions at the same place
    are an error.  MPI_Reduce and MPI_Gather return on rank 0, which receives the contributions, after all ranks have
    called them.  In all other cases the standard lets an implementation choose between returning at once and waiting
    for the other ranks: [turn] describes what may happen, [unavoidable] what has to happen even when every call waits as
    long as the standard permits. *)
From Verif Require Import Cpp OMap MaiModel CdModel FilterModel FilterSpec.
Local Open Scope Z_scope.

(** ** Machine *)
Inductive redop : Type := Sum | Min | Max.
Inductive call : Type := Init | WinCreate | WinFree (w : list Z) | Reduce (o : redop) | Gather | Finalize.
Definition eqc (x y : call) : {x = y} + {x <> y}.
Proof. decide equality; [apply list_eq_dec, Z.eq_dec|decide equality]. Defined.
(** Rank 0 receives something from the others. *)
Definition receives (c : call) : bool := match c with Reduce _ | Gather => true | _ => false end.

Section Machine.
  (** Private memory of a rank, elements of windows, elements sent to rank 0, results of a rank; what a window contains. *)
  Context {S E V R : Type} (expose : S -> list Z -> res (list E)).

  (** A rank about to make an MPI call.  [s] is its memory at this time (None: it has no windows); the private computations
      that follow the call are in [k].  [k] of the closing fence receives the elements fetched, [k] of a collective call the
      contributions of the ranks in order, on rank 0 only. *)
  Inductive proc : Type :=
  | Ret (x : R)
  | Stop (u : ub)
  | FenceOpen (w : list Z) (s : S) (k : proc)
  | Get (w : list Z) (target n : Z) (s : S) (k : proc)
  | FenceClose (w : list Z) (s : S) (k : list E -> proc)
  | Coll (a : call) (v : list V) (s : option S) (k : list (list V) -> proc).

  Definition priv {A} (r : res A) (k : A -> proc) : proc := match r with Ok a => k a | Undef u => Stop u end.

  (** [opens], [closes]: the windows of the opening fences called and of the closing fences that have returned;
      [pend]: the window, target and elements (those that have arrived) of the MPI_Get under way;
      [colls]: the collective calls that have returned, with the contributions of the rank. *)
  Record rank : Type := mkRank {
    pr : proc;
    opens : list (list Z);
    closes : list (list Z);
    pend : option (list Z * Z * list (option E));
    colls : list (call * list V)
  }.

  Definition config : Type := list rank.
  Definition start (ps : list proc) : config := map (fun p => mkRank p [] [] None []) ps.

  Definition eqw : forall x y : list Z, {x = y} + {x <> y} := list_eq_dec Z.eq_dec.
  Definition count (w : list Z) (l : list (list Z)) : nat := count_occ eqw l w.

  Definition memory (p : proc) : res S :=
    match p with
    | FenceOpen _ s _ | Get _ _ _ s _ | FenceClose _ s _ | Coll _ _ (Some s) _ => Ok s
    | Ret _ | Coll _ _ None _ => Undef UseAfterFree
    | Stop u => Undef u
    end.

  Definition arrived (buf : list (option E)) : bool := forallb (fun x => match x with Some _ => true | None => false end) buf.
  Definition values (buf : list (option E)) : list E := flat_map (fun x => match x with Some v => [v] | None => [] end) buf.

  (** How many closing fences on window [w] the rank has called. *)
  Definition called (w : list Z) (q : rank) : nat :=
    (count w (closes q) + match pr q with FenceClose w' _ _ => if eqw w' w then 1 else 0 | _ => 0 end)%nat.

  (** Rank [q] has still to read elements in the window [w] of rank [r], in epoch [e] of the window or before. *)
  Definition reads (w : list Z) (r : nat) (e : nat) (q : rank) : bool :=
    match pend q with
    | Some (w', t, buf) => (if eqw w' w then true else false) && (t =? Z.of_nat r) && negb (arrived buf) && (count w (opens q) <=? e)%nat
    | None => false
    end.

  (** The closing fence of rank [r] on [w] may return. *)
  Definition may_close (c : config) (r : nat) (w : list Z) (x : rank) : bool :=
    let e := count w (opens x) in
    match pend x with Some (_, _, buf) => arrived buf | None => true end &&
    forallb (fun q => (e <=? called w q)%nat && negb (reads w r e q)) c.

  (** The collective call number [i] of the rank, if it has made it. *)
  Definition contribution (i : nat) (q : rank) : option (call * list V) :=
    match nth_error (colls q) i with
    | Some x => Some x
    | None => match pr q with Coll a v _ _ => if (length (colls q) =? i)%nat then Some (a, v) else None | _ => None end
    end.
  Definition others (c : config) (i : nat) : list (option (call * list V)) := map (contribution i) c.
  Definition agrees (a : call) (o : option (call * list V)) : bool :=
    match o with Some (b, _) => if eqc a b then true else false | None => true end.
  Definition sent (o : option (call * list V)) : bool := match o with Some _ => true | None => false end.
  Definition payload (o : option (call * list V)) : list V := match o with Some (_, v) => v | None => [] end.

  (** What can happen next: rank [r] proceeds to its next call, or element [i] of its MPI_Get arrives. *)
  Inductive event := Proceed (r : nat) | Arrive (r i : nat).

  (** None: the event is not possible now. *)
  Definition turn (ev : event) (c : config) : option (res config) :=
    match ev with
    | Proceed r =>
        match nth_error c r with
        | None => None
        | Some x =>
            match pr x with
            | Ret _ => None
            | Stop u => Some (Undef u)
            | FenceOpen w _ k => Some (Ok (upd c r (mkRank k (opens x ++ [w]) (closes x) (pend x) (colls x))))
            | Get w t n _ k =>
                match pend x with
                | Some _ => None
                | None =>
                    if negb ((0 <=? t) && (t <? Z.of_nat (length c))) then Some (Undef MpiBadRank)
                    else Some (Ok (upd c r (mkRank k (opens x) (closes x) (Some (w, t, repeat None (Z.to_nat n))) (colls x))))
                end
            | FenceClose w _ k =>
                if may_close c r w x then
                  Some (Ok (upd c r (mkRank (k (match pend x with Some (_, _, buf) => values buf | None => [] end))
                                            (opens x) (closes x ++ [w]) None (colls x))))
                else None
            | Coll a v _ k =>
                let os := others c (length (colls x)) in
                if negb (forallb (agrees a) os) then Some (Undef MpiMismatch)
                else if receives a && (r =? 0)%nat then
                  if forallb sent os then
                    if forallb (fun o => (length (payload o) =? length v)%nat) os then
                      Some (Ok (upd c r (mkRank (k (map payload os)) (opens x) (closes x) (pend x) (colls x ++ [(a, v)]))))
                    else Some (Undef MpiMismatch)
                  else None
                else Some (Ok (upd c r (mkRank (k []) (opens x) (closes x) (pend x) (colls x ++ [(a, v)]))))
            end
        end
    | Arrive r i =>
        match nth_error c r with
        | None => None
        | Some x =>
            match pend x with
            | None => None
            | Some (w, t, buf) =>
                match nth_error buf i, nth_error c (Z.to_nat t) with
                | Some None, Some y =>
                    if (count w (opens x) <=? count w (opens y))%nat then
                      Some (s <- memory (pr y) ;; data <- expose s w ;;
                            match nth_error data i with
                            | None => Undef MpiBadRange
                            | Some v => Ok (upd c r (mkRank (pr x) (opens x) (closes x) (Some (w, t, upd buf i (Some v))) (colls x)))
                            end)
                    else None
                | _, _ => None
                end
            end
        end
    end.

  (** How many opening fences on window [w] the rank has called, the one it is about to call included. *)
  Definition opened (w : list Z) (q : rank) : nat :=
    (count w (opens q) + match pr q with FenceOpen w' _ _ => if eqw w' w then 1 else 0 | _ => 0 end)%nat.

  (** The event happens sooner or later, whatever choice the implementation makes: an opening fence and a collective call
      wait for the call of every rank, MPI_Get for the opening fence of the target. *)
  Definition unavoidable (ev : event) (c : config) : bool :=
    match ev with
    | Arrive _ _ => true
    | Proceed r =>
        match nth_error c r with
        | None => false
        | Some x =>
            match pr x with
            | FenceOpen w _ _ => forallb (fun q => (count w (opens x) <? opened w q)%nat) c
            | Get w t _ _ _ => match nth_error c (Z.to_nat t) with Some y => (count w (opens x) <=? count w (opens y))%nat | None => true end
            | Coll _ _ _ _ => forallb sent (others c (length (colls x)))
            | _ => true
            end
        end
    end.

  Fixpoint run (sched : list event) (c : config) : option (res config) :=
    match sched with
    | [] => Some (Ok c)
    | ev :: sched => match turn ev c with
                     | None => None
                     | Some (Undef u) => Some (Undef u)
                     | Some (Ok c) => run sched c
                     end
    end.

  (** Every rank has finished, with results [xs]. *)
  Definition finished (c : config) (xs : list R) : Prop := map pr c = map Ret xs.
End Machine.
Arguments proc : clear implicits.
Arguments rank : clear implicits.
Arguments config : clear implicits.

(** ** The Filter functions as a rank executes them *)
Section FilterProc.
  Context {D R : Type} (ar : arith D).
  Notation process := (proc (filter D) (option D) D R).

  (** The memory behind the window of [side]: the source buffer, Filter.cpp:320-340, until it is released *)
  Definition exposed (f : filter D) (side : list Z) : res (list (option D)) :=
    ' (src, _) <- omap_at lexcmp side (f_winData f) ;;
    ' (id, _, _) <- omap_at lexcmp side (f_winIds f) ;;
    if existsb (Z.eqb id) (f_allocs f) then Ok src else Undef UseAfterFree.

  (** fetch, Filter.cpp:114-129 *)
  Definition fetch_proc (f : filter D) (otherRank : Z) (side : list Z) (k : list (option D) -> filter D -> process) : process :=
    priv (wit <- omap_at lexcmp side (f_winIter f) ;;
          let n := i32 (mai_getNumberOfTerms wit) in
          _ <- omap_at lexcmp side (f_winIds f) ;;
          ' (src, dst) <- omap_at lexcmp side (f_winData f) ;;
          if n <? 0 then Undef BadAlloc else if vlen dst <? n then Undef OobWrite else Ok (n, src, dst)) (fun '(n, src, dst) =>
      FenceOpen side f
        (Get side otherRank n f
          (FenceClose side f (fun data =>
             let dst' := data ++ skipn (Z.to_nat n) dst in
             k dst' (set_win f (omap_set lexcmp side (src, dst') (f_winData f)) (f_winIter f)))))).

  (** Body of the loop of applyFilter, Filter.cpp:202-262 *)
  Definition branch_proc (f : filter D) (it : list Z * D) (k : filter D -> process) : process :=
    let (offset, val) := it in
    priv (side <- filter_getSideFromOffset f offset ;;
          ' (neighborRk, c) <- cd_getNeighborRank (f_dcmp f) (f_rk f) offset ;;
          ' (wit, f) <- filter_getWindowIter (set_dcmp f c) neighborRk side ;;
          Ok (side, neighborRk, wit, f)) (fun '(side, neighborRk, wit, f) =>
      match omap_find lexcmp side (f_winIds f) with
      | Some _ => fetch_proc f neighborRk side (fun d f => priv (filter_accumulate ar f wit (Some d) offset val) k)
      | None => priv (filter_accumulate ar f wit None offset val) k
      end).

  (** applyFilter, Filter.cpp:191-263 *)
  Fixpoint branches_proc (st : list (list Z * D)) (f : filter D) (k : filter D -> process) : process :=
    match st with [] => k f | it :: st => branch_proc f it (fun f => branches_proc st f k) end.
  Definition apply_proc (f : filter D) (k : filter D -> process) : process :=
    priv (filter_zeroOut ar f) (fun f => branches_proc (f_stencil f) f k).

  (** A rank's program: applyFilter, and functions of the rank's own filter. *)
  Inductive instr : Type := IApply | ILocal (g : filter D -> res (filter D)).
  Fixpoint program (l : list instr) (k : filter D -> process) (f : filter D) : process :=
    match l with
    | [] => k f
    | IApply :: l => apply_proc f (program l k)
    | ILocal g :: l => priv (g f) (program l k)
    end.

  (** The operations on filters of FilterSpec. *)
  Definition instr_of (o : op D) : instr :=
    match o with
    | SetByPosition u => ILocal (fun f => filter_setInData ar f u)
    | SetByIndices G => ILocal (fun f => filter_setInDataByIndices f G)
    | Apply => IApply
    | Copy => ILocal filter_copyOutToIn
    | CheckSum input => ILocal (fun f => ' (_, f) <- filter_localSum ar f input ;; Ok f)
    | Print input => ILocal (fun f => ' (_, f) <- filter_print f input ;; Ok f)
    end.
End FilterProc.

Definition rank_program {D} (ar : arith D) (ops : list (op D)) : filter D -> proc (filter D) (option D) D (filter D) :=
  program ar (map (instr_of ar) ops) (@Ret _ _ _ _).
