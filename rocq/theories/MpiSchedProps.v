(** * Property C36: executions of the ranks in any order *)
From Verif Require Import Cpp CppProof OMap MaiModel MaiSpec Radix MaiProof CdModel CdSpec CdProof CdProps
  FilterModel FilterSpec FilterProof FilterRank FilterWorld FilterSum FilterProg FilterProps
  MpiSchedModel MpiSchedSpec MpiSchedProof MpiSchedFilter.
Local Open Scope Z_scope.
Local Arguments prodZ : simpl never.
Local Arguments Z.of_nat : simpl never.

(** The filters of all ranks have been constructed; every rank is about to execute [ops]. *)
Definition launch {D} (ar : arith D) (ops : list (op D)) (w0 : list (filter D)) : config (filter D) (option D) D (filter D) :=
  start (map (rank_program ar ops) w0).

(** An execution of all ranks, in the order [sched], that has come to [c]. *)
Definition comes_to {D} (ar : arith D) (ops : list (op D)) (w0 : list (filter D)) (sched : list event) (c : config (filter D) (option D) D (filter D)) : Prop :=
  MpiSchedModel.run exposed sched (launch ar ops w0) = Some (Ok c).

Lemma run_instr {D} (ar : arith D) ops : forall w, for_each (map (instr_of ar) ops) (world_instr ar) w = FilterProg.run ar ops w.
Proof.
  induction ops as [|o ops IH]; intros w; [reflexivity|]. unfold FilterProg.run in *. cbn [map for_each].
  replace (world_instr ar (instr_of ar o) w) with (run_op ar o w) by (destruct o; reflexivity).
  destruct (run_op ar o w); cbn [bind]; [apply IH|reflexivity].
Qed.

Lemma launch_lockstep {D} (ar : arith D) sz dims x0 x1 st ops w0 w :
  world_new ar sz dims x0 x1 st = Ok w0 -> FilterProg.run ar ops w0 = Ok w ->
  lockstep exposed (map (rank_program ar ops) w0) w.
Proof.
  intros E0 E. apply (program_lockstep ar _ (fun _ => @Ret _ _ _ _) _) with (w' := w).
  - intros i Hi. apply in_map_iff in Hi as (o & <- & _). apply instr_of_shape.
  - apply (world_new_alike ar sz dims x0 x1 st w0 E0).
  - rewrite run_instr. exact E.
  - intros _. apply lockstep_end.
Qed.

Lemma launch_ends {D} (ar : arith D) sz dims x0 x1 st ops w0 w :
  world_new ar sz dims x0 x1 st = Ok w0 -> FilterProg.run ar ops w0 = Ok w ->
  always_ends exposed (map (rank_program ar ops) w0) w.
Proof. intros E0 E. apply lockstep_always. apply (launch_lockstep ar sz dims x0 x1 st ops w0 w E0 E). Qed.

(** ** C36 *)

(** Whatever the order, nothing goes wrong, and a complete execution ends in the state of the lock-step execution. *)
Theorem C36_every_schedule :
  forall D (ar : arith D) sz dims xmins xmaxs st ops w0 w,
    world_new ar sz dims xmins xmaxs st = Ok w0 -> FilterProg.run ar ops w0 = Ok w ->
    forall sched r, MpiSchedModel.run exposed sched (launch ar ops w0) = Some r ->
      exists c, r = Ok c /\ forall ss, finished c ss -> ss = w.
Proof.
  intros D ar sz dims x0 x1 st ops w0 w E0 E sched r Hr. destruct (launch_ends ar sz dims x0 x1 st ops w0 w E0 E) as (M & H).
  destruct (H sched r Hr) as (c & -> & _ & Hf & _). exists c. split; [reflexivity|]. intros ss Hs. apply (Hf ss Hs).
Qed.
Print Assumptions C36_every_schedule.

(** No deadlock: as long as a rank has not finished, something happens, even if the implementation of MPI lets every call
    wait for the other ranks as long as the standard permits. *)
Theorem C36_no_deadlock :
  forall D (ar : arith D) sz dims xmins xmaxs st ops w0 w,
    world_new ar sz dims xmins xmaxs st = Ok w0 -> FilterProg.run ar ops w0 = Ok w ->
    forall sched c, comes_to ar ops w0 sched c -> finished c w \/ exists ev c', unavoidable ev c = true /\ turn exposed ev c = Some (Ok c').
Proof.
  intros D ar sz dims x0 x1 st ops w0 w E0 E sched c Hr. destruct (launch_ends ar sz dims x0 x1 st ops w0 w E0 E) as (M & H).
  destruct (H sched _ Hr) as (c' & Ec & _ & _ & Hp & _). inversion Ec; subst c'. exact Hp.
Qed.
Print Assumptions C36_no_deadlock.

(** Every execution ends: its length is bounded, the complete executions all have the same number of events, and every
    execution can be completed. *)
Theorem C36_terminates :
  forall D (ar : arith D) sz dims xmins xmaxs st ops w0 w,
    world_new ar sz dims xmins xmaxs st = Ok w0 -> FilterProg.run ar ops w0 = Ok w ->
    exists M, forall sched c, comes_to ar ops w0 sched c ->
      (length sched <= M)%nat /\
      (forall ss, finished c ss -> length sched = M) /\
      exists sched' c', comes_to ar ops w0 (sched ++ sched') c' /\ finished c' w.
Proof.
  intros D ar sz dims x0 x1 st ops w0 w E0 E. destruct (launch_ends ar sz dims x0 x1 st ops w0 w E0 E) as (M & H). exists M.
  intros sched c Hr. destruct (H sched _ Hr) as (c' & Ec & Hl & Hf & _ & Hfin). inversion Ec; subst c'.
  split; [exact Hl|]. split; [intros ss Hs; apply (Hf ss Hs)|exact Hfin].
Qed.
Print Assumptions C36_terminates.

(** When an element can be read in the window of another rank, this rank is between its opening and its closing
    fence of the same epoch: it does not write into the buffer then. *)
Theorem C36_reads_between_fences :
  forall D (ar : arith D) sz dims xmins xmaxs st ops w0 w,
    world_new ar sz dims xmins xmaxs st = Ok w0 -> FilterProg.run ar ops w0 = Ok w ->
    forall sched c r i x, comes_to ar ops w0 sched c -> turn exposed (Arrive r i) c = Some x ->
      exists reader target win t buf,
        nth_error c r = Some reader /\ pend reader = Some (win, t, buf) /\ nth_error c (Z.to_nat t) = Some target /\
        opens target = closes target ++ [win] /\ opens target = opens reader /\ closes target = closes reader /\
        ((exists t' n s k, pr target = Get win t' n s k) \/ (exists s k, pr target = FenceClose win s k)).
Proof.
  intros D ar sz dims x0 x1 st ops w0 w E0 E sched c r i x Hr Ht.
  apply (lockstep_reads exposed _ _ (launch_lockstep ar sz dims x0 x1 st ops w0 w E0 E) sched c r i x Hr Ht).
Qed.
Print Assumptions C36_reads_between_fences.

(** In the circumstances of C28-C30 the ranks, whatever their speed, compute the fields that the program means. *)
Theorem C36_fields :
  forall D (ar : arith D) sz dims xmins xmaxs st o ops,
    setting sz dims xmins xmaxs st -> periodic_stencil dims st -> sets o ->
    exists w0, world_new ar sz dims xmins xmaxs st = Ok w0 /\
      let GF := fold_left (fun s o => meaning ar dims xmins xmaxs st o s) (o :: ops) (fun _ => a_zero ar, fun _ => a_zero ar) in
      forall sched c, comes_to ar (o :: ops) w0 sched c ->
        (exists sched' c' ss, comes_to ar (o :: ops) w0 (sched ++ sched') c' /\ finished c' ss) /\
        (forall ss, finished c ss -> distributed dims (fst GF) (in_pieces ss) /\ distributed dims (snd GF) (out_pieces ss)).
Proof.
  intros D ar sz dims x0 x1 st o ops Hs Hp Ho. destruct (FilterProps.start_inv ar dims sz x0 x1 st Hs o ops Hp Ho) as (b & w0 & w & Hb & E0 & E & H).
  exists w0. split; [exact E0|]. cbv zeta. intros sched c Hr. split.
  - destruct (C36_terminates D ar sz dims x0 x1 st (o :: ops) w0 w E0 E) as (M & HM). destruct (HM sched c Hr) as (_ & _ & s' & c' & A & B). eauto 10.
  - intros ss Hf. destruct (C36_every_schedule D ar sz dims x0 x1 st (o :: ops) w0 w E0 E sched _ Hr) as (c' & Ec & He). inversion Ec; subst c'.
    rewrite (He ss Hf). destruct Hs as (Hg & Hn & _). split.
    + apply (in_ok dims sz b st x0 x1 Hg Hn Hb _ _ w H).
    + apply (out_ok dims sz b st x0 x1 Hg Hn Hb _ w). apply (wholds_wfok _ _ _ _ _ _ _ _ _ H).
Qed.
Print Assumptions C36_fields.

(** ** Examples *)

(** A scheduler: the first possible event of a list, again and again. *)
Fixpoint first_possible {D} (c : config (filter D) (option D) D (filter D)) (l : list event) : option (event * config (filter D) (option D) D (filter D)) :=
  match l with
  | [] => None
  | ev :: l => match turn exposed ev c with Some (Ok c') => Some (ev, c') | _ => first_possible c l end
  end.
Fixpoint drive {D} (fuel : nat) (l : list event) (c : config (filter D) (option D) D (filter D)) : list event * config (filter D) (option D) D (filter D) :=
  match fuel with
  | O => ([], c)
  | S fuel => match first_possible c l with
              | Some (ev, c') => let (s, c'') := drive fuel l c' in (ev :: s, c'')
              | None => ([], c)
              end
  end.
Definition ex36_ops : list (op Z) := [SetByIndices (fun g => nth 0 g 0 * nth 0 g 0 + 10 * nth 1 g 0); Apply; Copy; Apply; Copy].
(** Rank 0 before the others whenever it can advance; reversed: rank 3 first. *)
Definition events_up : list event := flat_map (fun r => Proceed r :: map (Arrive r) (seq 0 8)) (seq 0 4).

(** Four ranks on the 8 x 4 grid, two rounds: two different complete executions; the ranks are not in the same round
    at the same time; they finish with the same state. *)
Example C36_example :
  match world_new arZ 4 ex_g [0; 0] [1; 1] ex_st with
  | Ok w0 =>
      let (s1, c1) := drive 500 events_up (launch arZ ex36_ops w0) in
      let (s2, c2) := drive 500 (rev events_up) (launch arZ ex36_ops w0) in
      match FilterProg.run arZ ex36_ops w0, MpiSchedModel.run exposed s1 (launch arZ ex36_ops w0), MpiSchedModel.run exposed s2 (launch arZ ex36_ops w0) with
      | Ok w, Some (Ok d1), Some (Ok d2) =>
          map pr d1 = map Ret w /\ map pr d2 = map Ret w /\ length s1 = length s2 /\ length s1 = 96%nat /\
          firstn 2 s1 = [Proceed 0; Proceed 0]%nat /\ firstn 2 s2 = [Proceed 3; Proceed 3]%nat
      | _, _, _ => False
      end
  | Undef _ => False
  end.
Proof. vm_compute. repeat split. Qed.

(** The machine does not make races or deadlocks impossible by itself.  A rank that changes its buffer between the
    fences: the other rank receives 5 or 7 according to the order. *)
Definition ex_reader : proc (list Z) Z Z (list Z) := FenceOpen [] [0] (Get [] 1 1 [0] (FenceClose [] [0] (fun d => Ret d))).
Definition ex_writer : proc (list Z) Z Z (list Z) := FenceOpen [] [5] (Get [] 0 0 [5] (FenceClose [] [7] (fun _ => Ret [7]))).
Definition ex_show (s : list Z) (_ : list Z) : res (list Z) := Ok s.
Example C36_race_example :
  option_map (fun r => c <- r ;; Ok (map pr c)) (MpiSchedModel.run ex_show [Proceed 0; Proceed 0; Proceed 1; Arrive 0 0; Proceed 1; Proceed 1; Proceed 0]%nat (start [ex_reader; ex_writer]))
    = Some (Ok [Ret [5]; Ret [7]]) /\
  option_map (fun r => c <- r ;; Ok (map pr c)) (MpiSchedModel.run ex_show [Proceed 0; Proceed 0; Proceed 1; Proceed 1; Arrive 0 0; Proceed 1; Proceed 0]%nat (start [ex_reader; ex_writer]))
    = Some (Ok [Ret [7]; Ret [7]]).
Proof. split; reflexivity. Qed.

(** A rank that does not take part in the exchange: the other one waits for ever. *)
Example C36_deadlock_example :
  exists c, MpiSchedModel.run ex_show [Proceed 0; Proceed 0]%nat (start [ex_reader; Ret [5]]) = Some (Ok c) /\
    (forall ev, turn ex_show ev c = None) /\ ~ exists ss, finished c ss.
Proof.
  eexists. split; [reflexivity|]. split.
  - intros [[|[|[|r]]]|[|[|[|r]]] [|[|i]]]; reflexivity.
  - intros (ss & H). destruct ss as [|a ss]; discriminate.
Qed.
