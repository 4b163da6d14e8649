(** * The report of the number of threads in the Fortran versions

    upwind/fortran/upwind.F90:287-303 (the same lines in upwindF03.F90:294-310) and upwindF08Gpu.F90:378-384.
    The region has no PRIVATE clause, so numThreads, maxNumThreads and threadId are shared by all threads of the region.
    Threads are interleaved access by access.  A program with a data race has no meaning at all in OpenMP; the model is the
    most favourable reading (every access is one step, and all threads see the same memory), so what goes wrong here goes
    wrong on every implementation that is at least as permissive.  A line is written in one step, after the values
    in it have been read. *)
From Coq Require Import List ZArith String.
From Verif Require Import Cpp CmdModel NumModel TextModel FortTextModel.
From Coq Require Import List.
Import ListNotations.
Local Open Scope Z_scope.

(** The three variables, declared in upwind.F90:275-276 *)
Record tvars : Type := mkTv { tv_num : Z; tv_max : Z; tv_tid : Z }.

(** A line: "Running with OpenMP enabled", or the one with the two numbers *)
Inductive tline : Type := Running | Counts (threads max : Z).

(** One access, test or line *)
Inductive tinstr : Type :=
| SetNum (z : Z) | SetMax (z : Z) | SetTid (z : Z)
| IfTid0 (body : list tinstr)
| SayRunning | LoadNum | LoadMax | SayCounts.

(** A thread: what is left to do, the two values read for the line with the numbers, and its own copies of the variables
    (used only when the variables are private) *)
Record thr : Type := mkThr { th_code : list tinstr; th_regs : Z * Z; th_own : tvars }.

(** One step: the variables it works on, the lines written, the thread after it *)
Definition texec (i : tinstr) (rest : list tinstr) (v : tvars) (r : Z * Z) : tvars * list tline * list tinstr * (Z * Z) :=
  match i with
  | SetNum z => (mkTv z (tv_max v) (tv_tid v), [], rest, r)
  | SetMax z => (mkTv (tv_num v) z (tv_tid v), [], rest, r)
  | SetTid z => (mkTv (tv_num v) (tv_max v) z, [], rest, r)
  | IfTid0 body => (v, [], if tv_tid v =? 0 then (body ++ rest)%list else rest, r)
  | SayRunning => (v, [Running], rest, r)
  | LoadNum => (v, [], rest, (tv_num v, snd r))
  | LoadMax => (v, [], rest, (fst r, tv_max v))
  | SayCounts => (v, [Counts (fst r) (snd r)], rest, r)
  end.

(** The shared variables, the lines written so far, the threads *)
Record tstate : Type := mkTs { ts_vars : tvars; ts_out : list tline; ts_threads : list thr }.

(** Some thread takes a step. [private] says whether the variables are private (they are not in the source). *)
Inductive tstep (private : bool) : tstate -> tstate -> Prop :=
| tstep_at v out l1 l2 i rest r own v' lines code r' :
    texec i rest (if private then own else v) r = (v', lines, code, r') ->
    tstep private (mkTs v out (l1 ++ mkThr (i :: rest) r own :: l2))
                  (mkTs (if private then v else v') (out ++ lines)%list
                        (l1 ++ mkThr code r' (if private then v' else own) :: l2)).
Inductive tsteps (private : bool) : tstate -> tstate -> Prop :=
| tsteps_refl s : tsteps private s s
| tsteps_cons s1 s2 s3 : tstep private s1 s2 -> tsteps private s2 s3 -> tsteps private s1 s3.

(** The code of thread [t] of [T] threads; [M] is omp_get_max_threads().  upwind.F90:288-302, [openmp] for HAVE_OPENMP *)
Definition thread_code (openmp : bool) (T M t : Z) : list tinstr :=
  ([SetNum 1; SetMax 1; SetTid 0] ++
   (if openmp then [SetNum T; SetMax M; SetTid t; IfTid0 [SayRunning]] else []) ++
   [IfTid0 [LoadNum; LoadMax; SayCounts]])%list.

(** The values before the region are arbitrary: the variables have not been set. *)
Definition region_start (openmp : bool) (T : nat) (M : Z) (v0 : tvars) (regs : Z * Z) (own : tvars) : tstate :=
  mkTs v0 [] (map (fun t => mkThr (thread_code openmp (Z.of_nat T) M (Z.of_nat t)) regs own) (seq 0 T)).
(** The end of the region: every thread has arrived. *)
Definition region_done (s : tstate) : Prop := Forall (fun x => th_code x = []) (ts_threads s).

(** upwindF08Gpu.F90:379-381 *)
Definition gpu_start (T : nat) (v0 : tvars) (regs : Z * Z) (own : tvars) : tstate :=
  mkTs v0 [] (map (fun _ => mkThr [SetNum (Z.of_nat T)] regs own) (seq 0 T)).

(** The text, upwind.F90:296, 300-301 *)
Definition tline_text (l : tline) : string :=
  match l with
  | Running => "Running with OpenMP enabled" ++ newline
  | Counts a b => "number of threads: " ++ i_edit 10 a ++ " max number of threads: " ++ i_edit 10 b ++ newline
  end%string.
Definition report_text (out : list tline) : string := texts (map tline_text out).
(** upwindF08Gpu.F90:383 *)
Definition gpu_text (s : tstate) (M : Z) : string :=
  ("Number of OpenMP threads: " ++ i_edit 4 (tv_num (ts_vars s)) ++ " out of a max number: " ++ i_edit 4 M ++ newline)%string.
