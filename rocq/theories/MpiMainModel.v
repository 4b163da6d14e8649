(** * The MPI programs, each rank by itself

    upwind/cxx/upwindMpi.cxx, laplacian/cxx/laplacian.cxx and laplacian/cxx/testStencil2d.cxx from MPI_Init to MPI_Finalize, as
    processes of the machine of MpiSchedModel.v: everything a rank does between two MPI calls is private, the ranks meet in
    the MPI calls only.  The result of a rank is what it leaves behind (text, files).

    [reduce i] is what the i-th check sum makes of the contributions, [rtime o] what the reductions of the times make of
    theirs; [wall rk] is the time measured by rank [rk].  All are arbitrary.  What a call leaves in the variables of the ranks
    that receive nothing is never used; it is taken to be 0.  [tolerant]: whether [&v.front()] of an empty vector
    gives some pointer (as most implementations do) or is undefined (as the standard says). *)
From Coq Require Import List String.
From Verif Require Import Cpp MaiModel CdModel CmdModel FilterModel LapModel UpMpiModel VtkModel NumModel TextModel MpiTextModel MpiSchedModel.
Import ListNotations.
Local Open Scope string_scope.
Local Open Scope Z_scope.

Section MpiMain.
  Context {D : Type} (ar : arith D) (show : D -> string) (reduce : nat -> list D -> D) (rtime : redop -> list D -> D) (wall : Z -> D)
    (atof : string -> D) (tolerant : bool).
  Notation process := (proc (filter D) (option D) D TextModel.run).

  (** ** Class Filter *)

  (** The loop of the constructor, Filter.cpp:61-78; MPI_Win_create is at line 333, in newWindow.  The window is entered
      into the maps before the call instead of after it. *)
  Fixpoint windows_proc (st : list (list Z * D)) (f : filter D) (k : filter D -> process) : process :=
    match st with
    | [] => k f
    | it :: st =>
        let offset := fst it in
        if filter_getNumberOfNonZeroElements offset =? 0 then windows_proc st f k
        else
          priv (side <- filter_getSideFromOffset f offset ;;
                numGhosts <- filter_getNumberOfGhostsFromOffset offset ;;
                filter_newWindow (set_ghosts f (omap_insert lexcmp side numGhosts (f_winNumGhosts f))) side) (fun f =>
          Coll WinCreate [] (Some f) (fun _ => windows_proc st f k))
    end.

  (** Constructor, Filter.cpp:11-78 *)
  Definition new_proc (rk sz : Z) (globalDims : list Z) (xmins xmaxs : list D) (stencil : list (list Z * D)) (k : filter D -> process) : process :=
    priv (cd_build cd_empty sz globalDims) (fun '(valid, dcmp) =>
    let f := mkFilter rk sz (vlen globalDims) globalDims xmins xmaxs valid dcmp [] [] None [] [] [] [] [] [] [] [] in
    if negb valid then k f
    else
      priv (' (lo, dcmp) <- cd_getBegIndices dcmp rk ;;
            ' (hi, dcmp) <- cd_getEndIndices dcmp rk ;;
            mit <- mai_build lo hi false ;;
            let zeros := repeat (a_zero ar) (Z.to_nat (mai_getNumberOfTerms mit)) in
            Ok (mkFilter rk sz (vlen globalDims) globalDims xmins xmaxs valid dcmp lo hi (Some mit) zeros zeros stencil [] [] [] [] [])) (fun f =>
      windows_proc stencil f k)).

  (** Destructor, Filter.cpp:80-87, 342-356: the buffers of a window are released, then the window is *)
  Fixpoint free_proc (wins : list (list Z * (Z * Z * Z))) (f : filter D) (k : process) : process :=
    match wins with
    | [] => k
    | w :: wins =>
        let side := fst w in
        priv (match omap_find lexcmp side (f_winIds f) with
              | Some (src, dst, _) => live <- release (f_allocs f) src ;; live <- release live dst ;; Ok (set_ids f (f_winIds f) live)
              | None => Ok f
              end) (fun f =>
        match omap_find lexcmp side (f_winIds f) with
        | Some (_, _, win) =>
            Coll (WinFree side) [] (Some f) (fun _ =>
            priv (release (f_allocs f) win) (fun live => free_proc wins (set_ids f (f_winIds f) live) k))
        | None => free_proc wins f k
        end)
    end.
  Definition delete_proc (f : filter D) (k : process) : process := free_proc (f_winIds f) f k.

  (** MPI_Reduce of one double to rank 0 *)
  Definition reduce_proc (o : redop) (v : D) (red : list D -> D) (f : filter D) (k : D -> process) : process :=
    Coll (Reduce o) [v] (Some f) (fun got => k (if f_rk f =? 0 then red (List.concat got) else a_zero ar)).

  (** computeCheckSum, Filter.cpp:464-483; the [i]-th of the program *)
  Definition checksum_proc (i : nat) (input : bool) (f : filter D) (k : D -> filter D -> process) : process :=
    priv (filter_localSum ar f input) (fun '(s, f) => reduce_proc Sum s (reduce i) f (fun g => k g f)).

  (** The time statistics, laplacian.cxx:91-95, upwindMpi.cxx:128-132: minimum, maximum, sum *)
  Definition times_proc (f : filter D) (k : D * D * D -> process) : process :=
    let walltime := wall (f_rk f) in
    reduce_proc Sum walltime (rtime Sum) f (fun sumTime =>
    reduce_proc Min walltime (rtime Min) f (fun minTime =>
    reduce_proc Max walltime (rtime Max) f (fun maxTime => k (minTime, maxTime, sumTime)))).

  (** [&v.front()] *)
  Definition front {A} (v : list A) : res unit := if (vlen v =? 0) && negb tolerant then Undef EmptyFront else Ok tt.

  (** saveVTK, Filter.cpp:485-538, until the field is complete on rank 0 *)
  Definition gather_proc (f : filter D) (k : option (list D) -> filter D -> process) : process :=
    priv (for_upto (f_ndims f) (fun i n => g <- vget (f_globalDims f) i ;; Ok (u64 (n * g))) 1) (fun ntot =>
    let nLocal := i32 (vlen (f_outData f)) in
    let recvBuffer := if f_rk f =? 0 then repeat (a_zero ar) (Z.to_nat ntot) else [] in
    priv (_ <- front (f_outData f) ;; _ <- front recvBuffer ;; if nLocal <? 0 then Undef MpiBadRange else Ok tt) (fun _ =>
    Coll Gather (firstn (Z.to_nat nLocal) (f_outData f)) (Some f) (fun got =>
    if f_rk f =? 0 then
      priv (let data := List.concat got in
            if vlen recvBuffer <? vlen data then Undef OobWrite
            else filter_saveVTK_root ar (data ++ skipn (List.length data) recvBuffer) f) (fun '(field, f) => k (Some field) f)
    else k None f))).

  (** saveVTK with writeVTK: the warnings and the files, on rank 0 *)
  Definition save_proc (filename : string) (f : filter D) (k : string -> list (string * string) -> filter D -> process) : process :=
    gather_proc f (fun field f =>
      match field with
      | Some field =>
          priv (writeVTK_text ar show filename (f_globalDims f) (f_xmins f) (f_xmaxs f) field "outData") (fun '(warning, files) => k warning files f)
      | None => k "" [] f
      end).

  (** saveVTK if asked, after the announcement; laplacian.cxx:98-104, upwindMpi.cxx:134-140, testStencil2d.cxx:98-104 *)
  Definition output_proc (writeVTK : bool) (filename out err : string) (f : filter D)
    (k : string -> string -> list (string * string) -> filter D -> process) : process :=
    if writeVTK then
      let out := out ++ (if f_rk f =? 0 then "Data will be written to file " ++ filename ++ newline else "") in
      save_proc filename f (fun warning files f => k out (err ++ warning) files f)
    else k out err [] f.

  (** ** The programs *)

  (** MPI_Finalize; return 0 *)
  Definition exit_proc (out err : string) (files : list (string * string)) : process :=
    Coll Finalize [] None (fun _ => Ret (mkRun out err files 0)).

  (** laplacian.cxx:116-128, upwindMpi.cxx:153-164, testStencil2d.cxx:107-117 *)
  Definition refuse_proc (rk : Z) (msg : string) (success : bool) (args : clap D) : process :=
    priv (help_text show args) (fun h =>
    exit_proc (msg ++ h) (if negb success && (rk =? 0) then "ERROR when parsing command line arguments" ++ newline else "") []).

  (** main, laplacian.cxx:31-128 *)
  Definition lap_proc (dsin : D -> D) (m_pi : D) (sz : Z) (argv : list string) (rk : Z) : process :=
    Coll Init [] None (fun _ =>
    let args := clap_setPurpose clap_new "Purpose: benchmark finite difference operations." in
    let args := clap_setInt args "-numCells" 8000 "Number of cells along each axis" in
    let args := clap_setInt args "-numDims" 2 "Number of dimensions" in
    let args := clap_setBool args "-vtk" false "Write output to VTK file" in
    priv (parse_text args (tl argv)) (fun msg =>
    priv (clap_parse atof args argv) (fun '(success, args) =>
    let help := clap_getBool args "-h" in
    if success && negb help then
      let numCells := u64 (clap_getInt args "-numCells") in
      let numDims := u64 (clap_getInt args "-numDims") in
      priv (if two31 <=? numDims then Undef BadAlloc else lap_stencil ar numDims) (fun stencil =>
      let globalDims := repeat numCells (Z.to_nat numDims) in
      let xmins := repeat (a_dec ar 0 1) (Z.to_nat numDims) in
      let xmaxs := repeat (a_dec ar 10 1) (Z.to_nat numDims) in
      priv (ctor_text rk sz globalDims) (fun '(_, out, err) =>
      new_proc rk sz globalDims xmins xmaxs stencil (fun f =>
      let out := msg ++ out in
      let err := err ++ (if (f_rk f =? 0) && negb (filter_isDecompValid f) then "Decomposition is invalid" ++ newline else "") in
      if filter_isDecompValid f then
        program ar (ILocal (fun f => filter_setInData ar f (lap_func ar dsin m_pi)) :: List.concat (repeat [IApply; ILocal filter_copyOutToIn] 10)) (fun f =>
        times_proc f (fun times =>
        output_proc (clap_getBool args "-vtk") "laplacian.vtk" out err f (fun out err files f =>
        checksum_proc 0 true f (fun inSum f =>
        checksum_proc 1 false f (fun outSum f =>
        let out := out ++ (if f_rk f =? 0 then
          "Laplace" ++ times_text ar show times (f_sz f) ++ "Check sums: input = " ++ show inSum ++ " output = " ++ show outSum ++ newline else "") in
        delete_proc f (exit_proc out err files)))))) f
      else delete_proc f (exit_proc out err []))))
    else refuse_proc rk msg success args))).

  (** The time loop, upwindMpi.cxx:115-126: [n] iterations from number [i] *)
  Fixpoint steps_proc (n i : nat) (out : string) (f : filter D) (k : string -> filter D -> process) : process :=
    match n with
    | O => k out f
    | S n =>
        apply_proc ar f (fun f =>
        checksum_proc (2 * i) true f (fun inSum f =>
        checksum_proc (2 * i + 1) false f (fun outSum f =>
        let out := out ++ (if f_rk f =? 0 then
          "iter " ++ show_int (Z.of_nat i) ++ " check sum  in/out = " ++ show inSum ++ " / " ++ show outSum ++ newline else "") in
        priv (filter_copyOutToIn f) (fun f => steps_proc n (S i) out f k))))
    end.

  (** main, upwindMpi.cxx:30-164 *)
  Definition um_proc (sz : Z) (argv : list string) (rk : Z) : process :=
    Coll Init [] None (fun _ =>
    let args := clap_setPurpose clap_new "Purpose: benchmark finite difference operations." in
    let args := clap_setInt args "-numCells" 128 "Number of cells along each axis" in
    let args := clap_setInt args "-numSteps" 10 "Number of time steps" in
    let args := clap_setBool args "-vtk" false "Write output to VTK file" in
    priv (parse_text args (tl argv)) (fun msg =>
    priv (clap_parse atof args argv) (fun '(success, args) =>
    let help := clap_getBool args "-h" in
    if success && negb help then
      let numCells := u64 (clap_getInt args "-numCells") in
      let numSteps := u64 (clap_getInt args "-numSteps") in
      let velocities := repeat (a_dec ar 10 1) 3 in
      let lengths := repeat (a_dec ar 10 1) 3 in
      priv (' (deltas, signs, dt) <- um_axes ar velocities lengths 3 numCells ;; um_stencil ar 3 velocities deltas signs dt) (fun stencil =>
      let globalDims := repeat numCells 3 in
      let xmins := repeat (a_dec ar 0 1) 3 in
      priv (ctor_text rk sz globalDims) (fun '(_, out, err) =>
      new_proc rk sz globalDims xmins lengths stencil (fun f =>
      let out := msg ++ out in
      let err := err ++ (if (f_rk f =? 0) && negb (filter_isDecompValid f) then "Decomposition is invalid" ++ newline else "") in
      if filter_isDecompValid f then
        priv (filter_setInDataByIndices f (um_init ar)) (fun f =>
        steps_proc (Z.to_nat numSteps) 0 out f (fun out f =>
        times_proc f (fun times =>
        output_proc (clap_getBool args "-vtk") "upMpi.vtk" out err f (fun out err files f =>
        checksum_proc (2 * Z.to_nat numSteps) false f (fun outSum f =>
        let out := out ++ (if f_rk f =? 0 then times_text ar show times (f_sz f) ++ "Check sum: " ++ show outSum ++ newline else "") in
        delete_proc f (exit_proc out err files))))))
      else delete_proc f (exit_proc out err []))))
    else refuse_proc rk msg success args))).

  (** main, testStencil2d.cxx:41-117 *)
  Definition st2_proc (sz : Z) (argv : list string) (rk : Z) : process :=
    Coll Init [] None (fun _ =>
    let args := clap_setPurpose clap_new "Purpose: benchmark finite difference operations." in
    let args := clap_setInt args "-numCells" 8 "Number of cells along each axis" in
    let args := clap_setBool args "-vtk" false "Write output to VTK file" in
    priv (parse_text args (tl argv)) (fun msg =>
    priv (clap_parse atof args argv) (fun '(success, args) =>
    let help := clap_getBool args "-h" in
    if success && negb help then
      let numCells := u64 (clap_getInt args "-numCells") in
      let globalDims := repeat numCells 2 in
      let xmins := repeat (a_dec ar 0 1) 2 in
      let xmaxs := repeat (a_dec ar 10 1) 2 in
      priv (ctor_text rk sz globalDims) (fun '(_, out, err) =>
      new_proc rk sz globalDims xmins xmaxs (st2_stencil ar) (fun f =>
      let out := msg ++ out in
      let err := err ++ (if (f_rk f =? 0) && negb (filter_isDecompValid f) then "Decomposition is invalid" ++ newline else "") in
      program ar (if filter_isDecompValid f then [ILocal (fun f => filter_setInDataByIndices f (st2_func ar)); IApply] else []) (fun f =>
      priv (filter_print f false) (fun '(lines, f) =>
      let err := err ++ outData_text show (f_rk f) lines in
      output_proc (clap_getBool args "-vtk") "stencil2d.vtk" out err f (fun out err files f =>
      delete_proc f (exit_proc out err files)))) f))
    else refuse_proc rk msg success args))).
End MpiMain.
