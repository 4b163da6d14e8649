(** * The text written by the MPI programs, rank by rank

    upwind/cxx/upwindMpi.cxx, laplacian/cxx/laplacian.cxx, laplacian/cxx/testStencil2d.cxx, with the messages of the
    constructor of Filter and of printOutData (cxx/Filter.cpp).  The values come from UpMpiModel.v and LapModel.v.
    The result is what each rank writes; how a launcher merges the streams of the ranks is not modelled.
    [reduce i] is what the i-th MPI_Reduce with MPI_SUM makes of the contributions (the order is not specified by
    MPI); [times] are the reduced times (minimum, maximum, sum).  Streams and files never fail. *)
From Verif Require Import Cpp CdModel CmdModel FilterModel LapModel UpMpiModel VtkModel NumModel TextModel.
From Coq Require Import List.
Import ListNotations.
Local Open Scope string_scope.
Local Open Scope Z_scope.

(** Written by rank 0 only *)
Definition root (rk : Z) (s : string) : string := if rk =? 0 then s else "".

(** Messages of the constructor, Filter.cpp:26-47: whether the decomposition is valid, standard output, standard error *)
Definition ctor_text (rk sz : Z) (globalDims : list Z) : res (bool * string * string) :=
  ' (valid, dcmp) <- cd_build cd_empty sz globalDims ;;
  if negb valid then
    Ok (false, "", root rk ("ERROR: No valid domain decomposition could be found. Adjust the number" ++ newline ++
                            "of processes and/or the domain dimensions." ++ newline))
  else
    decomp <- mapM (fun i => vget (cd_getDecomp dcmp) i) (map Z.of_nat (seq 0 (List.length globalDims))) ;;
    Ok (true, root rk ("Number of procs: " ++ show_int sz ++ newline ++ "global dimensions: " ++ ints_text globalDims ++
                       newline ++ "Domain decomp " ++ ints_text decomp ++ newline), "").

Section MpiText.
  Context {D : Type} (ar : arith D) (show : D -> string) (reduce : nat -> list D -> D) (times : D * D * D) (atof : string -> D).

  (** printOutData, Filter.cpp:422-438 *)
  Definition outData_text (rk : Z) (lines : list (list Z * D)) : string :=
    "[" ++ show_int rk ++ "] outData: " ++ newline ++
    texts (map (fun l => tab ++ "[" ++ show_int rk ++ "] inds = " ++ ints_text (fst l) ++ " outData = " ++ show (snd l) ++ newline) lines).

  (** laplacian.cxx:111-112, upwindMpi.cxx:146-147 *)
  Definition times_text (sz : Z) : string :=
    let '(minTime, maxTime, sumTime) := times in
    " times min/max/avg: " ++ show minTime ++ "/" ++ show maxTime ++ "/" ++ show (a_div ar sumTime (a_ofZ ar sz)) ++ " [seconds]" ++ newline.

  (** The files written by saveVTK, Filter.cpp:507-537: rank 0 only *)
  Definition save_text (rk : Z) (filename : string) (globalDims : list Z) (xmins xmaxs : list D) (vtk : option (list D)) :
    res (string * list (string * string)) :=
    match vtk with
    | Some field => if rk =? 0 then writeVTK_text ar show filename globalDims xmins xmaxs field "outData" else Ok ("", [])
    | None => Ok ("", [])
    end.

  (** The announcement of the file, upwindMpi.cxx:136-138, laplacian.cxx:101-103, testStencil2d.cxx:100-102 *)
  Definition announce (filename : string) (vtk : option (list D)) : string :=
    match vtk with Some _ => "Data will be written to file " ++ filename ++ newline | None => "" end.

  (** The help printed by every rank; the message on standard error by rank 0, laplacian.cxx:118-124 *)
  Definition refuse (sz : Z) (msg : string) (success : bool) (args : clap D) : res (list run) :=
    h <- help_text show args ;;
    Ok (map (fun rk => mkRun (msg ++ h) (if success then "" else root rk ("ERROR when parsing command line arguments" ++ newline)) [] 0)
            (map Z.of_nat (seq 0 (Z.to_nat sz)))).

  (** ** upwindMpi.cxx *)

  (** upwindMpi.cxx:118-124; [i] is the number of the iteration *)
  Fixpoint iters_text (i : nat) (sums : list (list D * list D)) : string :=
    match sums with
    | [] => ""
    | (ins, outs) :: t =>
        "iter " ++ show_int (Z.of_nat i) ++ " check sum  in/out = " ++ show (reduce (2 * i) ins) ++ " / " ++ show (reduce (2 * i + 1) outs) ++ newline ++
        iters_text (S i) t
    end.

  (** main, upwindMpi.cxx:30-164: what the ranks leave behind *)
  Definition um_program (sz : Z) (argv : list string) : res (list run) :=
    let args := clap_setPurpose clap_new "Purpose: benchmark finite difference operations." in
    let args := clap_setInt args "-numCells" 128 "Number of cells along each axis" in
    let args := clap_setInt args "-numSteps" 10 "Number of time steps" in
    let args := clap_setBool args "-vtk" false "Write output to VTK file" in
    msg <- parse_text args (tl argv) ;;
    ' (success, args) <- clap_parse atof args argv ;;
    let help := clap_getBool args "-h" in
    if success && negb help then
      let lengths := repeat (a_dec ar 10 1) 3 in
      let globalDims := repeat (u64 (clap_getInt args "-numCells")) 3 in
      result <- um_body ar lengths lengths sz (clap_getInt args "-numCells") (clap_getInt args "-numSteps") (clap_getBool args "-vtk") ;;
      mapM (fun rk =>
        ' (_, out, err) <- ctor_text rk sz globalDims ;;
        match result with
        | None => Ok (mkRun (msg ++ out) (err ++ root rk ("Decomposition is invalid" ++ newline)) [] 0)
        | Some r =>
            ' (warning, files) <- save_text rk "upMpi.vtk" globalDims (repeat (a_dec ar 0 1) 3) lengths (um_vtk r) ;;
            Ok (mkRun (msg ++ out ++ root rk (iters_text 0 (um_sums r) ++ announce "upMpi.vtk" (um_vtk r) ++ times_text sz ++
                         "Check sum: " ++ show (reduce (2 * List.length (um_sums r)) (um_final r)) ++ newline))
                      (err ++ warning) files 0)
        end) (map Z.of_nat (seq 0 (Z.to_nat sz)))
    else refuse sz msg success args.

  (** ** laplacian.cxx *)

  (** main, laplacian.cxx:31-128 *)
  Definition lap_program (dsin : D -> D) (m_pi : D) (sz : Z) (argv : list string) : res (list run) :=
    let args := clap_setPurpose clap_new "Purpose: benchmark finite difference operations." in
    let args := clap_setInt args "-numCells" 8000 "Number of cells along each axis" in
    let args := clap_setInt args "-numDims" 2 "Number of dimensions" in
    let args := clap_setBool args "-vtk" false "Write output to VTK file" in
    msg <- parse_text args (tl argv) ;;
    ' (success, args) <- clap_parse atof args argv ;;
    let help := clap_getBool args "-h" in
    if success && negb help then
      result <- lap_body ar dsin m_pi sz (clap_getInt args "-numCells") (clap_getInt args "-numDims") 10 (clap_getBool args "-vtk") ;;
      let nd := Z.to_nat (u64 (clap_getInt args "-numDims")) in
      let globalDims := repeat (u64 (clap_getInt args "-numCells")) nd in
      mapM (fun rk =>
        ' (_, out, err) <- ctor_text rk sz globalDims ;;
        match result with
        | None => Ok (mkRun (msg ++ out) (err ++ root rk ("Decomposition is invalid" ++ newline)) [] 0)
        | Some r =>
            ' (warning, files) <- save_text rk "laplacian.vtk" globalDims (repeat (a_dec ar 0 1) nd) (repeat (a_dec ar 10 1) nd) (lr_vtk r) ;;
            Ok (mkRun (msg ++ out ++ root rk (announce "laplacian.vtk" (lr_vtk r) ++ "Laplace" ++ times_text sz ++
                         "Check sums: input = " ++ show (reduce 0 (lr_in r)) ++ " output = " ++ show (reduce 1 (lr_out r)) ++ newline))
                      (err ++ warning) files 0)
        end) (map Z.of_nat (seq 0 (Z.to_nat sz)))
    else refuse sz msg success args.

  (** ** testStencil2d.cxx *)

  (** main, testStencil2d.cxx:41-117 *)
  Definition st2_program (sz : Z) (argv : list string) : res (list run) :=
    let args := clap_setPurpose clap_new "Purpose: benchmark finite difference operations." in
    let args := clap_setInt args "-numCells" 8 "Number of cells along each axis" in
    let args := clap_setBool args "-vtk" false "Write output to VTK file" in
    msg <- parse_text args (tl argv) ;;
    ' (success, args) <- clap_parse atof args argv ;;
    let help := clap_getBool args "-h" in
    if success && negb help then
      let globalDims := repeat (u64 (clap_getInt args "-numCells")) 2 in
      ' (lines, vtk) <- st2_body ar sz (clap_getInt args "-numCells") (clap_getBool args "-vtk") ;;
      mapM (fun rk =>
        ' (valid, out, err) <- ctor_text rk sz globalDims ;;
        ls <- vget lines rk ;;
        ' (warning, files) <- save_text rk "stencil2d.vtk" globalDims (repeat (a_dec ar 0 1) 2) (repeat (a_dec ar 10 1) 2) vtk ;;
        Ok (mkRun (msg ++ out ++ root rk (announce "stencil2d.vtk" vtk))
                  (err ++ (if valid : bool then "" else root rk ("Decomposition is invalid" ++ newline)) ++ outData_text rk ls ++ warning) files 0))
        (map Z.of_nat (seq 0 (Z.to_nat sz)))
    else refuse sz msg success args.
End MpiText.
