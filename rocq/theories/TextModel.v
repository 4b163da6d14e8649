(** * The text written by the serial programs: standard output, standard error, files, exit status

    upwind/cxx/upwind.cxx (upwindOMPTasks.cxx has the same main), upwindAcc.cxx, upwindAcc2.cxx, upwindOMP5.cxx,
    laplacian/cxx/testCubeDecomp.cxx, laplacian/cxx/testMultiArrayIter.cxx, with help() and parse() of
    cxx/CmdLineArgParser.h and saveVTK of upwind/cxx/saveVTK.h.  The values come from UpModel.v, AccModel.v and DrvModel.v.
    Streams and files never fail; std::endl is a newline.  [show] is operator<< for doubles (NumModel.v). *)
From Verif Require Import Cpp CmdModel VtkModel UpModel AccModel DrvModel NumModel.
From Coq Require Import List.
Import ListNotations.
Local Open Scope string_scope.
Local Open Scope Z_scope.

(** What a finished process leaves behind. *)
Record run : Type := mkRun {
  r_out : string;
  r_err : string;
  r_files : list (string * string);
  r_exit : Z
}.

Definition tab : string := String (ascii_of_N 9) EmptyString.

Fixpoint texts (l : list string) : string :=
  match l with
  | [] => ""
  | s :: t => s ++ texts t
  end.

Section Text.
  Context {D : Type} (ar : arith D) (show : D -> string).

  (** ** CmdLineArgParser.h *)

  (** The line printed by parse() for the first unknown option, CmdLineArgParser.h:80-96 *)
  Fixpoint parse_text (p : clap D) (args : list string) : res string :=
    match args with
    | [] => Ok ""
    | arg :: t =>
        isOptionName <- clap_isOptionName arg ;;
        if isOptionName && negb (clap_isValidOptName p arg) then Ok (arg ++ " is not a valid option." ++ newline)
        else parse_text p t
    end.

  (** One option of help(), CmdLineArgParser.h:186-213 *)
  Definition help_line_text (l : help_line D) : string :=
    match l with
    | HDouble name h v => tab ++ name ++ " <double#> " ++ h ++ " (" ++ show v ++ ")" ++ newline
    | HInt name h v => tab ++ name ++ " <int#> " ++ h ++ " (" ++ show_int v ++ ")" ++ newline
    | HString name h v => tab ++ name ++ " <string> " ++ h ++ " (" ++ v ++ ")" ++ newline
    | HBool name h v => tab ++ name ++ " " ++ h ++ " (" ++ show_bool v ++ ")" ++ newline
    end.

  (** help(), CmdLineArgParser.h:182-215 *)
  Definition help_text (p : clap D) : res string :=
    ' (purpose, execName, lines, footer) <- clap_help p ;;
    Ok (purpose ++ newline ++ execName ++ " [options]" ++ newline ++ "Usage:" ++ newline ++
        texts (map help_line_text lines) ++ footer ++ newline).

  (** ** saveVTK.h *)

  (** Coordinates along one axis, saveVTK.h:27-36, 38-47, 49-52; an absent axis has the literal "0.0" *)
  Definition coords_text (present : bool) (c : Z * list D) : string :=
    if present then show_int (fst c) ++ " double" ++ newline ++ texts (map (fun x => " " ++ show x) (snd c))
    else "1 double" ++ newline ++ "0.0" ++ newline.

  (** The values, ten per line, saveVTK.h:56-59; [i] is the index of the first one *)
  Fixpoint values_text (i : Z) (l : list D) : string :=
    match l with
    | [] => ""
    | x :: t => show x ++ " " ++ (if (i + 1) mod 10 =? 0 then newline else "") ++ values_text (i + 1) t
    end.

  (** saveVTK, saveVTK.h:1-60, from the numbers collected by [up_saveVTK] and [acc_saveVTK] *)
  Definition rect_text (NDIMS : Z) (r : rectilinear D) : string :=
    let axis j := nth j (rg_coords r) (0, []) in
    "# vtk DataFile Version 2.0" ++ newline ++
    "upwind.cxx" ++ newline ++
    "ASCII" ++ newline ++
    "DATASET RECTILINEAR_GRID" ++ newline ++
    "DIMENSIONS" ++ texts (map (fun d => " " ++ show_int d) (rg_dims r)) ++ newline ++
    "X_COORDINATES " ++ coords_text (2 <? NDIMS) (axis 0%nat) ++ newline ++
    "Y_COORDINATES " ++ coords_text (1 <? NDIMS) (axis 1%nat) ++ newline ++
    "Z_COORDINATES " ++ coords_text true (axis 2%nat) ++ newline ++
    "CELL_DATA " ++ show_int (rg_count r) ++ newline ++
    "SCALARS f double 1" ++ newline ++
    "LOOKUP_TABLE default" ++ newline ++
    values_text 0 (rg_values r) ++ newline.

  (** ** writeVTK.cpp *)

  (** One vertex, writeVTK.cpp:76-79 *)
  Definition point_text (p : list D) : string :=
    match p with
    | [x; y; z] => show x ++ " " ++ show y ++ " " ++ show z ++ newline
    | _ => ""
    end.

  (** writeVTK.cpp:62-91, from the numbers collected by [writeVTK] *)
  Definition grid_text (name : string) (f : vtk_file D) : string :=
    let dim j := show_int (nth j (vf_dims f) 0) in
    "# vtk DataFile Version 2.0" ++ newline ++
    "produced by laplacian" ++ newline ++
    "ASCII" ++ newline ++
    "DATASET STRUCTURED_GRID" ++ newline ++
    "DIMENSIONS " ++ dim 0%nat ++ " " ++ dim 1%nat ++ " " ++ dim 2%nat ++ newline ++
    "POINTS " ++ show_int (vf_npoints f) ++ " float" ++ newline ++
    texts (map point_text (vf_points f)) ++
    "CELL_DATA " ++ show_int (vf_ncells f) ++ newline ++
    "SCALARS " ++ name ++ " float" ++ newline ++
    "LOOKUP_TABLE default" ++ newline ++
    texts (map (fun x => show x ++ newline) (vf_values f)).

  (** writeVTK as a whole: standard error, files *)
  Definition writeVTK_text (filename : string) (globalDims : list Z) (xmins xmaxs field : list D) (name : string) :
    res (string * list (string * string)) :=
    r <- writeVTK ar globalDims xmins xmaxs field ;;
    Ok (match r with
        | None => ("WARNING: writeVTK does not support more than 3 dimensions" ++ newline, [])
        | Some f => ("", [(filename, grid_text name f)])
        end).

  (** print(), upwind.cxx:105-109, upwindAcc.cxx:98-102 (not called by the programs) *)
  Fixpoint print_text (i : Z) (f : list D) : string :=
    match f with
    | [] => ""
    | x :: t => show_int i ++ " " ++ show x ++ newline ++ print_text (i + 1) t
    end.

  (** ** upwind.cxx *)

  (** The report of thread 0, upwind.cxx:159-171: None when compiled without OpenMP, otherwise the number of
      threads and the maximum number *)
  Definition omp_text (omp : option (Z * Z)) : string :=
    match omp with
    | None => ""
    | Some (numThreads, maxNumThreads) =>
        "Running with OpenMP enabled" ++ newline ++
        "number of threads: " ++ show_int numThreads ++ " max number of threads: " ++ show_int maxNumThreads ++ newline
    end.

  (** upwind.cxx:175-180, upwindAcc.cxx:144-149; [n] is an element of numCells *)
  Definition sizes_text (n numTimeSteps : Z) : string :=
    "number of cells: " ++ texts (repeat (" " ++ show_int n) 3) ++ newline ++
    "number of time steps: " ++ show_int numTimeSteps ++ newline.

  (** upwind.cxx:200-203, upwindAcc.cxx:168, upwindAcc2.cxx:187-190 *)
  Definition sums_text (sum : D) (std : option D) : string :=
    "check sum: " ++ show sum ++ newline ++
    match std with
    | Some s => "std      : " ++ show s ++ newline
    | None => ""
    end.

  Definition file_text (name : string) (NDIMS : Z) (vtk : option (rectilinear D)) : list (string * string) :=
    match vtk with
    | Some r => [(name, rect_text NDIMS r)]
    | None => []
    end.

  (** main, upwind.cxx:139-217 *)
  Definition up_program (omp : option (Z * Z)) (dsqrt : D -> D) (atof : string -> D) (argv : list string) : res run :=
    let args := clap_setPurpose clap_new "Purpose: benchmark finite difference operations." in
    let args := clap_setInt args "-numCells" 128 "Number of cells along each axis" in
    let args := clap_setInt args "-numSteps" 10 "Number of time steps" in
    let args := clap_setBool args "-vtk" false "Write output to VTK file" in
    let args := clap_setBool args "-std" false "Print out spread of solution" in
    msg <- parse_text args (tl argv) ;;
    ' (success, args) <- clap_parse atof args argv ;;
    let help := clap_getBool args "-h" in
    if success && negb help then
      let numTimeSteps := clap_getInt args "-numSteps" in
      let n := clap_getInt args "-numCells" in
      r <- up_body ar dsqrt n numTimeSteps (clap_getBool args "-vtk") (clap_getBool args "-std") ;;
      Ok (mkRun (msg ++ omp_text omp ++ sizes_text (u64 n) numTimeSteps ++ sums_text (ur_sum r) (ur_std r)) ""
                (file_text "up0.vtk" 3 (ur_vtk0 r) ++ file_text "up1.vtk" 3 (ur_vtk1 r)) 0)
    else
      h <- help_text args ;;
      Ok (mkRun (msg ++ h) (if success then "" else "ERROR when parsing command line arguments" ++ newline) [] 0).

  (** main, upwindAcc.cxx:117-172, upwindAcc2.cxx:137-195, upwindOMP5.cxx:136-195 *)
  Definition acc_program (ver : acc_version) (dsqrt : D -> D) (atof : string -> D) (argv : list string) : res run :=
    let args := clap_setPurpose clap_new "Purpose: benchmark finite difference operations." in
    let args := clap_setInt args "-numCells" 128 "Number of cells along each axis" in
    let args := clap_setInt args "-numSteps" 10 "Number of time steps" in
    let args := clap_setBool args "-vtk" false "Write output to VTK file" in
    let args := match ver with Acc1 => args | _ => clap_setBool args "-std" false "Print out spread of solution" end in
    msg <- parse_text args (tl argv) ;;
    ' (success, args) <- clap_parse atof args argv ;;
    let help := clap_getBool args "-h" in
    if negb success then
      h <- help_text args ;;
      Ok (mkRun (msg ++ h) ("ERROR: wrong command line arguments" ++ newline) [] 1)
    else if help then
      h <- help_text args ;;
      Ok (mkRun (msg ++ h) "" [] 0)
    else
      let numTimeSteps := clap_getInt args "-numSteps" in
      let n := clap_getInt args "-numCells" in
      ' (_, sum, std, vtk) <- acc_body ar ver dsqrt n numTimeSteps
             (clap_getBool args "-vtk") (match ver with Acc1 => false | _ => clap_getBool args "-std" end) ;;
      Ok (mkRun (msg ++ sizes_text n numTimeSteps ++ sums_text sum std) "" (file_text "up.vtk" 3 vtk) 0).
End Text.

(** ** testCubeDecomp.cxx *)

Definition ints_text (l : list Z) : string := texts (map (fun x => show_int x ++ " ") l).

(** The lines of one rank, testCubeDecomp.cxx:25-51 *)
Definition cdt_rank_text (rk : Z) (r : cdt_rank) : string :=
  tab ++ "rank: " ++ show_int rk ++ newline ++
  tab ++ "lo = " ++ ints_text (cdt_lo r) ++ newline ++
  tab ++ "hi = " ++ ints_text (cdt_hi r) ++ newline ++
  texts (map (fun dn => tab ++ tab ++ "neighbor in direction " ++ ints_text (fst dn) ++ " is " ++ show_int (snd dn) ++ newline) (cdt_nb r)).

Fixpoint cdt_ranks_text (rk : Z) (l : list cdt_rank) : string :=
  match l with
  | [] => ""
  | r :: t => cdt_rank_text rk r ++ cdt_ranks_text (rk + 1) t
  end.

(** test, testCubeDecomp.cxx:14-53 *)
Definition cdt_text (sz : Z) (dims : list Z) : res string :=
  ' (decomp, ranks) <- cdt_test sz dims ;;
  Ok (" [" ++ show_int sz ++ "] decomp: " ++ ints_text decomp ++ newline ++ cdt_ranks_text 0 ranks).

(** main, testCubeDecomp.cxx:55-78 *)
Definition cdt_program : res run :=
  a <- cdt_text 2 [10] ;;
  b <- cdt_text 6 [3; 2] ;;
  c <- cdt_text 6 [2; 3; 4] ;;
  Ok (mkRun (a ++ b ++ c) "" [] 0).

(** ** testMultiArrayIter.cxx *)

(** test, testMultiArrayIter.cxx:14-31 *)
Definition mat_text (lo hi : list Z) (rowMajor : bool) : res string :=
  lines <- mat_test lo hi rowMajor ;;
  Ok (texts (map (fun l => show_int (fst l) ++ ": " ++ texts (map (fun x => show_int x ++ ", ") (snd l)) ++ newline) lines)).

(** main, testMultiArrayIter.cxx:33-38 *)
Definition mat_program : res run :=
  r <- mat_text [1; 2; 3] [4; 7; 8] true ;;
  c <- mat_text [1; 2; 3] [4; 7; 8] false ;;
  Ok (mkRun ("row major test:" ++ newline ++ r ++ "column major test:" ++ newline ++ c) "" [] 0).
