(** * Model of the remaining C++ programs: the command line of laplacian/cxx/testStencil2d.cxx,
    laplacian/cxx/testCubeDecomp.cxx, laplacian/cxx/testMultiArrayIter.cxx

    Text is reduced to the numbers printed.  testStencil2d describes all the ranks at once, as in LapModel.v. *)
From Verif Require Import Cpp MaiModel CdModel CmdModel FilterModel LapModel.
Local Open Scope Z_scope.

Section St2.
  Context {D : Type} (ar : arith D).

  (** main, testStencil2d.cxx:41-118; None: help printed or parse error *)
  Definition st2_main (atof : string -> D) (sz : Z) (argv : list string) :
    res (option (list (list (list Z * D)) * option (list D))) :=
    let args := clap_setPurpose clap_new "Purpose: benchmark finite difference operations." in
    let args := clap_setInt args "-numCells" 8 "Number of cells along each axis" in
    let args := clap_setBool args "-vtk" false "Write output to VTK file" in
    ' (success, args) <- clap_parse atof args argv ;;
    let help := clap_getBool args "-h" in
    if success && negb help then
      r <- st2_body ar sz (clap_getInt args "-numCells") (clap_getBool args "-vtk") ;; Ok (Some r)
    else (_ <- clap_help args ;; Ok None).
End St2.

(** ** testCubeDecomp.cxx *)

(** The lines printed for a rank: lo, hi, and the directions with the neighbour. *)
Record cdt_rank : Type := mkCdt { cdt_lo : list Z; cdt_hi : list Z; cdt_nb : list (list Z * Z) }.

(** Loops over the axes and the two directions, testCubeDecomp.cxx:38-51; pm is -1, then 1 *)
Definition cdt_neighbours (rk ndims : Z) (c : cube) : res (list (list Z * Z) * cube) :=
  let dir := repeat 0 (Z.to_nat ndims) in
  ' (_, lines, c) <- for_upto ndims (fun dim '(dir, lines, c) =>
    for_each [-1; 1] (fun pm '(dir, lines, c) =>
      dir <- vset dir dim pm ;;
      ' (nb, c) <- cd_getNeighborRank c rk dir ;;
      let lines := lines ++ [(dir, nb)] in
      dir <- vset dir dim 0 ;;
      Ok (dir, lines, c)) (dir, lines, c)) (dir, [], c) ;;
  Ok (lines, c).

(** test, testCubeDecomp.cxx:14-53: the decomposition and the lines of every rank *)
Definition cdt_test (sz : Z) (dims : list Z) : res (list Z * list cdt_rank) :=
  c <- cd_new sz dims ;;
  let decomp := cd_getDecomp c in
  ' (_, ranks) <- for_upto sz (fun rk '(c, ranks) =>
    ' (lo, c) <- cd_getBegIndices c rk ;;
    ' (hi, c) <- cd_getEndIndices c rk ;;
    ' (nbs, c) <- cdt_neighbours rk (vlen dims) c ;;
    Ok (c, ranks ++ [mkCdt lo hi nbs])) (c, []) ;;
  Ok (decomp, ranks).

(** main, testCubeDecomp.cxx:55-78 *)
Definition cdt_main : res (list (list Z * list cdt_rank)) :=
  mapM (fun p => cdt_test (fst p) (snd p)) [(2, [10]); (6, [3; 2]); (6, [2; 3; 4])].

(** ** testMultiArrayIter.cxx *)

(** test, testMultiArrayIter.cxx:14-31, for any box: the lines printed *)
Definition mat_test (lo hi : list Z) (rowMajor : bool) : res (list (Z * list Z)) :=
  it <- mai_build lo hi rowMajor ;;
  ' (_, lines) <- for_upto (mai_getNumberOfTerms it) (fun i '(it, lines) =>
    inds <- mai_getIndices it ;;
    Ok (mai_next it, lines ++ [(i, inds)])) (it, []) ;;
  Ok lines.

(** main, testMultiArrayIter.cxx:33-38 *)
Definition mat_main : res (list (Z * list Z) * list (Z * list Z)) :=
  r <- mat_test [1; 2; 3] [4; 7; 8] true ;;
  c <- mat_test [1; 2; 3] [4; 7; 8] false ;;
  Ok (r, c).
