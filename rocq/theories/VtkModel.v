(** * Model of writeVTK (cxx/writeVTK.cpp)

    The text of the file is reduced to the numbers it contains. *)
From Verif Require Import Cpp MaiModel.
Local Open Scope Z_scope.

Section Vtk.
  Context {D : Type} (ar : arith D).

  (** DIMENSIONS, POINTS count and coordinates, CELL_DATA count and values. *)
  Record vtk_file : Type := mkVtk {
    vf_dims : list Z;
    vf_npoints : Z;
    vf_points : list (list D);
    vf_ncells : Z;
    vf_values : list D
  }.

  (** The settings for axis j, writeVTK.cpp:36-59: cells, nodes, xLo, xHi, nodeDims, cellDims.  The three blocks
      of the program only differ in j. *)
  Definition vtk_setAxis (globalDims : list Z) (xmins xmaxs : list D) (j : Z) (s : list D * list D * list Z * list Z) :
    res (Z * Z * (list D * list D * list Z * list Z)) :=
    let '(xLo, xHi, nodeDims, cellDims) := s in
    if j <? vlen globalDims then
      nx <- vget globalDims j ;;
      let nx1 := u64 (nx + 1) in
      a <- vget xmins j ;;
      xLo <- vset xLo j a ;;
      b <- vget xmaxs j ;;
      xHi <- vset xHi j b ;;
      nodeDims <- vset nodeDims j nx1 ;;
      cellDims <- vset cellDims j nx ;;
      Ok (nx, nx1, (xLo, xHi, nodeDims, cellDims))
    else Ok (1, 2, s).

  (** One coordinate, writeVTK.cpp:76-78 *)
  Definition vtk_coord (xLo xHi : list D) (cellDims inds : list Z) (j : Z) : res D :=
    a <- vget xLo j ;;
    b <- vget xHi j ;;
    i <- vget inds j ;;
    c <- vget cellDims j ;;
    Ok (a_add ar a (a_div ar (a_mul ar (a_sub ar b a) (a_ofZ ar i)) (a_ofZ ar c))).

  (** writeVTK, writeVTK.cpp:12-95; None: more than three axes, nothing written *)
  Definition writeVTK (globalDims : list Z) (xmins xmaxs field : list D) : res (option vtk_file) :=
    if 3 <? vlen globalDims then Ok None else
    let zeros := [0; 0; 0] in
    let s := (repeat (a_dec ar 0 1) 3, repeat (a_dec ar 10 1) 3, [2; 2; 2], [1; 1; 1]) in
    ' (nx, nx1, s) <- vtk_setAxis globalDims xmins xmaxs 0 s ;;
    ' (ny, ny1, s) <- vtk_setAxis globalDims xmins xmaxs 1 s ;;
    ' (nz, nz1, s) <- vtk_setAxis globalDims xmins xmaxs 2 s ;;
    let '(xLo, xHi, nodeDims, cellDims) := s in
    let numPoints := u64 (u64 (nx1 * ny1) * nz1) in
    let numCells := u64 (u64 (nx * ny) * nz) in
    pit <- mai_build zeros nodeDims false ;;
    ' (_, points) <- for_upto (mai_getNumberOfTerms pit) (fun _ '(pit, points) =>
        inds <- mai_getIndices pit ;;
        x <- vtk_coord xLo xHi cellDims inds 0 ;;
        y <- vtk_coord xLo xHi cellDims inds 1 ;;
        z <- vtk_coord xLo xHi cellDims inds 2 ;;
        Ok (mai_next pit, points ++ [[x; y; z]])) (pit, []) ;;
    fit <- mai_build zeros cellDims false ;;
    ' (_, values) <- for_upto (mai_getNumberOfTerms fit) (fun i '(fit, values) =>
        v <- vget field i ;; Ok (mai_next fit, values ++ [v])) (fit, []) ;;
    Ok (Some (mkVtk [nx1; ny1; nz1] numPoints points numCells values)).
End Vtk.
Arguments vtk_file : clear implicits.
