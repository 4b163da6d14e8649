(** * Model of saveVTK of the Cython version of the upwind benchmark (upwind/cython/upwind5.pyx:102-145)

    The method is a cdef function: only code compiled with the module can call it, and upwind5.pyx itself never does.
    "print >> f, x" is the statement of Python 2: the items are written with a space between them and a newline at the end; after a
    trailing comma there is no newline and the next statement writes a space first, unless the last character written was
    white space other than a space. The text of the file is the result; opening, closing and failing writes are left out.
    [showf] is "%f" of a double, [show] is str() of numpy.float64. *)
From Coq Require Import ZArith List String Bool.
From Verif Require Import Cpp CmdModel NumModel TextModel UpModel PyModel CyModel.
Import ListNotations.
Local Open Scope string_scope.
Local Open Scope Z_scope.

Section CyFile.
  Context {D : Type} (ar : arith D) (showf show : D -> string).

  (** A statement that ends its line. *)
  Definition cy_line (s : string) : string := s ++ newline.

  (** The first line, upwind5.pyx:104 *)
  Definition cy_version : string := "# vtk Data Version 2.0".

  (** The points along axis j in the line of the dimensions, upwind5.pyx:111-118; an axis the grid lacks has one *)
  Definition cy_points (p : cy D) (j : Z) : res string :=
    if j <? cy_ndims p then n <- vget (cy_numCells p) j ;; Ok (" " ++ show_int (n + 1)) else Ok " 1".

  (** The coordinates along axis j, upwind5.pyx:122-124, 130-132, 137-139: the number and the type are two items *)
  Definition cy_axis_lines (p : cy D) (j : Z) : res string :=
    n <- vget (cy_numCells p) j ;;
    l <- tabulate (n + 1) (fun i => d <- vget (cy_deltas p) j ;; Ok (cy_line (" " ++ showf (a_add ar (a_dec ar 0 1) (a_mul ar d (a_ofZ ar i)))))) ;;
    Ok (cy_line (show_int (n + 1) ++ " " ++ " double") ++ texts l).

  (** The same for an axis that may be missing, upwind5.pyx:121-127, 129-135 *)
  Definition cy_maybe_lines (p : cy D) (j : Z) : res string :=
    if j <? cy_ndims p then cy_axis_lines p j else Ok (cy_line "1 double" ++ cy_line "0.0").

  (** Everything after the first line, upwind5.pyx:105-144 *)
  Definition cy_body (p : cy D) : res string :=
    d2 <- cy_points p 2 ;;
    d1 <- cy_points p 1 ;;
    n0 <- vget (cy_numCells p) 0 ;;
    x <- cy_maybe_lines p 2 ;;
    y <- cy_maybe_lines p 1 ;;
    z <- cy_axis_lines p 0 ;;
    values <- tabulate (cy_ntot p) (fun i => a <- vget (cy_f p) i ;; Ok (cy_line (show a))) ;;
    Ok (cy_line "upwind.cxx" ++ cy_line "ASCII" ++ cy_line "DATASET RECTILINEAR_GRID" ++ cy_line "DIMENSIONS" ++
        d2 ++ (" " ++ d1) ++ (" " ++ cy_line (" " ++ show_int (n0 + 1) ++ newline)) ++
        cy_line "X_COORDINATES " ++ x ++ cy_line "Y_COORDINATES " ++ y ++ cy_line "Z_COORDINATES " ++ z ++
        cy_line ("CELL_DATA " ++ show_int (cy_ntot p)) ++ cy_line "SCALARS f double 1" ++ cy_line "LOOKUP_TABLE default" ++ texts values).

  (** saveVTK, upwind5.pyx:102-145 *)
  Definition cy_saveVTK (p : cy D) : res string :=
    b <- cy_body p ;; Ok (cy_line cy_version ++ b).
End CyFile.
