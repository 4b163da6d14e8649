(** * Model of the Python version: upwind/python/upwind.py and upwind/python/saveVTK.py

    A Python integer is any integer; an element of a numpy array of type int32 is stored modulo 2^32; numpy integer
    division and remainder round down and give zero for a zero divisor.  [Undef] stands for an exception.  velocity and
    lengths are numpy arrays of float64, numCells is a list of Python integers.  Memory never runs out.
    [show] is str() of a float64, [read] is int() of a string (None: ValueError), [psum] is numpy.sum. *)
From Coq Require Import List ZArith Bool String.
From Verif Require Import Cpp CmdModel NumModel TextModel.
From Coq Require Import List.
Import ListNotations.
Local Open Scope Z_scope.

(** numpy floor_divide and remainder of int32 *)
Definition np_div (a b : Z) : Z := if b =? 0 then 0 else i32 (a / b).
Definition np_mod (a b : Z) : Z := if b =? 0 then 0 else a mod b.
(** A Python integer met by an int32: an exception unless it fits. *)
Definition np_int (n : Z) : res Z := if int_range n then Ok n else Undef NumRange.
(** a[i]: a negative index counts from the end *)
Definition np_at {A} (l : list A) (i : Z) : res A := vget l (if i <? 0 then i + vlen l else i).

Section Py.
  Context {D : Type} (ar : arith D) (show : D -> string).

  (** class Upwind, upwind.py:8-44, without the attributes that are not used: offsetMat, numCellsExt *)
  Record py : Type := mkPy {
    py_numCells : list Z;
    py_ndims : Z;
    py_deltas : list D;
    py_upDirection : list Z;
    py_v : list D;
    py_lengths : list D;
    py_ntot : Z;
    py_dimProd : list Z;
    py_coeff : list D;
    py_f : list D;
    py_inds : list (list Z)
  }.

  Definition py_setF (p : py) (f : list D) : py :=
    mkPy (py_numCells p) (py_ndims p) (py_deltas p) (py_upDirection p) (py_v p) (py_lengths p) (py_ntot p) (py_dimProd p) (py_coeff p) f (py_inds p).

  (** The loop over the axes, upwind.py:20-25 *)
  Definition py_axes (ndims : Z) (velocity lengths : list D) (numCells : list Z) : res (list Z * list D * Z) :=
    for_upto ndims (fun j '(upDirection, deltas, ntot) =>
      upDirection <- vset upDirection j (-1) ;;
      vj <- vget velocity j ;;
      upDirection <- (if a_lt ar vj (a_dec ar 0 1) then vset upDirection j 1 else Ok upDirection) ;;
      lj <- vget lengths j ;;
      nj <- vget numCells j ;;
      deltas <- vset deltas j (a_div ar lj (a_ofZ ar nj)) ;;
      Ok (upDirection, deltas, ntot * nj))
    (repeat 0 (Z.to_nat ndims), repeat (a_ofZ ar 0) (Z.to_nat ndims), 1).

  (** upwind.py:27-30: for i in range(ndims - 2, -1, -1) *)
  Definition py_strides (ndims : Z) (numCells : list Z) : res (list Z) :=
    for_upto (ndims - 1) (fun k dimProd =>
      let i := ndims - 2 - k in
      p <- vget dimProd (i + 1) ;; n <- vget numCells (i + 1) ;; n <- np_int n ;; vset dimProd i (i32 (p * n)))
    (repeat 1 (Z.to_nat ndims)).

  (** upwind.py:32, element by element *)
  Definition py_coeffs (ndims : Z) (velocity : list D) (upDirection : list Z) (deltas : list D) : res (list D) :=
    tabulate ndims (fun j =>
      v <- vget velocity j ;; u <- vget upDirection j ;; d <- vget deltas j ;; Ok (a_div ar (a_mul ar v (a_ofZ ar u)) d)).

  (** Row j of the index sets, upwind.py:41-44; numpy.arange gives int64, stored as int32 *)
  Definition py_row (ntot dp n : Z) : list Z :=
    map (fun i => np_mod (np_div (i32 (Z.of_nat i)) dp) n) (seq 0 (Z.to_nat ntot)).
  Definition py_rows (ndims ntot : Z) (dimProd numCells : list Z) : res (list (list Z)) :=
    tabulate ndims (fun j => dp <- vget dimProd j ;; n <- vget numCells j ;; n <- np_int n ;; Ok (py_row ntot dp n)).

  (** upwind.py:10-44 *)
  Definition py_new (velocity lengths : list D) (numCells : list Z) : res py :=
    let ndims := vlen velocity in
    ' (upDirection, deltas, ntot) <- py_axes ndims velocity lengths numCells ;;
    dimProd <- py_strides ndims numCells ;;
    coeff <- py_coeffs ndims velocity upDirection deltas ;;
    if ntot <? 0 then Undef BadAlloc else
    f <- vset (repeat (a_ofZ ar 0) (Z.to_nat ntot)) 0 (a_ofZ ar 1) ;;
    inds <- py_rows ndims ntot dimProd numCells ;;
    Ok (mkPy numCells ndims deltas upDirection velocity lengths ntot dimProd coeff f inds).

  (** numpy.dot(self.dimProd, indsUp), upwind.py:61: one sum of products of int32 per cell *)
  Definition py_flat (p : py) (inds : list (list Z)) : res (list Z) :=
    tabulate (py_ntot p) (fun k =>
      for_upto (py_ndims p) (fun j acc =>
        d <- vget (py_dimProd p) j ;; row <- vget inds j ;; x <- vget row k ;; Ok (i32 (acc + i32 (d * x)))) 0).

  (** One axis of advect, upwind.py:56-67 *)
  Definition py_axis (p : py) (deltaTime : D) (oldF : list D) (j : Z) (st : list (list Z) * list D) : res (list (list Z) * list D) :=
    let '(indsUp, f) := st in
    row <- vget indsUp j ;;
    u <- vget (py_upDirection p) j ;;
    n <- vget (py_numCells p) j ;;
    n <- np_int n ;;
    indsUp <- vset indsUp j (map (fun x => np_mod (i32 (x + u)) n) row) ;;
    flatIndsUp <- py_flat p indsUp ;;
    c <- vget (py_coeff p) j ;;
    let c := a_mul ar deltaTime c in
    f <- tabulate (vlen f) (fun k =>
      fk <- vget f k ;; i <- vget flatIndsUp k ;; a <- np_at oldF i ;; b <- vget oldF k ;;
      Ok (a_sub ar fk (a_mul ar c (a_sub ar a b)))) ;;
    row <- vget (py_inds p) j ;;
    indsUp <- vset indsUp j row ;;
    Ok (indsUp, f).

  (** advect, upwind.py:46-67 *)
  Definition py_advect (p : py) (deltaTime : D) : res py :=
    let oldF := py_f p in
    ' (_, f) <- for_upto (py_ndims p) (py_axis p deltaTime oldF) (py_inds p, py_f p) ;;
    Ok (py_setF p f).

  (** upwind.py:120-121 *)
  Definition py_run (p : py) (numTimeSteps : Z) (deltaTime : D) : res py :=
    for_upto numTimeSteps (fun _ p => py_advect p deltaTime) p.

  (** [0.0 + self.deltas[j] * i for i in range(self.numCells[j] + 1)], upwind.py:74, 76, 78 *)
  Definition py_coords (p : py) (j : Z) : res (list D) :=
    d <- vget (py_deltas p) j ;;
    n <- vget (py_numCells p) j ;;
    tabulate (n + 1) (fun i => Ok (a_add ar (a_dec ar 0 1) (a_mul ar d (a_ofZ ar i)))).

  Local Open Scope string_scope.
  Local Open Scope Z_scope.

  (** The coordinates written along axis j, saveVTK.py:33-39, 40-46, 47-50; axis[i] for i in range(numCells[j] + 1) *)
  Definition py_coords_text (numCells : list Z) (j : Z) (axis : list D) : res string :=
    n <- vget numCells j ;;
    l <- tabulate (n + 1) (fun i => x <- vget axis i ;; Ok (" " ++ show x)) ;;
    Ok (show_int (n + 1) ++ " double" ++ texts l).

  (** The values, saveVTK.py:59-62; [i] is the index of the first one *)
  Fixpoint py_values_text (i : Z) (l : list D) : string :=
    match l with
    | [] => ""
    | x :: t => show x ++ (if (i + 1) mod 10 =? 0 then newline else "") ++ py_values_text (i + 1) t
    end.

  (** saveVTK.rectilinear, saveVTK.py:3-62; [numCells] is data.shape, [data] is data.flat *)
  Definition py_rectilinear (xAxis yAxis zAxis : list D) (numCells : list Z) (data : list D) : res string :=
    let ndims := vlen numCells in
    d2 <- (if 2 <? ndims then n <- vget numCells 2 ;; Ok (" " ++ show_int (n + 1)) else Ok " 1") ;;
    d1 <- (if 1 <? ndims then n <- vget numCells 1 ;; Ok (" " ++ show_int (n + 1)) else Ok " 1") ;;
    n0 <- vget numCells 0 ;;
    x <- (if 2 <? ndims then py_coords_text numCells 2 xAxis else Ok "1 double 0.0") ;;
    y <- (if 1 <? ndims then py_coords_text numCells 1 yAxis else Ok "1 double 0.0") ;;
    z <- py_coords_text numCells 0 zAxis ;;
    Ok ("# vtk DataFile Version 2.0" ++ newline ++ "upwind" ++ newline ++ "ASCII" ++ newline ++ "DATASET RECTILINEAR_GRID" ++ newline ++
        "DIMENSIONS" ++ d2 ++ d1 ++ " " ++ show_int (n0 + 1) ++ newline ++ "X_COORDINATES " ++ x ++ newline ++ "Y_COORDINATES " ++ y ++
        newline ++ "Z_COORDINATES " ++ z ++ newline ++ "CELL_DATA " ++ show_int (vlen data) ++ newline ++ "SCALARS f double 1" ++ newline ++
        "LOOKUP_TABLE default" ++ newline ++ py_values_text 0 data).

  (** Upwind.saveVTK, upwind.py:69-79; reshape needs as many elements as the shape has *)
  Definition py_saveVTK (p : py) : res string :=
    x <- (if 2 <? py_ndims p then py_coords p 2 else Ok [a_dec ar 0 1]) ;;
    y <- (if 1 <? py_ndims p then py_coords p 1 else Ok [a_dec ar 0 1]) ;;
    z <- (if 0 <? py_ndims p then py_coords p 0 else Ok [a_dec ar 0 1]) ;;
    if fold_right Z.mul 1 (py_numCells p) =? vlen (py_f p) then py_rectilinear x y z (py_numCells p) (py_f p) else Undef BadAlloc.

  (** The time step, upwind.py:113-117; None is float('inf'); min(a, b) is b if b < a, else a *)
  Definition py_dt (ndims : Z) (velocity lengths : list D) (numCells : list Z) : res (option D) :=
    for_upto ndims (fun j dt =>
      lj <- vget lengths j ;;
      nj <- vget numCells j ;;
      let dx := a_div ar lj (a_ofZ ar nj) in
      vj <- vget velocity j ;;
      let val := a_div ar (a_mul ar (a_dec ar 1 1) dx) vj in
      Ok (Some (match dt with Some d => if a_lt ar d val then d else val | None => val end))) None.

  (** str() of a list of integers *)
  Definition py_list_text (l : list Z) : string := "[" ++ String.concat ", " (map show_int l) ++ "]".

  (** The computation of main, upwind.py:96-97, 109-121 *)
  Definition py_body (n numTimeSteps : Z) : res py :=
    let ndims := 3 in
    let numCells := repeat n 3 in
    let velocity := repeat (a_ofZ ar 1) 3 in
    let lengths := repeat (a_ofZ ar 1) 3 in
    dt <- py_dt ndims velocity lengths numCells ;;
    dt <- (match dt with Some dt => Ok dt | None => Undef UninitRead end) ;;
    up <- py_new velocity lengths numCells ;;
    py_run up numTimeSteps dt.

  (** main, upwind.py:89-127; argv[0] is the name of the program *)
  Definition py_main (read : string -> option Z) (psum : list D -> D) (argv : list string) : res run :=
    match argv with
    | [] | [_] => Ok (mkRun ("must specify number of cells in each direction." ++ newline) "" [] 1)
    | _ :: a1 :: rest =>
        n <- (match read a1 with Some n => Ok n | None => Undef NumRange end) ;;
        numTimeSteps <- (match rest with a2 :: _ => match read a2 with Some k => Ok k | None => Undef NumRange end | [] => Ok 100 end) ;;
        let doVtk := match rest with _ :: a3 :: _ => (a3 =? "vtk")%string | _ => false end in
        up <- py_body n numTimeSteps ;;
        files <- (if doVtk then t <- py_saveVTK up ;; Ok [("up.vtk", t)] else Ok []) ;;
        Ok (mkRun ("number of cells:  " ++ py_list_text (repeat n 3) ++ newline ++ "number of time steps:  " ++ show_int numTimeSteps ++ newline ++
                   "check sum:  " ++ show (psum (py_f up)) ++ newline) "" files 0)
    end.
End Py.
Arguments py : clear implicits.
