(** * Model of the Julia versions: upwind/julia/upwind.jl, upwind3.jl and saveVTK.jl

    An Int has 64 bits and wraps around; div, mod and mod1 by zero and an index out of range are exceptions, written
    [Undef].  The array element a[i] is element i - 1 of the list ([fget], [fset] and [f_do] are those of FortModel.v).
    velocity and lengths are arrays of Float64, numCells is an array of Int.  Arrays of different lengths are not
    combined by a dotted operator (for an array of one element Julia would).  Memory never runs out.  [show] is the text println
    writes for a Float64, [read] is parse(Int, ...) (None: an exception), [psum] is sum(). *)
From Coq Require Import List ZArith Bool String.
From Verif Require Import Cpp CmdModel NumModel TextModel FortModel.
From Coq Require Import List.
Import ListNotations.
Local Open Scope Z_scope.

Definition i64 (z : Z) : Z := (z + 2 ^ 63) mod 2 ^ 64 - 2 ^ 63.
Definition jl_div (a b : Z) : res Z :=
  if b =? 0 then Undef DivZero else if (b =? -1) && (a =? - 2 ^ 63) then Undef DivZero else Ok (Z.quot a b).
Definition jl_mod (a b : Z) : res Z := if b =? 0 then Undef DivZero else Ok (a mod b).
(** mod1(x, y): m = mod(x, y); ifelse(m == 0, y, m) *)
Definition jl_mod1 (a b : Z) : res Z := m <- jl_mod a b ;; Ok (if m =? 0 then b else m).
(** An Int as Float64; only those that are represented exactly are modelled. *)
Definition jl_float (z : Z) : res Z := if Z.abs z <=? 2 ^ 53 then Ok z else Undef NumRange.

Section Jl.
  Context {D : Type} (ar : arith D) (show : D -> string).

  (** mutable struct Upwind, upwind.jl:11-38 *)
  Record jl : Type := mkJl {
    jl_ndims : Z;
    jl_velocity : list D;
    jl_lengths : list D;
    jl_numCells : list Z;
    jl_deltas : list D;
    jl_upDirection : list Z;
    jl_ntot : Z;
    jl_dimProd : list Z;
    jl_f : list D
  }.

  Definition jl_setF (o : jl) (f : list D) : jl :=
    mkJl (jl_ndims o) (jl_velocity o) (jl_lengths o) (jl_numCells o) (jl_deltas o) (jl_upDirection o) (jl_ntot o) (jl_dimProd o) f.

  (** The loop over the axes, upwind.jl:50-61 *)
  Definition jl_axes (ndims : Z) (velocity lengths : list D) (numCells : list Z) : res (list Z * list D * Z) :=
    f_do ndims (fun i '(upDirection, deltas, ntot) =>
      upDirection <- fset upDirection i (-1) ;;
      vi <- fget velocity i ;;
      upDirection <- (if a_lt ar vi (a_dec ar 0 1) then fset upDirection i 1 else Ok upDirection) ;;
      li <- fget lengths i ;;
      ni <- fget numCells i ;;
      deltas <- fset deltas i (a_div ar li (a_ofZ ar ni)) ;;
      Ok (upDirection, deltas, i64 (ntot * ni)))
    (repeat 0 (Z.to_nat ndims), repeat (a_ofZ ar 0) (Z.to_nat ndims), 1).

  (** upwind.jl:62-65: for i = 2:ndims *)
  Definition jl_strides (ndims : Z) (numCells : list Z) : res (list Z) :=
    for_upto (ndims - 1) (fun k dimProd =>
      let i := k + 2 in
      p <- fget dimProd (i - 1) ;; n <- fget numCells (i - 1) ;; fset dimProd i (i64 (p * n)))
    (repeat 1 (Z.to_nat ndims)).

  (** The constructor, upwind.jl:40-74, upwind3.jl:50-81 *)
  Definition jl_new (ndims : Z) (velocity lengths : list D) (numCells : list Z) : res jl :=
    if ndims <? 0 then Undef BadAlloc else
    ' (upDirection, deltas, ntot) <- jl_axes ndims velocity lengths numCells ;;
    dimProd <- jl_strides ndims numCells ;;
    if ntot <? 0 then Undef BadAlloc else
    f <- fset (repeat (a_ofZ ar 0) (Z.to_nat ntot)) 1 (a_dec ar 10 1) ;;
    Ok (mkJl ndims velocity lengths numCells deltas upDirection ntot dimProd f).

  (** dot(a, b) of two arrays of Int *)
  Definition jl_dot (a b : list Z) : res Z :=
    if vlen a =? vlen b then
      f_do (vlen a) (fun i acc => x <- fget a i ;; y <- fget b i ;; Ok (i64 (acc + i64 (x * y)))) 0
    else Undef OobRead.

  (** getFlatIndex, upwind.jl:99-107 *)
  Definition jl_getFlatIndex (o : jl) (inds : list Z) : res Z :=
    s <- jl_dot (jl_dimProd o) (map (fun x => i64 (x - 1)) inds) ;; Ok (i64 (s + 1)).

  (** getIndexSet, upwind.jl:109-121 *)
  Definition jl_getIndexSet (o : jl) (flatIndex : Z) : res (list Z) :=
    tabulate (jl_ndims o) (fun k =>
      let i := k + 1 in
      p <- fget (jl_dimProd o) i ;;
      q <- jl_div (i64 (flatIndex - 1)) p ;;
      n <- fget (jl_numCells o) i ;;
      r <- jl_mod q n ;;
      Ok (i64 (r + 1))).

  (** The body of the loop over the cells, upwind.jl:87-94: the index functions are given the global variable [up], not
      the argument [this]; inds is made anew for each cell, so that setting it back (line 94) has no effect. *)
  Definition jl_cell (up this : jl) (c : D) (oldF : list D) (j i : Z) (f : list D) : res (list D) :=
    inds <- jl_getIndexSet up i ;;
    x <- fget inds j ;;
    u <- fget (jl_upDirection this) j ;;
    inds <- fset inds j (i64 (x + u)) ;;
    x <- fget inds j ;;
    n <- fget (jl_numCells this) j ;;
    m <- jl_mod1 x n ;;
    inds <- fset inds j m ;;
    upI <- jl_getFlatIndex up inds ;;
    fi <- fget f i ;;
    a <- fget oldF upI ;;
    b <- fget oldF i ;;
    fset f i (a_sub ar fi (a_mul ar c (a_sub ar a b))).

  (** upwind.jl:84-96 *)
  Definition jl_axis (up this : jl) (deltaTime : D) (oldF : list D) (j : Z) (f : list D) : res (list D) :=
    v <- fget (jl_velocity this) j ;;
    u <- fget (jl_upDirection this) j ;;
    d <- fget (jl_deltas this) j ;;
    let c := a_div ar (a_mul ar (a_mul ar deltaTime v) (a_ofZ ar u)) d in
    f_do (jl_ntot this) (jl_cell up this c oldF j) f.

  (** advect!, upwind.jl:77-97, [up] being the global variable of that name *)
  Definition jl_advect (up this : jl) (deltaTime : D) : res jl :=
    let oldF := jl_f this in
    f <- f_do (jl_ndims this) (jl_axis up this deltaTime oldF) (jl_f this) ;;
    Ok (jl_setF this f).

  (** upwind.jl:176-178: the object is the global variable *)
  Definition jl_run (up : jl) (numTimeSteps : Z) (deltaTime : D) : res jl :=
    f_do numTimeSteps (fun _ up => jl_advect up up deltaTime) up.

  (** *** upwind3.jl *)

  (** upwind3.jl:12-48: the same attributes and the table of index sets, column after column; eins, all ones, is not kept *)
  Record jl3 : Type := mkJl3 { j3_obj : jl; j3_inds : list (list Z) }.
  Definition j3_setF (o : jl3) (f : list D) : jl3 := mkJl3 (jl_setF (j3_obj o) f) (j3_inds o).

  (** upwind3.jl:50-92 *)
  Definition j3_new (ndims : Z) (velocity lengths : list D) (numCells : list Z) : res jl3 :=
    o <- jl_new ndims velocity lengths numCells ;;
    inds <- tabulate ndims (fun k =>
      p <- fget (jl_dimProd o) (k + 1) ;;
      n <- fget numCells (k + 1) ;;
      tabulate (jl_ntot o) (fun i => q <- jl_div i p ;; jl_mod q n)) ;;
    Ok (mkJl3 o inds).

  (** c = deltaTime * this.velocity .* this.upDirection ./ this.deltas, upwind3.jl:105 *)
  Definition j3_coeffs (o : jl) (deltaTime : D) : res (list D) :=
    if (vlen (jl_velocity o) =? vlen (jl_upDirection o)) && (vlen (jl_upDirection o) =? vlen (jl_deltas o)) then
      tabulate (vlen (jl_velocity o)) (fun k =>
        v <- vget (jl_velocity o) k ;; u <- vget (jl_upDirection o) k ;; d <- vget (jl_deltas o) k ;;
        Ok (a_div ar (a_mul ar (a_mul ar deltaTime v) (a_ofZ ar u)) d))
    else Undef OobRead.

  (** *(indsUp, this.dimProd) .+ 1, upwind3.jl:112: row by row *)
  Definition j3_flat (o : jl) (inds : list (list Z)) : res (list Z) :=
    tabulate (jl_ntot o) (fun k => row <- mapM (fun column => vget column k) inds ;; s <- jl_dot row (jl_dimProd o) ;; Ok (i64 (s + 1))).

  (** One axis, upwind3.jl:107-120; this.inds[:, j] + this.upDirection[j]*this.eins has elements of type Float64, which mod
      keeps and the assignment converts back *)
  Definition j3_axis (o : jl3) (c oldF : list D) (j : Z) (st : list (list Z) * list D) : res (list (list Z) * list D) :=
    let '(indsUp, f) := st in
    let this := j3_obj o in
    column <- fget (j3_inds o) j ;;
    u <- fget (jl_upDirection this) j ;;
    n <- fget (jl_numCells this) j ;;
    n <- jl_float n ;;
    moved <- mapM (fun x => x <- jl_float x ;; y <- jl_float (x + u) ;; jl_mod y n) column ;;
    indsUp <- fset indsUp j moved ;;
    flatIndsUp <- j3_flat this indsUp ;;
    cj <- fget c j ;;
    f <- tabulate (vlen f) (fun k =>
      fk <- vget f k ;; i <- vget flatIndsUp k ;; a <- fget oldF i ;; b <- vget oldF k ;;
      Ok (a_sub ar fk (a_mul ar cj (a_sub ar a b)))) ;;
    column <- fget (j3_inds o) j ;;
    indsUp <- fset indsUp j column ;;
    Ok (indsUp, f).

  (** advect!, upwind3.jl:95-122 *)
  Definition j3_advect (o : jl3) (deltaTime : D) : res jl3 :=
    let oldF := jl_f (j3_obj o) in
    c <- j3_coeffs (j3_obj o) deltaTime ;;
    ' (_, f) <- f_do (jl_ndims (j3_obj o)) (j3_axis o c oldF) (j3_inds o, oldF) ;;
    Ok (j3_setF o f).

  (** upwind3.jl:163-165 *)
  Definition j3_run (o : jl3) (numTimeSteps : Z) (deltaTime : D) : res jl3 :=
    f_do numTimeSteps (fun _ o => j3_advect o deltaTime) o.

  (** *** The programs *)

  (** The time step, upwind.jl:165-170, upwind3.jl:155-160; None is Inf *)
  Definition jl_dt (ndims : Z) (velocity lengths : list D) (numCells : list Z) : res (option D) :=
    f_do ndims (fun i dt =>
      li <- fget lengths i ;;
      ni <- fget numCells i ;;
      let dx := a_div ar li (a_ofZ ar ni) in
      vi <- fget velocity i ;;
      let val := a_div ar (a_mul ar (a_dec ar 1 1) dx) vi in
      Ok (Some (match dt with Some d => if a_lt ar d val then d else val | None => val end))) None.

  (** upwind.jl:154, 160-178 *)
  Definition jl_body (ncells numTimeSteps : Z) : res jl :=
    let numCells := repeat ncells 3 in
    let velocity := repeat (a_ofZ ar 1) 3 in
    let lengths := repeat (a_ofZ ar 1) 3 in
    dt <- jl_dt 3 velocity lengths numCells ;;
    dt <- (match dt with Some dt => Ok dt | None => Undef UninitRead end) ;;
    up <- jl_new 3 velocity lengths numCells ;;
    jl_run up numTimeSteps dt.

  (** upwind3.jl:139-165 *)
  Definition j3_body (ncells numTimeSteps : Z) : res jl3 :=
    let numCells := repeat ncells 3 in
    let velocity := repeat (a_ofZ ar 1) 3 in
    let lengths := repeat (a_ofZ ar 1) 3 in
    up <- j3_new 3 velocity lengths numCells ;;
    dt <- jl_dt 3 velocity lengths numCells ;;
    dt <- (match dt with Some dt => Ok dt | None => Undef UninitRead end) ;;
    j3_run up numTimeSteps dt.

  Local Open Scope string_scope.
  Local Open Scope Z_scope.

  (** println of an array of Int *)
  Definition jl_list_text (l : list Z) : string := "[" ++ String.concat ", " (map show_int l) ++ "]".

  (** upwind.jl:155-156, 181; upwind3.jl:143-144, 168 *)
  Definition jl_report (ncells numTimeSteps : Z) (sum : D) : string :=
    "number of cells: " ++ jl_list_text (repeat ncells 3) ++ newline ++ "number of time steps: " ++ show_int numTimeSteps ++ newline ++
    "check sum: " ++ show sum ++ newline.

  (** save2VTK, upwind.jl:123-134, upwind3.jl:124-135: neither linspace (removed in Julia 1.0; LinearAlgebra is not there before 0.7)
      nor a module saveVTK is defined, so that an exception ends the program with status 1; [message] is what it prints. *)
  Definition jl_end (message out : string) (savevtk : bool) : run :=
    if savevtk then mkRun out message [] 1 else mkRun out "" [] 0.

  Definition jl_parse (read : string -> option Z) (s : string) : res Z := match read s with Some n => Ok n | None => Undef NumRange end.
  Definition jl_vtk (args : list string) : bool := match args with _ :: _ :: a3 :: _ => (a3 =? "vtk")%string | _ => false end.

  (** upwind.jl:136-185; [args] is ARGS, without the name of the program, [source] that name *)
  Definition jl_main (read : string -> option Z) (psum : list D -> D) (message source : string) (args : list string) : res run :=
    match args with
    | [] => Ok (mkRun ("Must specify number of cells in each direction." ++ newline ++ "Usage: " ++ source ++ " numCells [numTimeSteps]" ++ newline) "" [] 1)
    | a1 :: rest =>
        ncells <- jl_parse read a1 ;;
        numTimeSteps <- (match rest with a2 :: _ => jl_parse read a2 | [] => Ok 100 end) ;;
        up <- jl_body ncells numTimeSteps ;;
        Ok (jl_end message (jl_report ncells numTimeSteps (psum (jl_f up))) (jl_vtk args))
    end.

  (** upwind3.jl:137-195 *)
  Definition j3_main (read : string -> option Z) (psum : list D -> D) (message : string) (args : list string) : res run :=
    ncells <- (match args with a1 :: _ => jl_parse read a1 | [] => Ok 128 end) ;;
    numTimeSteps <- (match args with _ :: a2 :: _ => jl_parse read a2 | _ => Ok 2 end) ;;
    up <- j3_body ncells numTimeSteps ;;
    Ok (jl_end message (jl_report ncells numTimeSteps (psum (jl_f (j3_obj up)))) (jl_vtk args)).

  (** *** saveVTK.jl *)

  (** The coordinates along an axis, saveVTK.jl:30-33, 36-39, 42-45; [fixed] is @sprintf("%f", ...) *)
  Definition jl_axis_text (fixed : D -> string) (axis : list D) : string :=
    show_int (vlen axis - 1 + 1) ++ " double" ++ newline ++ texts (map (fun x => fixed x ++ " ") axis).

  (** The values, saveVTK.jl:50-55; [i] is the index of the first one *)
  Fixpoint jl_values_text (fixed : D -> string) (i : Z) (l : list D) : string :=
    match l with
    | [] => ""
    | x :: t => fixed x ++ " " ++ (if i mod 10 =? 0 then newline else "") ++ jl_values_text fixed (i + 1) t
    end.

  (** rectilinear, saveVTK.jl:3-61 *)
  Definition jl_rectilinear (fixed : D -> string) (xAxis yAxis zAxis data : list D) : string :=
    "# vtk DataFile Version 2.0" ++ newline ++ "upwind.jl" ++ newline ++ "ASCII" ++ newline ++ "DATASET RECTILINEAR_GRID" ++ newline ++ "DIMENSIONS" ++
    " " ++ show_int (vlen xAxis - 1 + 1) ++ " " ++ show_int (vlen yAxis - 1 + 1) ++ " " ++ show_int (vlen zAxis - 1 + 1) ++ newline ++
    "X_COORDINATES " ++ jl_axis_text fixed xAxis ++ newline ++ "Y_COORDINATES " ++ jl_axis_text fixed yAxis ++ newline ++
    "Z_COORDINATES " ++ jl_axis_text fixed zAxis ++ newline ++ "CELL_DATA " ++ show_int (vlen data) ++ newline ++
    "SCALARS f double 1" ++ newline ++ "LOOKUP_TABLE default" ++ newline ++ jl_values_text fixed 1 data ++ newline.
End Jl.
Arguments jl : clear implicits.
Arguments jl3 : clear implicits.
