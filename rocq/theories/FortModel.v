(** * Model of the Fortran versions: upwind/fortran/upwind.F90, upwindF03.F90, upwindF08.F90, upwindF08Gpu.F90

    The four files have the same code up to syntax (type-bound procedures, a function instead of a subroutine, pointers
    instead of allocatables); line numbers are those of upwind.F90.  A default integer has 32 bits and an operation
    whose result does not fit is an error.  The array element a(i) is element i - 1 of the list.  Expressions are
    evaluated from left to right where the standard leaves the choice to the processor.  allocate does not fail. *)
From Coq Require Import List ZArith Bool String.
From Verif Require Import Cpp AccModel UpModel ParModel.
From Coq Require Import List.
Import ListNotations.
Local Open Scope Z_scope.

(** The intrinsic function modulo: the result has the sign of the second argument. *)
Definition f_modulo (a b : Z) : res Z := if b =? 0 then Undef DivZero else Ok (a mod b).

(** a(i), and a(i) = x *)
Definition fget {A} (l : list A) (i : Z) : res A := vget l (i - 1).
Definition fset {A} (l : list A) (i : Z) (x : A) : res (list A) := vset l (i - 1) x.

(** do i = 1, n *)
Definition f_do {St} (n : Z) (body : Z -> St -> res St) (s : St) : res St := for_upto n (fun k => body (k + 1)) s.

Section Fort.
  Context {D : Type} (ar : arith D).

  (** upwind_type, upwind.F90:7-35 *)
  Record fort : Type := mkFort {
    fo_ndims : Z;
    fo_ntot : Z;
    fo_numCells : list Z;
    fo_upDirection : list Z;
    fo_deltas : list D;
    fo_v : list D;
    fo_lengths : list D;
    fo_f : list D;
    fo_dimProd : list Z
  }.

  Definition fo_set (o : fort) (f : list D) : fort :=
    mkFort (fo_ndims o) (fo_ntot o) (fo_numCells o) (fo_upDirection o) (fo_deltas o) (fo_v o) (fo_lengths o) f (fo_dimProd o).

  (** upwind.F90:67-75; the elements of upDirection and deltas are all written before any is read *)
  Definition fo_axes (ndims : Z) (velocity lengths : list D) (numCells : list Z) : res (list Z * list D * Z) :=
    f_do ndims (fun j '(upDirection, deltas, ntot) =>
      upDirection <- fset upDirection j (-1) ;;
      vj <- fget velocity j ;;
      upDirection <- (if a_lt ar vj (a_dec ar 0 1) then fset upDirection j 1 else Ok upDirection) ;;
      lj <- fget lengths j ;;
      nj <- fget numCells j ;;
      deltas <- fset deltas j (a_div ar lj (a_ofZ ar nj)) ;;
      ntot <- int_op (ntot * nj) ;;
      Ok (upDirection, deltas, ntot))
    (repeat 0 (Z.to_nat ndims), repeat (a_zero ar) (Z.to_nat ndims), 1).

  (** upwind.F90:77-80: do j = ndims - 1, 1, -1 *)
  Definition fo_strides (ndims : Z) (numCells : list Z) : res (list Z) :=
    dp <- fset (repeat 0 (Z.to_nat ndims)) ndims 1 ;;
    for_upto (ndims - 1) (fun k dp =>
      let j := ndims - 1 - k in
      p <- fget dp (j + 1) ;; n <- fget numCells (j + 1) ;; q <- int_op (p * n) ;; fset dp j q) dp.

  (** upwind_new, upwind.F90:43-89; an array of a negative number of elements is empty *)
  Definition fo_new (velocity lengths : list D) (numCells : list Z) : res fort :=
    let ndims := vlen velocity in
    ' (upDirection, deltas, ntot) <- fo_axes ndims velocity lengths numCells ;;
    dimProd <- fo_strides ndims numCells ;;
    let f := repeat (a_ofZ ar 0) (Z.to_nat ntot) in
    f <- fset f 1 (a_ofZ ar 1) ;;
    Ok (mkFort ndims ntot numCells upDirection deltas velocity lengths f dimProd).

  (** upwind_getIndexSet, upwind.F90:234-243 *)
  Definition fo_getIndexSet (o : fort) (flatIndex : Z) : res (list Z) :=
    tabulate (fo_ndims o) (fun k =>
      let i := k + 1 in
      p <- fget (fo_dimProd o) i ;;
      n <- fget (fo_numCells o) i ;;
      a <- int_op (flatIndex - 1) ;;
      q <- sdiv a p ;;
      r <- srem q n ;;
      int_op (r + 1)).

  (** upwind_getFlatIndex, upwind.F90:245-252; the terms of dot_product are added in the order of the elements *)
  Definition fo_getFlatIndex (o : fort) (inds : list Z) : res Z :=
    s <- f_do (fo_ndims o) (fun i acc =>
      p <- fget (fo_dimProd o) i ;;
      x <- fget inds i ;;
      y <- int_op (x - 1) ;;
      t <- int_op (p * y) ;;
      int_op (acc + t)) 0 ;;
    int_op (s + 1).

  (** What the body of the loop over the axes computes without touching the field, upwind.F90:131-141:
      index set and flat index of the neighbour, saved index. *)
  Definition fo_private (o : fort) (j : Z) (inds : list Z) : res (list Z * Z * Z) :=
    oldIndex <- fget inds j ;;
    uj <- fget (fo_upDirection o) j ;;
    x <- int_op (oldIndex + uj) ;;
    inds <- fset inds j x ;;
    nj <- fget (fo_numCells o) j ;;
    x <- fget inds j ;;
    y <- int_op (x + nj) ;;
    y <- int_op (y - 1) ;;
    m <- f_modulo y nj ;;
    z <- int_op (m + 1) ;;
    inds <- fset inds j z ;;
    upI <- fo_getFlatIndex o inds ;;
    Ok (inds, upI, oldIndex).

  (** The new value of f(i), upwind.F90:144-145 *)
  Definition fo_update (deltaTime vj : D) (uj : Z) (dj fi a b : D) : D :=
    a_sub ar fi (a_div ar (a_mul ar (a_mul ar (a_mul ar deltaTime vj) (a_ofZ ar uj)) (a_sub ar a b)) dj).

  (** Body of the loop over the axes, upwind.F90:129-149, for cell i *)
  Definition fo_axis (o : fort) (deltaTime : D) (oldF : list D) (i j : Z) (st : list Z * list D) : res (list Z * list D) :=
    let '(inds, f) := st in
    ' (inds, upI, oldIndex) <- fo_private o j inds ;;
    vj <- fget (fo_v o) j ;;
    uj <- fget (fo_upDirection o) j ;;
    dj <- fget (fo_deltas o) j ;;
    fi <- fget f i ;;
    a <- fget oldF upI ;;
    b <- fget oldF i ;;
    f <- fset f i (fo_update deltaTime vj uj dj fi a b) ;;
    inds <- fset inds j oldIndex ;;
    Ok (inds, f).

  (** Body of the loop over the cells, upwind.F90:124-150 *)
  Definition fo_cell (o : fort) (deltaTime : D) (oldF : list D) (i : Z) (f : list D) : res (list D) :=
    inds <- fo_getIndexSet o i ;;
    ' (_, f) <- f_do (fo_ndims o) (fo_axis o deltaTime oldF i) (inds, f) ;;
    Ok f.

  (** upwind_advect, upwind.F90:108-153, the iterations of the loop in the order of the counter; a whole-array
      assignment needs arrays of the same size *)
  Definition fo_advect (o : fort) (deltaTime : D) : res fort :=
    if vlen (fo_f o) =? fo_ntot o then
      let oldF := fo_f o in
      f <- f_do (fo_ntot o) (fo_cell o deltaTime oldF) (fo_f o) ;;
      Ok (fo_set o f)
    else Undef OobRead.

  (** upwind.F90:357-359 *)
  Definition fo_run (o : fort) (numTimeSteps : Z) (deltaTime : D) : res fort :=
    f_do numTimeSteps (fun _ o => fo_advect o deltaTime) o.

  (** The coordinates along axis j, upwind.F90:185-188, 192-195, 203-206 *)
  Definition fo_coords (o : fort) (j : Z) : res (Z * list D) :=
    n <- fget (fo_numCells o) j ;;
    n1 <- int_op (n + 1) ;;
    dj <- fget (fo_deltas o) j ;;
    xs <- tabulate n1 (fun k => Ok (a_add ar (a_dec ar 0 1) (a_mul ar dj (a_ofZ ar k)))) ;;
    Ok (n1, xs).

  (** A number of points, upwind.F90:175, 179, 181 *)
  Definition fo_points (o : fort) (j : Z) : res Z := n <- fget (fo_numCells o) j ;; int_op (n + 1).

  (** upwind_saveVTK, upwind.F90:155-221 *)
  Definition fo_saveVTK (o : fort) : res (@rectilinear D) :=
    dims <- (if 2 <? fo_ndims o then
               a <- fo_points o 3 ;; b <- fo_points o 2 ;; c <- fo_points o 1 ;; Ok [a; b; c]
             else if 1 <? fo_ndims o then
               b <- fo_points o 2 ;; c <- fo_points o 1 ;; Ok [1; b; c]
             else c <- fo_points o 1 ;; Ok [1; 1; c]) ;;
    x <- fo_coords o 1 ;;
    y <- (if 1 <? fo_ndims o then fo_coords o 2 else Ok (1, [a_dec ar 0 1])) ;;
    z <- (if 2 <? fo_ndims o then fo_coords o 3 else Ok (1, [a_dec ar 0 1])) ;;
    values <- tabulate (fo_ntot o) (fun k => fget (fo_f o) (k + 1)) ;;
    Ok (mkRect dims [x; y; z] (fo_ntot o) values).

  (** The time step, upwind.F90:342-349: min(val, dt), [huge] being huge(1.0_r8) *)
  Definition fo_dt (velocity lengths : list D) (numCells : list Z) : res D :=
    f_do (vlen velocity) (fun j dt =>
      lj <- fget lengths j ;;
      nj <- fget numCells j ;;
      let dx := a_div ar lj (a_ofZ ar nj) in
      vj <- fget velocity j ;;
      let val := a_div ar (a_mul ar (a_dec ar 1 1) dx) vj in
      Ok (if a_lt ar dt val then dt else val)) (a_max ar).

  (** sum(up % f), the elements added in order *)
  Definition fo_sum (o : fort) : D := fold_left (a_add ar) (fo_f o) (a_ofZ ar 0).

  (** upwind.F90:305-323: the number of cells and of time steps, and whether a file is written.  [read] is the
      list-directed read of an integer (line 264): None when it fails, n then being undefined.  The arguments after
      the first are looked at up to the first blank one; the first argument is the name of the program. *)
  Record fo_options : Type := mkFoOpt { oo_numCells : option Z; oo_steps : option Z; oo_vtk : bool; oo_argc : nat }.
  Fixpoint fo_parse (read : string -> option Z) (blank : string -> bool) (argc : nat) (args : list string) (o : fo_options) : fo_options :=
    match args with
    | [] => o
    | a :: rest =>
        if blank a then o
        else
          let n := read a in
          let o := match argc with
                   | 1%nat => mkFoOpt n (oo_steps o) (oo_vtk o) (S argc)
                   | 2%nat => mkFoOpt (oo_numCells o) n (oo_vtk o) (S argc)
                   | 3%nat => mkFoOpt (oo_numCells o) (oo_steps o) (if string_dec a "vtk" then true else oo_vtk o) (S argc)
                   | _ => mkFoOpt (oo_numCells o) (oo_steps o) (oo_vtk o) (S argc)
                   end in
          fo_parse read blank (S argc) rest o
    end.

  (** The program, upwind.F90:305-371; None: it stops for want of an argument *)
  Definition fo_main (read : string -> option Z) (blank : string -> bool) (args : list string) : res (option (fort * D * option (@rectilinear D))) :=
    let o := fo_parse read blank 0 args (mkFoOpt (Some (-1)) (Some 100) false 0) in
    if (oo_argc o <? 2)%nat then Ok None
    else
      n <- (match oo_numCells o with Some n => Ok n | None => Undef UninitRead end) ;;
      steps <- (match oo_steps o with Some n => Ok n | None => Undef UninitRead end) ;;
      let numCells := repeat n 3 in
      let velocity := repeat (a_ofZ ar 1) 3 in
      let lengths := repeat (a_ofZ ar 1) 3 in
      dt <- fo_dt velocity lengths numCells ;;
      u <- fo_new velocity lengths numCells ;;
      u <- fo_run u steps dt ;;
      vtk <- (if oo_vtk o then r <- fo_saveVTK u ;; Ok (Some r) else Ok None) ;;
      Ok (Some (u, fo_sum u, vtk)).

  (** ** Parallel execution of the loop over the cells *)

  (** upwind.F90:129-149: the accesses of one iteration of the inner loop to the arrays f and oldF; inds, oldIndex and
      upI are private (line 122; upwindF08Gpu.F90:199-210).  In upwindF08.F90:138 the loop is do concurrent: a variable
      assigned in an iteration before it is used there has a value of its own in each iteration. *)
  Definition fo_axis_task (o : fort) (deltaTime : D) (i j : Z) (inds : list Z) (k : list Z -> cmd D) : cmd D :=
    priv (' (inds, upI, oldIndex) <- fo_private o j inds ;;
          vj <- fget (fo_v o) j ;;
          uj <- fget (fo_upDirection o) j ;;
          dj <- fget (fo_deltas o) j ;;
          Ok (inds, upI, oldIndex, vj, uj, dj)) (fun '(inds, upI, oldIndex, vj, uj, dj) =>
    Rd (F, i - 1) (fun fi =>
    Rd (OldF, upI - 1) (fun a =>
    Rd (OldF, i - 1) (fun b =>
    Wr (F, i - 1) (fo_update deltaTime vj uj dj fi a b)
    (priv (fset inds j oldIndex) k))))).

  (** Iteration [k] of the loop over the cells, counted from 0. *)
  Definition fo_cell_task (o : fort) (deltaTime : D) (k : Z) : cmd D :=
    priv (fo_getIndexSet o (k + 1)) (fun inds =>
      ploop 0 (Z.to_nat (fo_ndims o)) (fun j => fo_axis_task o deltaTime (k + 1) (j + 1)) inds (fun _ => Done)).

  (** The loop over the cells of one call of advect with [T] threads, oldF having been assigned. *)
  Definition fo_region (T : nat) (o : fort) (deltaTime : D) (who : nat -> list Z) : config D :=
    region T [fun t => share (fo_cell_task o deltaTime) (who t)] (fo_f o, fo_f o).

  (** upwindF08Gpu.F90:138-253: the assignment of oldF is a parallel loop too (lines 182-184); a fresh oldF has
      arbitrary contents. *)
  Definition fo_gpu_region (T : nat) (o : fort) (oldF : list D) (deltaTime : D) (who who' : nat -> list Z) : config D :=
    region T [fun t => share copy_task (who t); fun t => share (fo_cell_task o deltaTime) (who' t)] (fo_f o, oldF).
End Fort.
Arguments fort : clear implicits.
