(** * Model of the upwind advection benchmark: upwind/cxx/upwind.cxx, upwind/cxx/saveVTK.h

    upwind/cxx/upwindOMPTasks.cxx has the same code.  The loops are modelled in their sequential order here;
    the OpenMP execution is in ParModel.v.  Vectors of 2^60 elements or more are allocation failures.
    What is written to std::cout is reduced to the values printed. *)
From Verif Require Import Cpp CmdModel.
From Coq Require Import List.
Import ListNotations.
Local Open Scope Z_scope.

Section Up.
  Context {D : Type} (ar : arith D).

  (** Data members, upwind.cxx:112-120. *)
  Record upwind : Type := mkUp {
    up_v : list D;
    up_lengths : list D;
    up_deltas : list D;
    up_f : list D;
    up_oldF : list D;
    up_upDirection : list Z;
    up_dimProd : list Z;
    up_numCells : list Z;
    up_ntot : Z
  }.

  (** upwind.cxx:33-38 *)
  Definition up_axes (NDIMS : Z) (velocity lengths : list D) (numCells : list Z) :
    res (list Z * list D * Z) :=
    for_upto NDIMS (fun j '(upDirection, deltas, ntot) =>
      upDirection <- vset upDirection j (-1) ;;
      vj <- vget velocity j ;;
      upDirection <- (if a_lt ar vj (a_dec ar 0 1) then vset upDirection j 1 else Ok upDirection) ;;
      lj <- vget lengths j ;;
      nj <- vget numCells j ;;
      deltas <- vset deltas j (a_div ar lj (a_ofZ ar nj)) ;;
      Ok (upDirection, deltas, u64 (ntot * nj)))
    (repeat 0 (Z.to_nat NDIMS), repeat (a_dec ar 0 1) (Z.to_nat NDIMS), 1).

  (** upwind.cxx:39-44 *)
  Definition up_strides (NDIMS : Z) (numCells : list Z) : res (list Z) :=
    dp <- vset (repeat 0 (Z.to_nat NDIMS)) (u64 (NDIMS - 1)) 1 ;;
    for_upto (i32 NDIMS - 2 + 1) (fun k dp =>
      let i := i32 NDIMS - 2 - k in
      p <- vget dp (i + 1) ;; d <- vget numCells (i + 1) ;; vset dp i (u64 (p * d))) dp.

  (** Upwind::Upwind, upwind.cxx:23-49 *)
  Definition up_new (NDIMS : Z) (velocity lengths : list D) (numCells : list Z) : res upwind :=
    ' (upDirection, deltas, ntot) <- up_axes NDIMS velocity lengths numCells ;;
    dimProd <- up_strides NDIMS numCells ;;
    if 2 ^ 60 <=? ntot then Undef BadAlloc else
    let f := repeat (a_dec ar 0 1) (Z.to_nat ntot) in
    let oldF := repeat (a_dec ar 0 1) (Z.to_nat ntot) in
    f <- vset f 0 (a_ofZ ar 1) ;;
    Ok (mkUp velocity lengths deltas f oldF upDirection dimProd numCells ntot).

  Definition up_setFields (u : upwind) (f old : list D) : upwind :=
    mkUp (up_v u) (up_lengths u) (up_deltas u) f old (up_upDirection u) (up_dimProd u) (up_numCells u) (up_ntot u).

  (** getIndexSet, upwind.cxx:123-129; the values are converted to int *)
  Definition up_getIndexSet (NDIMS : Z) (u : upwind) (flatIndex : Z) : res (list Z) :=
    tabulate NDIMS (fun i =>
      p <- vget (up_dimProd u) i ;;
      q <- udiv flatIndex p ;;
      n <- vget (up_numCells u) i ;;
      r <- umod q n ;;
      Ok (i32 r)).

  (** getFlatIndex, upwind.cxx:132-134: std::inner_product with an int accumulator (the initial value is the
      int 0), products and sums being computed in size_t; the returned int is converted to size_t *)
  Definition up_getFlatIndex (u : upwind) (inds : list Z) : res Z :=
    acc <- for_upto (vlen (up_dimProd u)) (fun k acc =>
      p <- vget (up_dimProd u) k ;;
      x <- vget inds k ;;
      Ok (i32 (u64 (u64 acc + u64 (p * u64 x))))) 0 ;;
    Ok (u64 acc).

  (** upwind.cxx:59-62 *)
  Definition up_copy (ntot : Z) (f old : list D) : res (list D) :=
    for_upto (i32 ntot) (fun i old => x <- vget f i ;; vset old i x) old.

  (** Body of the loop over the axes, upwind.cxx:71-82, for cell i *)
  Definition up_axis (u : upwind) (deltaTime : D) (old : list D) (i : Z) (j : Z) (st : list Z * list D) :
    res (list Z * list D) :=
    let '(inds, f) := st in
    oldIndex <- vget inds j ;;
    vj <- vget (up_v u) j ;;
    uj <- vget (up_upDirection u) j ;;
    dj <- vget (up_deltas u) j ;;
    let coeff := a_div ar (a_mul ar (a_mul ar deltaTime vj) (a_ofZ ar uj)) dj in
    nj <- vget (up_numCells u) j ;;
    inds <- vset inds j (i32 (u64 (u64 oldIndex + u64 (u64 uj + nj)))) ;;
    x <- vget inds j ;;
    r <- umod (u64 x) nj ;;
    inds <- vset inds j (i32 r) ;;
    upI <- up_getFlatIndex u inds ;;
    fi <- vget f i ;;
    a <- vget old upI ;;
    b <- vget old i ;;
    f <- vset f i (a_sub ar fi (a_mul ar coeff (a_sub ar a b))) ;;
    inds <- vset inds j oldIndex ;;
    Ok (inds, f).

  (** Body of the loop over the cells, upwind.cxx:65-84 *)
  Definition up_cell (NDIMS : Z) (u : upwind) (deltaTime : D) (old : list D) (i : Z) (f : list D) : res (list D) :=
    inds <- up_getIndexSet NDIMS u i ;;
    ' (_, f) <- for_upto NDIMS (up_axis u deltaTime old i) (inds, f) ;;
    Ok f.

  (** One time step, upwind.cxx:57-85; the two loops have bound (int) ntot *)
  Definition up_step (NDIMS : Z) (u : upwind) (deltaTime : D) : res upwind :=
    old <- up_copy (up_ntot u) (up_f u) (up_oldF u) ;;
    f <- for_upto (i32 (up_ntot u)) (fun i f => up_cell NDIMS u deltaTime old i f) (up_f u) ;;
    Ok (up_setFields u f old).

  (** Upwind::advect, upwind.cxx:51-86; a negative step count gives no iteration *)
  Definition up_advect (NDIMS : Z) (u : upwind) (numTimeSteps : Z) (deltaTime : D) : res upwind :=
    for_upto numTimeSteps (fun _ u => up_step NDIMS u deltaTime) u.

  (** Upwind::checksum, upwind.cxx:91-93 *)
  Definition up_checksum (u : upwind) : D := fold_left (a_add ar) (up_f u) (a_dec ar 0 1).

  (** Upwind::std, upwind.cxx:95-103; the counter is an int *)
  Definition up_std (dsqrt : D -> D) (u : upwind) : res D :=
    let mean := a_div ar (up_checksum u) (a_ofZ ar (up_ntot u)) in
    r <- for_upto (vlen (up_f u)) (fun i r =>
      x <- vget (up_f u) i ;;
      let d := a_sub ar x mean in
      _ <- int_op (i + 1) ;;
      Ok (a_add ar r (a_mul ar d d))) (a_ofZ ar 0) ;;
    Ok (dsqrt (a_div ar r (a_ofZ ar (up_ntot u)))).

  (** Upwind::print, upwind.cxx:105-109 *)
  Definition up_print (u : upwind) : list (Z * D) :=
    map (fun p => (Z.of_nat (fst p), snd p)) (combine (seq 0 (length (up_f u))) (up_f u)).

  (** Contents of a rectilinear grid file (layout of the text left out): the three dimensions, per axis the
      announced number of coordinates and the coordinates, the announced number of values and the values. *)
  Record rectilinear : Type := mkRect {
    rg_dims : list Z;
    rg_coords : list (Z * list D);
    rg_count : Z;
    rg_values : list D
  }.

  (** the coordinates along axis j, saveVTK.h:28-31, 39-42, 49-52 *)
  Definition vtk_axis (u : upwind) (j : Z) : res (Z * list D) :=
    n <- vget (up_numCells u) j ;;
    dj <- vget (up_deltas u) j ;;
    let n1 := u64 (n + 1) in
    xs <- tabulate n1 (fun i => Ok (a_add ar (a_dec ar 0 1) (a_mul ar dj (a_ofZ ar i)))) ;;
    Ok (n1, xs).

  (** saveVTK, saveVTK.h:1-60 *)
  Definition up_saveVTK (NDIMS : Z) (u : upwind) : res rectilinear :=
    d2 <- (if 2 <? NDIMS then n <- vget (up_numCells u) 2 ;; Ok (u64 (n + 1)) else Ok 1) ;;
    d1 <- (if 1 <? NDIMS then n <- vget (up_numCells u) 1 ;; Ok (u64 (n + 1)) else Ok 1) ;;
    n0 <- vget (up_numCells u) 0 ;;
    x <- (if 2 <? NDIMS then vtk_axis u 2 else Ok (1, [a_dec ar 0 1])) ;;
    y <- (if 1 <? NDIMS then vtk_axis u 1 else Ok (1, [a_dec ar 0 1])) ;;
    z <- vtk_axis u 0 ;;
    values <- tabulate (up_ntot u) (fun i => vget (up_f u) i) ;;
    Ok (mkRect [d2; d1; u64 (n0 + 1)] [x; y; z] (up_ntot u) values).

  (** The time step, upwind.cxx:186-192 *)
  Definition up_dt (velocity lengths : list D) (numCells : list Z) : res D :=
    for_upto (vlen velocity) (fun j dt =>
      lj <- vget lengths j ;;
      nj <- vget numCells j ;;
      let dx := a_div ar lj (a_ofZ ar nj) in
      vj <- vget velocity j ;;
      let val := a_div ar (a_mul ar (a_dec ar 1 1) dx) vj in
      Ok (if a_lt ar val dt then val else dt)) (a_max ar).

  Record up_result : Type := mkUpResult {
    ur_up : upwind;
    ur_sum : D;
    ur_std : option D;
    ur_vtk0 : option rectilinear;
    ur_vtk1 : option rectilinear
  }.

  (** upwind.cxx:173-205; [numCells] is an int converted to size_t *)
  Definition up_body (dsqrt : D -> D) (numCells numTimeSteps : Z) (doVtk doStd : bool) : res up_result :=
    let numCells := repeat (u64 numCells) 3 in
    let velocity := repeat (a_dec ar 10 1) 3 in
    let lengths := repeat (a_dec ar 10 1) 3 in
    dt <- up_dt velocity lengths numCells ;;
    u <- up_new 3 velocity lengths numCells ;;
    vtk0 <- (if doVtk then r <- up_saveVTK 3 u ;; Ok (Some r) else Ok None) ;;
    u <- up_advect 3 u numTimeSteps dt ;;
    s <- (if doStd then r <- up_std dsqrt u ;; Ok (Some r) else Ok None) ;;
    vtk1 <- (if doVtk then r <- up_saveVTK 3 u ;; Ok (Some r) else Ok None) ;;
    Ok (mkUpResult u (up_checksum u) s vtk0 vtk1).

  (** upwind.cxx:139-217 without the OpenMP report (159-171); None: help printed or parse error *)
  Definition up_main (dsqrt : D -> D) (atof : string -> D) (argv : list string) : res (option up_result) :=
    let args := clap_setPurpose clap_new "Purpose: benchmark finite difference operations." in
    let args := clap_setInt args "-numCells" 128 "Number of cells along each axis" in
    let args := clap_setInt args "-numSteps" 10 "Number of time steps" in
    let args := clap_setBool args "-vtk" false "Write output to VTK file" in
    let args := clap_setBool args "-std" false "Print out spread of solution" in
    ' (success, args) <- clap_parse atof args argv ;;
    let help := clap_getBool args "-h" in
    if success && negb help then
      r <- up_body dsqrt (clap_getInt args "-numCells") (clap_getInt args "-numSteps")
             (clap_getBool args "-vtk") (clap_getBool args "-std") ;;
      Ok (Some r)
    else (_ <- clap_help args ;; Ok None).
End Up.
Arguments upwind : clear implicits.
Arguments rectilinear : clear implicits.
Arguments up_result : clear implicits.
