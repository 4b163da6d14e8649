(** * Model of upwind/cxx/upwindAcc.cxx, upwindAcc2.cxx and upwindOMP5.cxx, with the fragments they include
    The parallel loops are taken here in the order of their counters; see ParModel.v for other orders. *)
From Coq Require Import List ZArith String Bool.
From Verif Require Import Cpp CmdModel UpModel.
From Coq Require Import List.
Import ListNotations.
Local Open Scope Z_scope.

(** Signed int remainder (truncating); undefined when the quotient is not representable. *)
Definition srem (a b : Z) : res Z :=
  if b =? 0 then Undef DivZero else _ <- int_op (Z.quot a b) ;; Ok (Z.rem a b).

Section Acc.
  Context {D : Type} (ar : arith D).

  (** class Upwind, upwindAcc.cxx:107-116; fOld (upwindAcc2.cxx:125) is empty in upwindAcc and upwindOMP5 *)
  Record accel : Type := mkAcc {
    ac_f : list D;
    ac_fOld : list D;
    ac_v : list D;
    ac_lengths : list D;
    ac_deltas : list D;
    ac_coeff : list D;
    ac_upDirection : list Z;
    ac_dimProd : list Z;
    ac_numCells : list Z;
    ac_ntot : Z
  }.

  (** upwindAcc.cxx:27-32 *)
  Definition acc_axes (NDIMS : Z) (velocity lengths : list D) (numCells : list Z) : res (list Z * list D * Z) :=
    for_upto NDIMS (fun j '(upDirection, deltas, ntot) =>
      upDirection <- vset upDirection j (-1) ;;
      vj <- vget velocity j ;;
      upDirection <- (if a_lt ar vj (a_dec ar 0 1) then vset upDirection j 1 else Ok upDirection) ;;
      lj <- vget lengths j ;;
      nj <- vget numCells j ;;
      deltas <- vset deltas j (a_div ar lj (a_ofZ ar nj)) ;;
      ntot <- int_op (ntot * nj) ;;
      Ok (upDirection, deltas, ntot))
    (repeat 0 (Z.to_nat NDIMS), repeat (a_dec ar 0 1) (Z.to_nat NDIMS), 1).

  (** upwindAcc.cxx:33-38 *)
  Definition acc_strides (NDIMS : Z) (numCells : list Z) : res (list Z) :=
    dp <- vset (repeat 0 (Z.to_nat NDIMS)) (u64 (NDIMS - 1)) 1 ;;
    for_upto (i32 NDIMS - 2 + 1) (fun k dp =>
      let i := i32 NDIMS - 2 - k in
      p <- vget dp (i + 1) ;; d <- vget numCells (i + 1) ;; q <- int_op (p * d) ;; vset dp i q) dp.

  (** Upwind::Upwind, upwindAcc.cxx:17-47, upwindAcc2.cxx:18-50 (hasOld: the member fOld is there), upwindOMP5.cxx:17-48 *)
  Definition acc_new (hasOld : bool) (NDIMS : Z) (velocity lengths : list D) (numCells : list Z) : res accel :=
    ' (upDirection, deltas, ntot) <- acc_axes NDIMS velocity lengths numCells ;;
    dimProd <- acc_strides NDIMS numCells ;;
    if 2 ^ 60 <=? u64 ntot then Undef BadAlloc else
    let f := repeat (a_dec ar 0 1) (Z.to_nat (u64 ntot)) in
    f <- vset f 0 (a_ofZ ar 1) ;;
    let fOld := if hasOld then repeat (a_zero ar) (Z.to_nat (u64 ntot)) else [] in
    coeff <- tabulate NDIMS (fun j =>
      vj <- vget velocity j ;;
      uj <- vget upDirection j ;;
      dj <- vget deltas j ;;
      Ok (a_div ar (a_mul ar vj (a_ofZ ar uj)) dj)) ;;
    Ok (mkAcc f fOld velocity lengths deltas coeff upDirection dimProd numCells ntot).

  Definition acc_setFields (a : accel) (f fOld : list D) : accel :=
    mkAcc f fOld (ac_v a) (ac_lengths a) (ac_deltas a) (ac_coeff a) (ac_upDirection a) (ac_dimProd a) (ac_numCells a) (ac_ntot a).

  (** compute_index_set.h; of the array inds of NDIMS elements only the first three are written and read *)
  Definition acc_inds (NDIMS : Z) (a : accel) (i : Z) : res (list Z) :=
    tabulate (Z.min NDIMS 3) (fun k =>
      p <- vget (ac_dimProd a) k ;;
      q <- sdiv i p ;;
      n <- vget (ac_numCells a) k ;;
      srem q n).

  (** dimProdPtr[l] * inds[l], with the periodic neighbour when l is the axis k of the fragment *)
  Definition acc_term (a : accel) (inds : list Z) (k l : Z) : res Z :=
    p <- vget (ac_dimProd a) l ;;
    x <- vget inds l ;;
    x <- (if l =? k
          then u <- vget (ac_upDirection a) l ;;
               n <- vget (ac_numCells a) l ;;
               s <- int_op (x + u) ;;
               s <- int_op (s + n) ;;
               srem s n
          else Ok x) ;;
    int_op (p * x).

  (** compute_flat_index_offset_{x,y,z}.h for k = 0, 1, 2 *)
  Definition acc_upI (a : accel) (inds : list Z) (k : Z) : res Z :=
    t0 <- acc_term a inds k 0 ;;
    t1 <- acc_term a inds k 1 ;;
    s <- int_op (t0 + t1) ;;
    t2 <- acc_term a inds k 2 ;;
    int_op (s + t2).

  (** One of the three updates of cell i, upwindAcc.cxx:77-78, 81-82, 85-86; upI is not set when the guard of the
      fragment is false and no fragment has set it before *)
  Definition acc_axis (NDIMS : Z) (a : accel) (deltaTime : D) (old : list D) (inds : list Z) (i k : Z)
    (st : option Z * list D) : res (option Z * list D) :=
    let '(upI, f) := st in
    upI <- (if k <? NDIMS then u <- acc_upI a inds k ;; Ok (Some u) else Ok upI) ;;
    c <- vget (ac_coeff a) k ;;
    u <- (match upI with Some u => Ok u | None => Undef UninitRead end) ;;
    x <- vget old u ;;
    y <- vget old i ;;
    fi <- vget f i ;;
    f <- vset f i (a_sub ar fi (a_mul ar (a_mul ar deltaTime c) (a_sub ar x y))) ;;
    Ok (upI, f).

  (** Body of the loop over the cells, upwindAcc.cxx:70-88, upwindAcc2.cxx:76-93, upwindOMP5.cxx:77-94 *)
  Definition acc_cell (NDIMS : Z) (a : accel) (deltaTime : D) (old : list D) (i : Z) (f : list D) : res (list D) :=
    inds <- acc_inds NDIMS a i ;;
    ' (_, f) <- for_upto 3 (acc_axis NDIMS a deltaTime old inds i) (None, f) ;;
    Ok f.

  Definition acc_cells (NDIMS : Z) (a : accel) (deltaTime : D) (old f : list D) : res (list D) :=
    for_upto (ac_ntot a) (fun i f => acc_cell NDIMS a deltaTime old i f) f.

  (** upwindAcc2.cxx:71-73, upwindOMP5.cxx:72-74 *)
  Definition acc_copy (ntot : Z) (f old : list D) : res (list D) :=
    for_upto ntot (fun i old => x <- vget f i ;; vset old i x) old.

  (** upwindAcc, advect, upwindAcc.cxx:49-89 *)
  Definition acc1_advect (NDIMS : Z) (a : accel) (deltaTime : D) : res accel :=
    f <- acc_cells NDIMS a deltaTime (ac_f a) (ac_f a) ;;
    Ok (acc_setFields a f (ac_fOld a)).

  (** upwindAcc, main, upwindAcc.cxx:165-167 *)
  Definition acc1_steps (NDIMS : Z) (a : accel) (numTimeSteps : Z) (deltaTime : D) : res accel :=
    for_upto numTimeSteps (fun _ a => acc1_advect NDIMS a deltaTime) a.

  (** The time loop of upwindAcc2.cxx:68-95 and of upwindOMP5.cxx:70-96: copy, then update *)
  Definition acc_steps (NDIMS : Z) (a : accel) (numTimeSteps : Z) (deltaTime : D) (f old : list D) : res (list D * list D) :=
    for_upto numTimeSteps (fun _ '(f, old) =>
      old <- acc_copy (ac_ntot a) f old ;;
      f <- acc_cells NDIMS a deltaTime old f ;;
      Ok (f, old)) (f, old).

  (** upwindAcc2, advect, upwindAcc2.cxx:52-99 *)
  Definition acc2_advect (NDIMS : Z) (a : accel) (numTimeSteps : Z) (deltaTime : D) : res accel :=
    ' (f, old) <- acc_steps NDIMS a numTimeSteps deltaTime (ac_f a) (ac_fOld a) ;;
    Ok (acc_setFields a f old).

  (** upwindOMP5, advect, upwindOMP5.cxx:50-99, the steps one after the other *)
  Definition omp5_advect (NDIMS : Z) (a : accel) (numTimeSteps : Z) (deltaTime : D) : res accel :=
    ' (f, _) <- acc_steps NDIMS a numTimeSteps deltaTime (ac_f a) (ac_f a) ;;
    Ok (acc_setFields a f (ac_fOld a)).

  (** checksum, upwindAcc.cxx:93-95 *)
  Definition acc_checksum (a : accel) : D := fold_left (a_add ar) (ac_f a) (a_dec ar 0 1).

  (** std, upwindAcc2.cxx:107-115 *)
  Definition acc_std (dsqrt : D -> D) (a : accel) : res D :=
    let mean := a_div ar (acc_checksum a) (a_ofZ ar (ac_ntot a)) in
    r <- for_upto (vlen (ac_f a)) (fun i r =>
      x <- vget (ac_f a) i ;;
      let d := a_sub ar x mean in
      _ <- int_op (i + 1) ;;
      Ok (a_add ar r (a_mul ar d d))) (a_ofZ ar 0) ;;
    Ok (dsqrt (a_div ar r (a_ofZ ar (ac_ntot a)))).

  (** saveVTK.h with numCells a vector of int; the announced numbers are ints, the loop bounds are converted to size_t *)
  Definition acc_vtk_axis (a : accel) (j : Z) : res (Z * list D) :=
    n <- vget (ac_numCells a) j ;;
    dj <- vget (ac_deltas a) j ;;
    n1 <- int_op (n + 1) ;;
    xs <- tabulate (u64 n1) (fun i => Ok (a_add ar (a_dec ar 0 1) (a_mul ar dj (a_ofZ ar i)))) ;;
    Ok (n1, xs).
  Definition acc_saveVTK (NDIMS : Z) (a : accel) : res (rectilinear D) :=
    d2 <- (if 2 <? NDIMS then n <- vget (ac_numCells a) 2 ;; int_op (n + 1) else Ok 1) ;;
    d1 <- (if 1 <? NDIMS then n <- vget (ac_numCells a) 1 ;; int_op (n + 1) else Ok 1) ;;
    n0 <- vget (ac_numCells a) 0 ;;
    d0 <- int_op (n0 + 1) ;;
    x <- (if 2 <? NDIMS then acc_vtk_axis a 2 else Ok (1, [a_dec ar 0 1])) ;;
    y <- (if 1 <? NDIMS then acc_vtk_axis a 1 else Ok (1, [a_dec ar 0 1])) ;;
    z <- acc_vtk_axis a 0 ;;
    values <- tabulate (u64 (ac_ntot a)) (fun i => vget (ac_f a) i) ;;
    Ok (mkRect [d2; d1; d0] [x; y; z] (ac_ntot a) values).

  (** main after the command line has been read: upwindAcc.cxx:142-172, upwindAcc2.cxx:164-194, upwindOMP5.cxx:164-194.
      Result: object, check sum, spread, file. *)
  Inductive acc_version := Acc1 | Acc2 | Omp5.
  Definition acc_run (ver : acc_version) (a : accel) (numTimeSteps : Z) (dt : D) : res accel :=
    match ver with
    | Acc1 => acc1_steps 3 a numTimeSteps dt
    | Acc2 => acc2_advect 3 a numTimeSteps dt
    | Omp5 => omp5_advect 3 a numTimeSteps dt
    end.
  Definition acc_body (ver : acc_version) (dsqrt : D -> D) (numCellsXYZ numTimeSteps : Z) (doVtk doStd : bool) :
    res (accel * D * option D * option (rectilinear D)) :=
    let numCells := repeat numCellsXYZ 3 in
    let velocity := repeat (a_dec ar 10 1) 3 in
    let lengths := repeat (a_dec ar 10 1) 3 in
    dt <- up_dt ar velocity lengths numCells ;;
    a <- acc_new (match ver with Acc2 => true | _ => false end) 3 velocity lengths numCells ;;
    a <- acc_run ver a numTimeSteps dt ;;
    s <- (if (match ver with Acc1 => false | _ => doStd end) then r <- acc_std dsqrt a ;; Ok (Some r) else Ok None) ;;
    vtk <- (if doVtk then r <- acc_saveVTK 3 a ;; Ok (Some r) else Ok None) ;;
    Ok (a, acc_checksum a, s, vtk).

  (** main, upwindAcc.cxx:119-173, upwindAcc2.cxx:137-195, upwindOMP5.cxx:136-195; None: help printed or parse error *)
  Definition acc_main (ver : acc_version) (dsqrt : D -> D) (atof : string -> D) (argv : list string) :
    res (option (accel * D * option D * option (rectilinear D))) :=
    let args := clap_setPurpose clap_new "Purpose: benchmark finite difference operations." in
    let args := clap_setInt args "-numCells" 128 "Number of cells along each axis" in
    let args := clap_setInt args "-numSteps" 10 "Number of time steps" in
    let args := clap_setBool args "-vtk" false "Write output to VTK file" in
    let args := match ver with Acc1 => args | _ => clap_setBool args "-std" false "Print out spread of solution" end in
    ' (success, args) <- clap_parse atof args argv ;;
    let help := clap_getBool args "-h" in
    if success && negb help then
      r <- acc_body ver dsqrt (clap_getInt args "-numCells") (clap_getInt args "-numSteps")
             (clap_getBool args "-vtk") (match ver with Acc1 => false | _ => clap_getBool args "-std" end) ;;
      Ok (Some r)
    else (_ <- clap_help args ;; Ok None).
End Acc.
Arguments accel : clear implicits.
