(** * Model of the MPI version in Python: upwind/python/upwindMPI.py

    As in LapModel.v the functions describe all the processes at once (lock-step: getData is a collective operation of
    the library).  The library mpinum is not in the repository.  What is assumed of it, in the definitions mp_*:
    CubeDecomp gives to each axis a number of processes that divides the number of cells, or nothing; the processes are
    laid out in C order; getNeighborProc is periodic; an array built by gdaZeros is an ordinary array of the local cells;
    getData(rk, side) is a copy of the outermost layer of the array of process rk on that side, as it was when process
    rk made the same call; reduce combines all the elements of all the processes.
    Arrays are the lists of their elements in C order.  Only objects with three axes are described.  [Undef] stands for
    an exception.  Memory never runs out.  [show] is str() of a float64, [show_array] is str() of an array of integers,
    [read] is int() of a string (None: ValueError), [psum] is numpy.sum. *)
From Coq Require Import List ZArith Bool String.
From Verif Require Import Cpp CmdModel MaiSpec NumModel TextModel PyModel.
From Coq Require Import List.
Import ListNotations.
Local Open Scope Z_scope.

(** C order: the index set number [k] of a grid, and the number of an index set *)
Fixpoint mp_inds (dims : list Z) (k : Z) : list Z :=
  match dims with [] => [] | n :: t => (k / fold_right Z.mul 1 t) mod n :: mp_inds t k end.
Fixpoint mp_flat (dims inds : list Z) : Z :=
  match dims, inds with n :: t, x :: inds' => x * fold_right Z.mul 1 t + mp_flat t inds' | _, _ => 0 end.

(** mpinum: CubeDecomp.getSlab, the begin indices and the number of cells *)
Definition mp_size (dims dec : list Z) : list Z := map (fun p => fst p / snd p) (combine dims dec).
Definition mp_begin (dims dec : list Z) (rk : Z) : list Z :=
  map (fun p => fst p * snd p) (combine (mp_inds dec rk) (mp_size dims dec)).

(** mpinum: CubeDecomp.getNeighborProc with all axes periodic *)
Definition mp_neighbour (dec : list Z) (rk : Z) (direction : list Z) : Z :=
  mp_flat dec (map (fun p => (fst (fst p) + snd (fst p)) mod snd p) (combine (combine (mp_inds dec rk) direction) dec)).

(** The index sets of an array in C order *)
Definition mp_all (ns : list Z) : list (list Z) := row_major (repeat 0 (length ns)) ns.

Section PyMpi.
  Context {D : Type} (ar : arith D) (psum : list D -> D).

  (** a[i], an array of shape [ns] *)
  Definition mp_at (ns : list Z) (a : list D) (i : list Z) : res D := vget a (mp_flat ns i).

  (** mpinum: the layer of the array [a] of shape [ns] that getData copies *)
  Definition mp_layer (ns side : list Z) (a : list D) : res (list D) :=
    let lo := map (fun p => if snd p =? 1 then fst p - 1 else 0) (combine ns side) in
    let hi := map (fun p => if snd p =? -1 then 1 else fst p) (combine ns side) in
    mapM (mp_at ns a) (row_major lo hi).

  (** class Upwind on one process, upwindMPI.py:18-73, without the attributes used only there *)
  Record pm : Type := mkPm {
    pm_iBeg : list Z;
    pm_iEnd : list Z;
    pm_ns : list Z;
    pm_deltas : list D;
    pm_coeff : list D;
    pm_neighbRk : list Z;
    pm_neighbSide : list (list Z);
    pm_f : list D;
    pm_fOld : list D
  }.

  Definition pm_setF (p : pm) (f fOld : list D) : pm :=
    mkPm (pm_iBeg p) (pm_iEnd p) (pm_ns p) (pm_deltas p) (pm_coeff p) (pm_neighbRk p) (pm_neighbSide p) f fOld.

  (** upwindMPI.py:64-73 *)
  Definition pm_neighbours (ndims : Z) (dec : list Z) (rk : Z) (upDirection : list Z) : res (list Z * list (list Z)) :=
    ' (_, rks, sides) <- for_upto ndims (fun i '(direction, rks, sides) =>
        u <- vget upDirection i ;;
        direction <- vset direction i u ;;
        rks <- vset rks i (mp_neighbour dec rk direction) ;;
        sides <- vset sides i (map Z.opp direction) ;;
        direction <- vset direction i 0 ;;
        Ok (direction, rks, sides))
      (repeat 0 (Z.to_nat ndims), repeat 0 (Z.to_nat ndims), repeat [] (Z.to_nat ndims)) ;;
    Ok (rks, sides).

  (** upwindMPI.py:18-73 on process [rk], a decomposition having been found; lines 47-52 are lines 20-25 of upwind.py but
      for the number of cells, which is not used *)
  Definition pm_new (dec : list Z) (rk : Z) (velocity lengths : list D) (numCells : list Z) : res pm :=
    let ndims := vlen velocity in
    if negb (ndims =? 3) then Undef OobRead else
    let nsLocal := mp_size numCells dec in
    let iBeg := mp_begin numCells dec rk in
    let iEnd := map (fun p => fst p + snd p) (combine iBeg nsLocal) in
    ' (upDirection, deltas, _) <- py_axes ar ndims velocity lengths numCells ;;
    coeff <- py_coeffs ar ndims velocity upDirection deltas ;;
    let zeros := repeat (a_ofZ ar 0) (Z.to_nat (fold_right Z.mul 1 nsLocal)) in
    f <- (if rk =? 0 then vset zeros (mp_flat nsLocal [0; 0; 0]) (a_ofZ ar 1) else Ok zeros) ;;
    ' (rks, sides) <- pm_neighbours ndims dec rk upDirection ;;
    Ok (mkPm iBeg iEnd nsLocal deltas coeff rks sides f zeros).

  (** self.f[1:, :, :] -= c * self.fOld[:-1, :, :] and the same along the other axes, upwindMPI.py:86-88 *)
  Definition pm_inner (ns : list Z) (j : nat) (c : D) (fOld f : list D) : res (list D) :=
    mapM (fun i =>
      x <- mp_at ns f i ;;
      if 1 <=? nth j i 0 then y <- mp_at ns fOld (upd i j (nth j i 0 - 1)) ;; Ok (a_sub ar x (a_mul ar c y)) else Ok x)
      (mp_all ns).

  (** self.f[:1, :, :] -= c * layer and the same along the other axes, upwindMPI.py:91-96 *)
  Definition pm_border (ns : list Z) (j : nat) (c : D) (layer f : list D) : res (list D) :=
    mapM (fun i =>
      x <- mp_at ns f i ;;
      if nth j i 0 <? 1 then y <- mp_at (upd ns j 1) layer i ;; Ok (a_sub ar x (a_mul ar c y)) else Ok x)
      (mp_all ns).

  (** advect up to the communication, upwindMPI.py:80-88 *)
  Definition pm_local (deltaTime : D) (p : pm) : res pm :=
    let fOld := pm_f p in
    let c := a_mul ar deltaTime (psum (pm_coeff p)) in
    let f := map (fun q => a_add ar (fst q) (a_mul ar c (snd q))) (combine (pm_f p) fOld) in
    f <- for_upto 3 (fun j f => cj <- vget (pm_coeff p) j ;; pm_inner (pm_ns p) (Z.to_nat j) (a_mul ar deltaTime cj) fOld f) f ;;
    Ok (pm_setF p f fOld).

  (** The communication, upwindMPI.py:91-96; [w] has all the processes *)
  Definition pm_fetch (deltaTime : D) (w : list pm) (p : pm) : res pm :=
    f <- for_upto 3 (fun j f =>
      cj <- vget (pm_coeff p) j ;;
      rk <- vget (pm_neighbRk p) j ;;
      side <- vget (pm_neighbSide p) j ;;
      q <- vget w rk ;;
      layer <- mp_layer (pm_ns q) side (pm_fOld q) ;;
      pm_border (pm_ns p) (Z.to_nat j) (a_mul ar deltaTime cj) layer f) (pm_f p) ;;
    Ok (pm_setF p f (pm_fOld p)).

  (** advect on all the processes, upwindMPI.py:75-96 *)
  Definition pm_advect (deltaTime : D) (w : list pm) : res (list pm) :=
    w <- mapM (pm_local deltaTime) w ;;
    mapM (pm_fetch deltaTime w) w.

  (** upwindMPI.py:165-166 *)
  Definition pm_run (w : list pm) (numTimeSteps : Z) (deltaTime : D) : res (list pm) :=
    for_upto numTimeSteps (fun _ w => pm_advect deltaTime w) w.

  (** The constructor on all the processes *)
  Definition pm_world (sz : Z) (dec : list Z) (velocity lengths : list D) (numCells : list Z) : res (list pm) :=
    tabulate sz (fun rk => pm_new dec rk velocity lengths numCells).

  (** gatherRoot on process 0, upwindMPI.py:109-125; the elements of numpy.zeros(numCells) in C order *)
  Definition pm_gather (dec : list Z) (numCells : list Z) (w : list pm) : res (list D) :=
    for_upto (vlen w) (fun rk r =>
      p <- vget w rk ;;
      for_each (mp_all (pm_ns p)) (fun i r =>
        x <- mp_at (pm_ns p) (pm_f p) i ;;
        vset r (mp_flat numCells (map (fun q => fst q + snd q) (combine (mp_begin numCells dec rk) i))) x) r)
      (repeat (a_ofZ ar 0) (Z.to_nat (fold_right Z.mul 1 numCells))).

  (** The processes after the time steps of main, upwindMPI.py:135-136, 146-156, 165-166; [py_dt] is lines 150-154 too *)
  Definition pm_body (sz : Z) (dec : list Z) (n numTimeSteps : Z) : res (list pm) :=
    let ndims := 3 in
    let numCells := repeat n 3 in
    let velocity := repeat (a_ofZ ar 1) 3 in
    let lengths := repeat (a_ofZ ar 1) 3 in
    dt <- py_dt ar ndims velocity lengths numCells ;;
    dt <- (match dt with Some dt => Ok dt | None => Undef UninitRead end) ;;
    w <- pm_world sz dec velocity lengths numCells ;;
    pm_run w numTimeSteps dt.

  Local Open Scope string_scope.
  Local Open Scope Z_scope.

  (** [0.0 + i*up.deltas[k] for i in range(numCells[j] + 1)], upwindMPI.py:179-181 *)
  Definition pm_coords (p : pm) (numCells : list Z) (k j : Z) : res (list D) :=
    d <- vget (pm_deltas p) k ;;
    n <- vget numCells j ;;
    tabulate (n + 1) (fun i => Ok (a_add ar (a_dec ar 0 1) (a_mul ar (a_ofZ ar i) d))).

  (** The file, upwindMPI.py:176-182: the cells along the third axis are taken to be as large as those along the second *)
  Definition pm_vtk (show : D -> string) (dec numCells : list Z) (w : list pm) : res string :=
    data <- pm_gather dec numCells w ;;
    p <- vget w 0 ;;
    x <- pm_coords p numCells 0 0 ;;
    y <- pm_coords p numCells 1 1 ;;
    z <- pm_coords p numCells 1 2 ;;
    py_rectilinear show x y z numCells data.

  (** main, upwindMPI.py:128-182, on every process; argv[0] is the name of the program, [cube] is CubeDecomp (empty: no
      decomposition), [red] is reduce with operator.add, [time] is the text of the elapsed time, [deleted] is what Python
      writes when __del__ (105-107) fails after sys.exit in the constructor.  A number of cells that is not positive is
      not described. *)
  Definition pm_main (show : D -> string) (show_array : list Z -> string) (read : string -> option Z) (red : list (list D) -> D)
      (cube : Z -> list Z -> list Z) (time deleted : string) (sz : Z) (argv : list string) : res (list run) :=
    let all := map Z.of_nat (seq 0 (Z.to_nat sz)) in
    match argv with
    | [] | [_] => Ok (map (fun _ => mkRun ("must specify number of cells in each direction." ++ newline) "" [] 1) all)
    | _ :: a1 :: rest =>
        n <- (match read a1 with Some n => Ok n | None => Undef NumRange end) ;;
        numTimeSteps <- (match rest with a2 :: _ => match read a2 with Some k => Ok k | None => Undef NumRange end | [] => Ok 100 end) ;;
        let doVtk := match rest with _ :: a3 :: _ => (a3 =? "vtk")%string | _ => false end in
        if n <? 1 then Undef BadAlloc else
        let numCells := repeat n 3 in
        let dec := cube sz numCells in
        if vlen dec =? 0 then
          Ok (map (fun _ => mkRun ("*** No uniform decomposition could be found for " ++ show_int sz ++ " processes" ++ newline ++
                                   "*** Please adjust the number of cells " ++ py_list_text numCells ++ newline) deleted [] 1) all)
        else
          w <- pm_body sz dec n numTimeSteps ;;
          files <- (if doVtk then t <- pm_vtk show dec numCells w ;; Ok [("upMPI.vtk", t)] else Ok []) ;;
          Ok (map (fun rk =>
            let own := "[" ++ show_int rk ++ "] local number of cells: " ++ show_array (mp_size numCells dec) ++ newline in
            if rk =? 0 then
              mkRun (own ++ "number of cells: " ++ py_list_text numCells ++ newline ++
                     "Wall clock time spent in advection loop: " ++ time ++ " [sec]" ++ newline ++
                     "check sum: " ++ show (red (map pm_f w)) ++ newline) "" files 0
            else mkRun own "" [] 0) all)
    end.
End PyMpi.
Arguments pm : clear implicits.
