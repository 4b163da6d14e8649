(** * Model of the Cython version: upwind/cython/upwind5.pyx

    The class has no main program; from Python one can call the constructor, advect, checksum and printOut (the attributes
    and saveVTK are cdef: they cannot be reached from Python, and nothing calls saveVTK, which is not modelled).
    velocity and lengths are numpy arrays of float64, numCells is a numpy array of int64 (numpy.int and numpy.int_ of a
    64-bit Linux).  An element of an array of int64 is stored modulo 2^64.  [Undef] stands for an exception.
    Memory never runs out.

    Two statements depend on the versions of Python and NumPy the module is built for ([cyenv]):
    - inds[j, :] /= dimProd[j] (line 70): in Python 2 the division rounds down; in Python 3 the quotient is a float64
      array that cannot be stored back into the int64 array: TypeError;
    - indsUp[j, :] += upDirection[j] (line 89): upDirection[j] is a float64, so the sum is one; up to NumPy 1.9 it is
      converted back to int64, since NumPy 1.10 this is a TypeError (casting rule 'same_kind').
    The attributes that are never read are left out: offsetMat, numCellsExt, lengths. *)
From Coq Require Import List ZArith Bool String.
From Verif Require Import Cpp CmdModel NumModel TextModel PyModel.
From Coq Require Import List.
Import ListNotations.
Local Open Scope Z_scope.

(** A value stored in an int64 *)
Definition i64 (z : Z) : Z := (z + 2 ^ 63) mod 2 ^ 64 - 2 ^ 63.
(** In-place division of int64 in Python 2, and remainder: rounding down, zero for a zero divisor *)
Definition cy_div (a b : Z) : Z := if b =? 0 then 0 else i64 (a / b).

(** TypeError; the kind of the exception is of no importance here *)
Definition type_error : ub := NumRange.

Record cyenv : Type := mkCyEnv {
  cy_python2 : bool;       (* "/" of two integers rounds down *)
  cy_numpy_unsafe : bool   (* NumPy before 1.10: a float64 result may be stored in an int64 array *)
}.

Section Cy.
  Context {D : Type} (ar : arith D) (env : cyenv).

  (** cdef class Upwind, upwind5.pyx:15-32.  upDirection is an array of float64 whose elements are 1 and -1; here integers,
      converted where they are multiplied with a float64. *)
  Record cy : Type := mkCy {
    cy_numCells : list Z;
    cy_ndims : Z;
    cy_deltas : list D;
    cy_upDirection : list Z;
    cy_v : list D;
    cy_ntot : Z;
    cy_dimProd : list Z;
    cy_coeff : list D;
    cy_f : list D;
    cy_oldF : list D;
    cy_inds : list (list Z);
    cy_indsUp : list (list Z)
  }.

  (** The loop over the axes, upwind5.pyx:46-51.  ntot is a C int: the product (of numpy type int64) is converted to a
      C int, OverflowError if it does not fit. *)
  Definition cy_axes (ndims : Z) (velocity lengths : list D) (numCells : list Z) : res (list Z * list D * Z) :=
    for_upto ndims (fun j '(upDirection, deltas, ntot) =>
      upDirection <- vset upDirection j (-1) ;;
      vj <- vget velocity j ;;
      upDirection <- (if a_lt ar vj (a_dec ar 0 1) then vset upDirection j 1 else Ok upDirection) ;;
      lj <- vget lengths j ;;
      nj <- vget numCells j ;;
      deltas <- vset deltas j (a_div ar lj (a_ofZ ar nj)) ;;
      ntot <- np_int (i64 (ntot * nj)) ;;
      Ok (upDirection, deltas, ntot))
    (repeat 0 (Z.to_nat ndims), repeat (a_ofZ ar 0) (Z.to_nat ndims), 1).

  (** upwind5.pyx:53-56: for i in range(ndims - 2, -1, -1) *)
  Definition cy_strides (ndims : Z) (numCells : list Z) : res (list Z) :=
    for_upto (ndims - 1) (fun k dimProd =>
      let i := ndims - 2 - k in
      p <- vget dimProd (i + 1) ;; n <- vget numCells (i + 1) ;; vset dimProd i (i64 (p * n)))
    (repeat 1 (Z.to_nat ndims)).

  (** upwind5.pyx:58, element by element *)
  Definition cy_coeffs (ndims : Z) (velocity : list D) (upDirection : list Z) (deltas : list D) : res (list D) :=
    tabulate ndims (fun j =>
      v <- vget velocity j ;; u <- vget upDirection j ;; d <- vget deltas j ;; Ok (a_div ar (a_mul ar v (a_ofZ ar u)) d)).

  (** The index sets, upwind5.pyx:67-71 *)
  Definition cy_row (ntot dp n : Z) : list Z :=
    map (fun i => np_mod (cy_div (Z.of_nat i) dp) n) (seq 0 (Z.to_nat ntot)).
  Definition cy_rows (ndims ntot : Z) (dimProd numCells : list Z) : res (list (list Z)) :=
    tabulate ndims (fun j =>
      dp <- vget dimProd j ;;
      if cy_python2 env then n <- vget numCells j ;; Ok (cy_row ntot dp n) else Undef type_error).

  (** __init__, upwind5.pyx:34-77 *)
  Definition cy_new (velocity lengths : list D) (numCells : list Z) : res cy :=
    let ndims := vlen velocity in
    ' (upDirection, deltas, ntot) <- cy_axes ndims velocity lengths numCells ;;
    dimProd <- cy_strides ndims numCells ;;
    coeff <- cy_coeffs ndims velocity upDirection deltas ;;
    if ntot <? 0 then Undef BadAlloc else
    f <- vset (repeat (a_ofZ ar 0) (Z.to_nat ntot)) 0 (a_ofZ ar 1) ;;
    inds <- cy_rows ndims ntot dimProd numCells ;;
    Ok (mkCy numCells ndims deltas upDirection velocity ntot dimProd coeff f (repeat (a_ofZ ar 0) (Z.to_nat ntot)) inds inds).

  (** numpy.dot(self.dimProd, self.indsUp), upwind5.pyx:93: one sum of products of int64 per cell *)
  Definition cy_flat (p : cy) (inds : list (list Z)) : res (list Z) :=
    tabulate (cy_ntot p) (fun k =>
      for_upto (cy_ndims p) (fun j acc =>
        d <- vget (cy_dimProd p) j ;; row <- vget inds j ;; x <- vget row k ;; Ok (i64 (acc + i64 (d * x)))) 0).

  (** One axis of advect, upwind5.pyx:86-99.  The float64 sum of an index and 1 or -1 is exact, the indices being below 2^31. *)
  Definition cy_axis (p : cy) (deltaTime : D) (oldF : list D) (j : Z) (st : list (list Z) * list D) : res (list (list Z) * list D) :=
    let '(indsUp, f) := st in
    row <- vget indsUp j ;;
    u <- vget (cy_upDirection p) j ;;
    if negb (cy_numpy_unsafe env) then Undef type_error else
    n <- vget (cy_numCells p) j ;;
    indsUp <- vset indsUp j (map (fun x => np_mod (i64 (x + u)) n) row) ;;
    flatIndsUp <- cy_flat p indsUp ;;
    c <- vget (cy_coeff p) j ;;
    let c := a_mul ar deltaTime c in
    f <- tabulate (vlen f) (fun k =>
      fk <- vget f k ;; i <- vget flatIndsUp k ;; a <- np_at oldF i ;; b <- vget oldF k ;;
      Ok (a_sub ar fk (a_mul ar c (a_sub ar a b)))) ;;
    row <- vget (cy_inds p) j ;;
    indsUp <- vset indsUp j row ;;
    Ok (indsUp, f).

  (** advect, upwind5.pyx:79-99.  oldF[:] = f needs arrays of one length, which the constructor makes. *)
  Definition cy_advect (p : cy) (deltaTime : D) : res cy :=
    let oldF := cy_f p in
    ' (indsUp, f) <- for_upto (cy_ndims p) (cy_axis p deltaTime oldF) (cy_indsUp p, cy_f p) ;;
    Ok (mkCy (cy_numCells p) (cy_ndims p) (cy_deltas p) (cy_upDirection p) (cy_v p) (cy_ntot p) (cy_dimProd p) (cy_coeff p) f oldF (cy_inds p) indsUp).

  (** Several calls of advect with the same time step *)
  Definition cy_run (p : cy) (calls : Z) (deltaTime : D) : res cy :=
    for_upto calls (fun _ p => cy_advect p deltaTime) p.

  (** checksum, upwind5.pyx:147-148; [psum] is numpy.sum *)
  Definition cy_checksum (psum : list D -> D) (p : cy) : D := psum (cy_f p).

  (** printOut, upwind5.pyx:150-152: print i, ' ', self.f[i]; print puts a space between its arguments.  [show] is str. *)
  Local Open Scope string_scope.
  Definition cy_printOut (show : D -> string) (p : cy) : res string :=
    l <- tabulate (cy_ntot p) (fun i => x <- vget (cy_f p) i ;; Ok (show_int i ++ " " ++ " " ++ " " ++ show x ++ newline)) ;;
    Ok (texts l).
End Cy.
Arguments cy : clear implicits.
Arguments mkCy {D}.
Arguments cy_numCells {D}. Arguments cy_ndims {D}. Arguments cy_deltas {D}. Arguments cy_upDirection {D}. Arguments cy_v {D}. Arguments cy_ntot {D}.
Arguments cy_dimProd {D}. Arguments cy_coeff {D}. Arguments cy_f {D}. Arguments cy_oldF {D}. Arguments cy_inds {D}. Arguments cy_indsUp {D}.
Arguments cy_checksum {D}. Arguments cy_printOut {D}.
