(** * matmult/fortran/matmult.F90: the product of two matrices, naive and with a concurrent loop

    A matrix is a Fortran array of rank two: its elements are stored by columns.  Subscripts are not checked by the
    language; an element outside the array is undefined behaviour here.  integer (four bytes) is not modelled as a machine
    type in this file: the counters run up to extents of arrays, and no other arithmetic is done with integers. *)
From Verif Require Import Cpp ParModel FortModel.
From Coq Require Import ZArith List String.
Import ListNotations.
Local Open Scope Z_scope.

Section Matmult.
  Context {D : Type} (ar : arith D).

  (** real(8) :: a(:, :) *)
  Record mat : Type := mkMat { mm_rows : Z; mm_cols : Z; mm_data : list D }.
  Definition mm_with (a : mat) (l : list D) : mat := mkMat (mm_rows a) (mm_cols a) l.

  (** Where a(i, j) is stored. *)
  Definition mm_pos (rows cols i j : Z) : res Z :=
    if (1 <=? i) && (i <=? rows) && (1 <=? j) && (j <=? cols) then Ok ((i - 1) + rows * (j - 1)) else Undef OobRead.
  Definition mm_get (a : mat) (i j : Z) : res D := p <- mm_pos (mm_rows a) (mm_cols a) i j ;; vget (mm_data a) p.
  Definition mm_set (a : mat) (i j : Z) (x : D) : res mat :=
    p <- mm_pos (mm_rows a) (mm_cols a) i j ;; l <- vset (mm_data a) p x ;; Ok (mm_with a l).

  (** allocate (a(n, m)), lines 118-121: a negative extent counts as zero; the elements are whatever [junk] was there. *)
  Definition mm_alloc (junk : Z -> D) (n m : Z) : mat :=
    mkMat (Z.max 0 n) (Z.max 0 m) (map (fun k => junk (Z.of_nat k)) (seq 0 (Z.to_nat (Z.max 0 n * Z.max 0 m)))).

  (** initmat, lines 6-31 *)
  Definition mm_initmat (a b : mat) : res (mat * mat) :=
    let n := mm_rows a in
    let m := mm_rows b in
    let el := mm_cols b in
    let count := a_ofZ ar 1 in
    ' (a, count) <- f_do m (fun j st => f_do n (fun i '(a, count) =>
        a <- mm_set a i j count ;;
        Ok (a, a_add ar count (a_ofZ ar 1))) st) (a, count) ;;
    ' (b, count) <- f_do el (fun k st => f_do m (fun j '(b, count) =>
        b <- mm_set b j k count ;;
        Ok (b, a_add ar count (a_ofZ ar 1))) st) (b, count) ;;
    Ok (a, b).

  (** The body of the loop over k, lines 45-50 and 66-71. *)
  Definition mm_column (a b : mat) (k : Z) (c : mat) : res mat :=
    let n := mm_rows a in
    let m := mm_rows b in
    f_do n (fun i c =>
      c <- mm_set c i k (a_ofZ ar 0) ;;
      f_do m (fun j c =>
        x <- mm_get c i k ;;
        p <- mm_get a i j ;;
        q <- mm_get b j k ;;
        mm_set c i k (a_add ar x (a_mul ar p q))) c) c.

  (** matmult0, lines 34-52 *)
  Definition matmult0 (a b c : mat) : res mat := f_do (mm_cols c) (fun k c => mm_column a b k c) c.

  (** matmult1, lines 55-73: do concurrent.  Iteration k may be executed by any thread, at the same time as others; i and j
      are assigned before they are used in each iteration, so that each iteration has its own (Fortran 2008, 8.1.6.7).  The
      elements of c are the shared array F of the machine of ParModel.v, indexed by position; a and b are intent(in). *)
  Definition mm_task (a b : mat) (rows cols k : Z) : cmd D :=
    ploop 0 (Z.to_nat (mm_rows a)) (fun i (_ : unit) next =>
      priv (mm_pos rows cols (i + 1) (k + 1)) (fun p =>
      Wr (F, p) (a_ofZ ar 0)
      (ploop 0 (Z.to_nat (mm_rows b)) (fun j (_ : unit) next =>
        priv (mm_pos rows cols (i + 1) (k + 1)) (fun p =>
        Rd (F, p) (fun x =>
        priv (x1 <- mm_get a (i + 1) (j + 1) ;; x2 <- mm_get b (j + 1) (k + 1) ;; Ok (x1, x2)) (fun '(x1, x2) =>
        priv (mm_pos rows cols (i + 1) (k + 1)) (fun p =>
        Wr (F, p) (a_add ar x (a_mul ar x1 x2)) (next tt)))))) tt next))) tt (fun _ => Done).
  Definition mm_region (T : nat) (a b c : mat) (who : nat -> list Z) : config D :=
    region T [fun t => share (mm_task a b (mm_rows c) (mm_cols c)) (who t)] (mm_data c, []).

  (** ** The program *)

  (** Lines 88-115.  [args] are the command line arguments without the name of the program, padded or cut to 32 characters;
      [blank] is len_trim(argv) == 0, [read] the list-directed read of an integer, which ends the program when there is none
      (None: no iostat is given).  ier is never assigned: [ier k] is what is found in it when argument k is looked at. *)
  Fixpoint mm_sizes (read : string -> option Z) (blank : string -> bool) (ier : nat -> Z) (argc : nat) (args : list string)
      (sizes : Z * Z * Z) : option (Z * Z * Z) :=
    match args with
    | [] => Some sizes
    | argv :: rest =>
        if blank argv then Some sizes
        else match read argv with
             | None => None
             | Some val =>
                 let '(n, m, el) := sizes in
                 let sizes :=
                   if ier argc =? 0 then
                     if (argc =? 1)%nat then (val, m, el)
                     else if (argc =? 2)%nat then (n, val, el)
                     else if (argc =? 3)%nat then (n, m, val)
                     else (n, m, el)
                   else (n, m, el) in
                 mm_sizes read blank ier (S argc) rest sizes
             end
    end.

  (** abs of a real *)
  Definition mm_abs (x : D) : D := if a_lt ar x (a_ofZ ar 0) then a_neg ar x else x.

  Inductive mm_end : Type :=
  | MmReadError                             (* the read statement ended the program *)
  | MmError (sizes : Z * Z * Z) (diff : D)  (* ERROR: signifiant difference diff= *)
  | MmSuccess (sizes : Z * Z * Z).          (* SUCCESS. *)

  (** Lines 78-135.  [mult1] is one execution of matmult1, [psum] the intrinsic sum, [eps] the constant 1.e-10 of line 129,
      [junk k] the contents of the k-th array allocated. *)
  Definition mm_program (read : string -> option Z) (blank : string -> bool) (ier : nat -> Z) (junk : nat -> Z -> D)
      (mult1 : mat -> mat -> mat -> res mat) (psum : list D -> D) (eps : D) (args : list string) : res mm_end :=
    match mm_sizes read blank ier 1 args (3, 4, 5) with
    | None => Ok MmReadError
    | Some (n, m, el) =>
        ' (a, b) <- mm_initmat (mm_alloc (junk 0%nat) n m) (mm_alloc (junk 1%nat) m el) ;;
        c0 <- matmult0 a b (mm_alloc (junk 2%nat) n el) ;;
        c1 <- mult1 a b (mm_alloc (junk 3%nat) n el) ;;
        let diff := psum (map (fun '(x, y) => mm_abs (a_sub ar x y)) (combine (mm_data c0) (mm_data c1))) in
        if a_lt ar eps diff then Ok (MmError (n, m, el) diff) else Ok (MmSuccess (n, m, el))
    end.
End Matmult.
Arguments mat : clear implicits.
Arguments mm_end : clear implicits.
