(** * Model of class CubeDecomp (cxx/CubeDecomp.h, cxx/CubeDecomp.cpp) *)
From Coq Require Import Floats.SpecFloat.
From Verif Require Import Cpp MaiModel.
Local Open Scope Z_scope.

(** double: IEEE binary64, as the standard library's executable specification (round to nearest even).
    [(double) n] for a size_t [n], division, [<], and numeric_limits<double>::max(). *)
Definition dbl_of_Z (n : Z) : spec_float := binary_normalize 53 1024 n 0 false.
Definition dbl_div (x y : spec_float) : spec_float := SFdiv 53 1024 x y.
Definition dbl_lt (x y : spec_float) : bool := SFltb x y.
Definition dbl_max : spec_float := S754_finite false 9007199254740991 971.

(** Data members, CubeDecomp.h:84-89.  [c_mit = None] is a default constructed MultiArrayIter, none of
    whose scalar members is initialised. *)
Record cube : Type := mkCube {
  c_nprocs : Z;
  c_ndims : Z;
  c_decomp : list Z;
  c_dims : list Z;
  c_localDims : list Z;
  c_mit : option mai
}.

(** CubeDecomp(), CubeDecomp.h:26 *)
Definition cd_empty : cube := mkCube 0 0 [] [] [] None.

(** CubeDecomp::getPrimeFactors, CubeDecomp.cpp:138-149 *)
Definition cd_getPrimeFactors (n : Z) : list Z :=
  let n2 := n / 2 in
  match for_upto (n2 - 1) (fun j res =>
          let k := 2 + j in
          Ok (if u64 (n / k * k) =? n then res ++ [k] else res)) [1] with
  | Ok res => res ++ [n]
  | Undef _ => []
  end.

(** CubeDecomp::computeCost, CubeDecomp.cpp:151-170 *)
Definition cd_localDims (n : Z) (dims decomp : list Z) : res (list Z) :=
  tabulate n (fun i => a <- vget dims i ;; b <- vget decomp i ;; udiv a b).

Definition cd_computeCost (ndims : Z) (dims decomp : list Z) : res spec_float :=
  localDims <- cd_localDims ndims dims decomp ;;
  ' (volume, surface) <-
    for_upto ndims (fun i '(volume, surface) =>
      l <- vget localDims i ;;
      area <- for_upto ndims (fun j area =>
                if negb (j =? i) then x <- vget localDims j ;; Ok (u64 (area * x)) else Ok area) 1 ;;
      Ok (u64 (volume * l), u64 (surface + area))) (1, 0) ;;
  Ok (dbl_div (dbl_of_Z surface) (dbl_of_Z volume)).

(** std::accumulate(decomp.begin(), decomp.end(), 1, std::multiplies<size_t>()), CubeDecomp.cpp:58: the
    accumulator has the type of the literal 1, an int; every partial product is computed in size_t and
    converted back to int.  The result is then converted to size_t. *)
Definition cd_accumulate (decomp : list Z) : Z :=
  u64 (fold_left (fun acc d => i32 (u64 (u64 acc * d))) decomp 1).

(** CubeDecomp.cpp:36-63: the list of valid decompositions. *)
Definition cd_candidates (ndims nprocs : Z) (dims : list Z) : res (list (list Z)) :=
  primeNumbers <- tabulate ndims (fun i => d <- vget dims i ;; Ok (cd_getPrimeFactors d)) ;;
  let zeros := repeat 0 (Z.to_nat ndims) in
  ns <- tabulate ndims (fun i => p <- vget primeNumbers i ;; Ok (vlen p)) ;;
  it <- mai_build zeros ns false ;;
  ' (_, validDecomps) <-
    for_upto (mai_getNumberOfTerms it) (fun _ '(it, validDecomps) =>
      decompInds <- mai_getIndices it ;;
      decomp <- tabulate ndims (fun j =>
                  p <- vget primeNumbers j ;; k <- vget decompInds j ;; vget p k) ;;
      Ok (mai_next it, if cd_accumulate decomp =? u64 nprocs then validDecomps ++ [decomp]
                       else validDecomps)) (it, []) ;;
  Ok validDecomps.

(** CubeDecomp.cpp:71-80: the search for the best one starts at index 1. *)
Definition cd_search (ndims : Z) (dims : list Z) (validDecomps : list (list Z)) : res (list Z) :=
  first <- vget validDecomps 0 ;;
  ' (_, best) <-
    for_upto (vlen validDecomps - 1) (fun k '(minCost, best) =>
      let i := 1 + k in
      d <- vget validDecomps i ;;
      cost <- cd_computeCost ndims dims d ;;
      Ok (if dbl_lt cost minCost then (cost, d) else (minCost, best))) (dbl_max, first) ;;
  Ok best.

(** CubeDecomp::computeOptimalDecomp, CubeDecomp.cpp:33-86.  Returns the new iterator when one was
    built, and the decomposition (empty when there is none). *)
Definition cd_computeOptimalDecomp (ndims nprocs : Z) (dims : list Z) : res (option mai * list Z) :=
  validDecomps <- cd_candidates ndims nprocs dims ;;
  if vlen validDecomps =? 0 then Ok (None, [])
  else
    best <- cd_search ndims dims validDecomps ;;
    mit <- mai_build (repeat 0 (Z.to_nat ndims)) best true ;;
    Ok (Some mit, best).

(** CubeDecomp::build, CubeDecomp.cpp:11-31.  A failed search leaves the iterator and the local
    dimensions of a previous build in place. *)
Definition cd_build (c : cube) (nprocs : Z) (dims : list Z) : res (bool * cube) :=
  let ndims := vlen dims in
  ' (omit, decomp) <- cd_computeOptimalDecomp ndims nprocs dims ;;
  if vlen decomp =? 0 then
    Ok (false, mkCube nprocs ndims decomp dims (c_localDims c) (c_mit c))
  else
    let mit := match omit with Some m => Some m | None => c_mit c end in
    localDims <- cd_localDims (vlen decomp) dims decomp ;;
    Ok (true, mkCube nprocs ndims decomp dims localDims mit).

(** CubeDecomp(nprocs, dims), CubeDecomp.h:33-36: the result of build() is discarded. *)
Definition cd_new (nprocs : Z) (dims : list Z) : res cube :=
  ' (_, c) <- cd_build cd_empty nprocs dims ;; Ok c.

(** [mit.move((size_t) rk); inds = mit.getIndices();], CubeDecomp.cpp:90-92, 102-103, 114-115 *)
Definition cd_moveTo (c : cube) (rk : Z) : res (list Z * cube) :=
  match c_mit c with
  | None => Undef UninitRead
  | Some m =>
      let m' := mai_move m (u64 rk) in
      inds <- mai_getIndices m' ;;
      Ok (inds, mkCube (c_nprocs c) (c_ndims c) (c_decomp c) (c_dims c) (c_localDims c) (Some m'))
  end.

(** CubeDecomp::getBegIndices, CubeDecomp.cpp:88-98.  The object is returned too: the iterator moved. *)
Definition cd_getBegIndices (c : cube) (rk : Z) : res (list Z * cube) :=
  ' (inds, c') <- cd_moveTo c rk ;;
  r <- tabulate (c_ndims c) (fun i =>
         x <- vget inds i ;; l <- vget (c_localDims c) i ;; Ok (u64 (x * l))) ;;
  Ok (r, c').

(** CubeDecomp::getEndIndices, CubeDecomp.cpp:100-109 *)
Definition cd_getEndIndices (c : cube) (rk : Z) : res (list Z * cube) :=
  ' (inds, c') <- cd_moveTo c rk ;;
  r <- tabulate (c_ndims c) (fun i =>
         x <- vget inds i ;; l <- vget (c_localDims c) i ;; Ok (u64 (u64 (x + 1) * l))) ;;
  Ok (r, c').

(** CubeDecomp::getNeighborRank, CubeDecomp.cpp:111-131.  size_t + int is a size_t, converted to int on
    assignment; the comparison with and the update by [decomp[i]] also happen in size_t. *)
Definition cd_getNeighborRank (c : cube) (rk : Z) (dir : list Z) : res (Z * cube) :=
  ' (inds, c') <- cd_moveTo c rk ;;
  indOffset <- tabulate (c_ndims c) (fun i =>
    x <- vget inds i ;;
    d <- vget dir i ;;
    let off := i32 (u64 (x + u64 d)) in
    n <- vget (c_decomp c) i ;;
    Ok (if off <? 0 then i32 (u64 (u64 off + n))
        else if n <=? u64 off then i32 (u64 (u64 off - n))
        else off)) ;;
  match c_mit c' with
  | None => Undef UninitRead
  | Some m => r <- mai_computeBigIndex_int m indOffset ;; Ok (i32 r, c')
  end.

(** CubeDecomp::getDecomp, CubeDecomp.cpp:133-136 *)
Definition cd_getDecomp (c : cube) : list Z := c_decomp c.
