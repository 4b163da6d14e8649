(** * Model of class MultiArrayIter (cxx/MultiArrayIter.h, cxx/MultiArrayIter.cpp) *)
From Verif Require Import Cpp.
Local Open Scope Z_scope.

(** Data members, MultiArrayIter.h:102-123.  [ndims] is [lo.size()]. *)
Record mai : Type := mkMai {
  m_lo : list Z;
  m_hi : list Z;
  m_dims : list Z;
  m_dimProd : list Z;
  m_rowMajor : bool;
  m_ntot : Z;
  m_ndims : Z;
  m_bigIndex : Z
}.

(** MultiArrayIter.cpp:24-27, loop over the axes computing the extents; a [hi] shorter than [lo] is
    an out of bounds read. *)
Definition mai_extents (lo hi : list Z) : res (list Z) :=
  tabulate (vlen lo) (fun i => h <- vget hi i ;; l <- vget lo i ;; Ok (u64 (h - l))).

(** MultiArrayIter.cpp:32-35 *)
Definition mai_ntot (ndims : Z) (dims : list Z) : res Z :=
  for_upto ndims (fun i t => d <- vget dims i ;; Ok (u64 (t * d))) 1.

(** MultiArrayIter.cpp:37-49.  [dimProd.resize(ndims)]: the previous contents, if any, are all
    overwritten, so the model starts from zeros.  [ndims - 1] is computed in size_t, hence wraps when
    there are no axes; the second loop's counter is an int. *)
Definition mai_dimProd (ndims : Z) (dims : list Z) (rowMajor : bool) : res (list Z) :=
  let zeros := repeat 0 (Z.to_nat ndims) in
  if rowMajor then
    dp <- vset zeros (u64 (ndims - 1)) 1 ;;
    for_upto (i32 ndims - 2 + 1) (fun k dp =>
      let i := i32 ndims - 2 - k in
      p <- vget dp (i + 1) ;; d <- vget dims (i + 1) ;; vset dp i (u64 (p * d))) dp
  else
    dp <- vset zeros 0 1 ;;
    for_upto (ndims - 1) (fun k dp =>
      let i := 1 + k in
      p <- vget dp (i - 1) ;; d <- vget dims (i - 1) ;; vset dp i (u64 (p * d))) dp.

(** MultiArrayIter::build, MultiArrayIter.cpp:17-52 (the final begin() sets the flat index to 0).
    The constructor (MultiArrayIter.cpp:13-15) just calls it. *)
Definition mai_build (lo hi : list Z) (rowMajor : bool) : res mai :=
  let ndims := vlen lo in
  dims <- mai_extents lo hi ;;
  ntot <- mai_ntot ndims dims ;;
  dimProd <- mai_dimProd ndims dims rowMajor ;;
  Ok (mkMai lo hi dims dimProd rowMajor ntot ndims 0).

(** MultiArrayIter::getNumberOfTerms, MultiArrayIter.cpp:54-57 *)
Definition mai_getNumberOfTerms (m : mai) : Z := m_ntot m.

Definition mai_setBig (m : mai) (b : Z) : mai :=
  mkMai (m_lo m) (m_hi m) (m_dims m) (m_dimProd m) (m_rowMajor m) (m_ntot m) (m_ndims m) b.

(** MultiArrayIter::begin, MultiArrayIter.cpp:59-62 *)
Definition mai_begin (m : mai) : mai := mai_setBig m 0.
(** MultiArrayIter::next, MultiArrayIter.cpp:64-67 *)
Definition mai_next (m : mai) : mai := mai_setBig m (u64 (m_bigIndex m + 1)).
(** MultiArrayIter::move, MultiArrayIter.cpp:69-72 *)
Definition mai_move (m : mai) (bi : Z) : mai := mai_setBig m bi.
(** MultiArrayIter::getLBegIndices, getEndIndices, MultiArrayIter.cpp:74-82 *)
Definition mai_getLBegIndices (m : mai) : list Z := m_lo m.
Definition mai_getEndIndices (m : mai) : list Z := m_hi m.

(** MultiArrayIter::getIndices, MultiArrayIter.h:51-57 *)
Definition mai_getIndices (m : mai) : res (list Z) :=
  tabulate (m_ndims m) (fun i =>
    l <- vget (m_lo m) i ;;
    p <- vget (m_dimProd m) i ;;
    q <- udiv (m_bigIndex m) p ;;
    d <- vget (m_dims m) i ;;
    r <- umod q d ;;
    Ok (u64 (l + r))).

(** MultiArrayIter::computeBigIndex, MultiArrayIter.h:92-99, before the conversion of the size_t
    accumulator to the return type.  [inds[i] - lo[i]] is computed in size_t for T = int as well. *)
Definition mai_computeBig (m : mai) (inds : list Z) : res Z :=
  for_upto (m_ndims m) (fun i bi =>
    p <- vget (m_dimProd m) i ;;
    x <- vget inds i ;;
    l <- vget (m_lo m) i ;;
    Ok (u64 (bi + p * u64 (x - l)))) 0.

(** computeBigIndex<size_t> *)
Definition mai_computeBigIndex (m : mai) (inds : list Z) : res Z := mai_computeBig m inds.
(** computeBigIndex<int> *)
Definition mai_computeBigIndex_int (m : mai) (inds : list Z) : res Z :=
  bi <- mai_computeBig m inds ;; Ok (i32 bi).

(** The idiomatic client loop, e.g. laplacian/cxx/testMultiArrayIter.cxx:20-28, Filter.cpp:135-141:
    [for (i = 0; i < it.getNumberOfTerms(); ++i) { inds = it.getIndices(); ...; it.next(); }].
    Returns the visited index sets and the iterator after the loop. *)
Definition mai_visit (m : mai) : res (list (list Z) * mai) :=
  for_upto (mai_getNumberOfTerms m) (fun _ '(acc, m) =>
    inds <- mai_getIndices m ;; Ok (acc ++ [inds], mai_next m)) ([], m).
