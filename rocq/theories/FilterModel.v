(** * Model of class Filter (cxx/Filter.h, cxx/Filter.cpp)

    Field data have an arbitrary type [D] with operations [ar : arith D] about which nothing is assumed.
    One [filter] is the object of one MPI rank; a [world] is the list of the objects of all the ranks.
    Buffers obtained from MPI_Alloc_mem are lists of [option D]: [None] is an uninitialised element.
    Output on std::cout/std::cerr is not modelled except for printInData/printOutData, which return the
    lines as data.

    MPI.  All ranks execute the same sequence of collective calls (same stencil), so the window of [side]
    on one rank is the window of [side] on every other rank.  [filter_fetch] takes the contents of the remote window
    as a parameter; [world_apply] gives it the contents in the state before the call (lock-step
    execution); MpiSched*.v shows that every interleaving permitted by the fences does the same. *)
From Verif Require Import Cpp MaiModel CdModel.
Local Open Scope Z_scope.

(** Filter.h:172-224.  [f_winData] maps a side to the contents of the source and destination buffers,
    [f_winIds] to the identities of the two buffers and of the window; [f_allocs] lists the resources
    allocated so far, in order; [f_mit = None] is a default constructed iterator. *)
Record filter (D : Type) : Type := mkFilter {
  f_rk : Z;
  f_sz : Z;
  f_ndims : Z;
  f_globalDims : list Z;
  f_xmins : list D;
  f_xmaxs : list D;
  f_valid : bool;
  f_dcmp : cube;
  f_lo : list Z;
  f_hi : list Z;
  f_mit : option mai;
  f_inData : list D;
  f_outData : list D;
  f_stencil : list (list Z * D);
  f_winNumGhosts : list (list Z * Z);
  f_winData : list (list Z * (list (option D) * list (option D)));
  f_winIter : list (list Z * mai);
  f_winIds : list (list Z * (Z * Z * Z));
  f_allocs : list Z
}.
Arguments mkFilter {D}.
Arguments f_rk {D}. Arguments f_sz {D}. Arguments f_ndims {D}. Arguments f_globalDims {D}.
Arguments f_xmins {D}. Arguments f_xmaxs {D}. Arguments f_valid {D}. Arguments f_dcmp {D}.
Arguments f_lo {D}. Arguments f_hi {D}. Arguments f_mit {D}. Arguments f_inData {D}.
Arguments f_outData {D}. Arguments f_stencil {D}. Arguments f_winNumGhosts {D}. Arguments f_winData {D}.
Arguments f_winIter {D}. Arguments f_winIds {D}. Arguments f_allocs {D}.

Section Filter.
  Context {D : Type} (ar : arith D).
  Implicit Types f : filter D.

  (** Assignments to data members. *)
  Definition set_dcmp f c := mkFilter (f_rk f) (f_sz f) (f_ndims f) (f_globalDims f) (f_xmins f) (f_xmaxs f) (f_valid f) c
    (f_lo f) (f_hi f) (f_mit f) (f_inData f) (f_outData f) (f_stencil f) (f_winNumGhosts f) (f_winData f) (f_winIter f) (f_winIds f) (f_allocs f).
  Definition set_mit f m := mkFilter (f_rk f) (f_sz f) (f_ndims f) (f_globalDims f) (f_xmins f) (f_xmaxs f) (f_valid f) (f_dcmp f)
    (f_lo f) (f_hi f) (Some m) (f_inData f) (f_outData f) (f_stencil f) (f_winNumGhosts f) (f_winData f) (f_winIter f) (f_winIds f) (f_allocs f).
  Definition set_in f v := mkFilter (f_rk f) (f_sz f) (f_ndims f) (f_globalDims f) (f_xmins f) (f_xmaxs f) (f_valid f) (f_dcmp f)
    (f_lo f) (f_hi f) (f_mit f) v (f_outData f) (f_stencil f) (f_winNumGhosts f) (f_winData f) (f_winIter f) (f_winIds f) (f_allocs f).
  Definition set_out f v := mkFilter (f_rk f) (f_sz f) (f_ndims f) (f_globalDims f) (f_xmins f) (f_xmaxs f) (f_valid f) (f_dcmp f)
    (f_lo f) (f_hi f) (f_mit f) (f_inData f) v (f_stencil f) (f_winNumGhosts f) (f_winData f) (f_winIter f) (f_winIds f) (f_allocs f).
  Definition set_ghosts f g := mkFilter (f_rk f) (f_sz f) (f_ndims f) (f_globalDims f) (f_xmins f) (f_xmaxs f) (f_valid f) (f_dcmp f)
    (f_lo f) (f_hi f) (f_mit f) (f_inData f) (f_outData f) (f_stencil f) g (f_winData f) (f_winIter f) (f_winIds f) (f_allocs f).
  Definition set_win f wd wi := mkFilter (f_rk f) (f_sz f) (f_ndims f) (f_globalDims f) (f_xmins f) (f_xmaxs f) (f_valid f) (f_dcmp f)
    (f_lo f) (f_hi f) (f_mit f) (f_inData f) (f_outData f) (f_stencil f) (f_winNumGhosts f) wd wi (f_winIds f) (f_allocs f).
  Definition set_ids f ids al := mkFilter (f_rk f) (f_sz f) (f_ndims f) (f_globalDims f) (f_xmins f) (f_xmaxs f) (f_valid f) (f_dcmp f)
    (f_lo f) (f_hi f) (f_mit f) (f_inData f) (f_outData f) (f_stencil f) (f_winNumGhosts f) (f_winData f) (f_winIter f) ids al.

  (** The iterator over the sub-domain; scalar members of a default constructed one are indeterminate. *)
  Definition get_mit f : res mai := match f_mit f with Some m => Ok m | None => Undef UninitRead end.

  (** getNumberOfNonZeroElements, Filter.cpp:545-554 *)
  Definition filter_getNumberOfNonZeroElements (v : list Z) : Z :=
    fold_left (fun res x => if negb (x =? 0) then u64 (res + 1) else res) v 0.

  (** getSideFromOffset, Filter.cpp:89-101: [- offset[i]/std::abs(offset[i])] *)
  Definition filter_getSideFromOffset f (offset : list Z) : res (list Z) :=
    tabulate (f_ndims f) (fun i =>
      o <- vget offset i ;;
      if negb (o =? 0) then n <- int_op (- o) ;; a <- int_op (Z.abs o) ;; sdiv n a else Ok 0).

  (** getNumberOfGhostsFromOffset, Filter.cpp:275-283 *)
  Definition filter_getNumberOfGhostsFromOffset (offset : list Z) : res Z :=
    for_each offset (fun o numGhosts =>
      a <- int_op (Z.abs o) ;; let absOffset := u64 a in
      Ok (if numGhosts <? absOffset then absOffset else numGhosts)) 0.

  (** getWindowIter, Filter.cpp:285-318.  The local variable n, never used, is left out (its computation
      is in size_t and reads hi[i], lo[i], side[i] only). *)
  Definition filter_getWindowIter f (rk : Z) (side : list Z) : res (mai * filter D) :=
    ' (sLo, c) <- cd_getBegIndices (f_dcmp f) rk ;;
    ' (sHi, c) <- cd_getEndIndices c rk ;;
    let numGhosts := match omap_find lexcmp side (f_winNumGhosts f) with Some n => n | None => 0 end in
    ' (sLo, sHi) <- for_upto (f_ndims f) (fun i '(sLo, sHi) =>
        s <- vget side i ;;
        if negb (s =? 0) then
          if s <? 0 then l <- vget sLo i ;; sHi' <- vset sHi i (u64 (l + numGhosts)) ;; Ok (sLo, sHi')
          else h <- vget sHi i ;; sLo' <- vset sLo i (u64 (h - numGhosts)) ;; Ok (sLo', sHi)
        else
          _ <- vget (f_hi f) i ;; _ <- vget (f_lo f) i ;; Ok (sLo, sHi)) (sLo, sHi) ;;
    m <- mai_build sLo sHi false ;;
    Ok (m, set_dcmp f c).

  (** newWindow, Filter.cpp:320-340.  std::map::insert does not replace: when the side is already known,
      the buffers and window just created are lost.  [sizeof(double)*n] with a negative int n is a huge
      size_t. *)
  Definition filter_newWindow f (side : list Z) : res (filter D) :=
    ' (sit, f) <- filter_getWindowIter f (f_rk f) side ;;
    let n := i32 (mai_getNumberOfTerms sit) in
    if n <? 0 then Undef BadAlloc
    else
      let id := vlen (f_allocs f) in
      let buf := repeat (@None D) (Z.to_nat n) in
      let f := set_win f (omap_insert lexcmp side (buf, buf) (f_winData f)) (omap_insert lexcmp side sit (f_winIter f)) in
      Ok (set_ids f (omap_insert lexcmp side (id, id + 1, id + 2) (f_winIds f))
                  (f_allocs f ++ [id; id + 1; id + 2])).

  (** Constructor, Filter.cpp:11-78, on rank [rk] of [sz].  [std::vector::resize] fills with 0.0. *)
  Definition filter_new (rk sz : Z) (globalDims : list Z) (xmins xmaxs : list D) (stencil : list (list Z * D)) : res (filter D) :=
    ' (valid, dcmp) <- cd_build cd_empty sz globalDims ;;
    let f := mkFilter rk sz (vlen globalDims) globalDims xmins xmaxs valid dcmp [] [] None [] [] [] [] [] [] [] [] in
    if negb valid then Ok f
    else
      ' (lo, dcmp) <- cd_getBegIndices dcmp rk ;;
      ' (hi, dcmp) <- cd_getEndIndices dcmp rk ;;
      mit <- mai_build lo hi false ;;
      let zeros := repeat (a_zero ar) (Z.to_nat (mai_getNumberOfTerms mit)) in
      let f := mkFilter rk sz (vlen globalDims) globalDims xmins xmaxs valid dcmp lo hi (Some mit) zeros zeros stencil [] [] [] [] [] in
      for_each stencil (fun (it : list Z * D) f =>
        let offset := fst it in
        if filter_getNumberOfNonZeroElements offset =? 0 then Ok f
        else
          side <- filter_getSideFromOffset f offset ;;
          numGhosts <- filter_getNumberOfGhostsFromOffset offset ;;
          let f := set_ghosts f (omap_insert lexcmp side numGhosts (f_winNumGhosts f)) in
          filter_newWindow f side) f.

  (** isDecompValid, getRank, getNumProcs, Filter.cpp:265-273, 540-543 *)
  Definition filter_isDecompValid f : bool := f_valid f.
  Definition filter_getRank f : Z := f_rk f.
  Definition filter_getNumProcs f : Z := f_sz f.

  (** getPosition, Filter.cpp:103-112 *)
  Definition filter_getPosition f (globalInds : list Z) : res (list D) :=
    tabulate (f_ndims f) (fun i =>
      xmax <- vget (f_xmaxs f) i ;; xmin <- vget (f_xmins f) i ;; g <- vget (f_globalDims f) i ;;
      let delta := a_div ar (a_sub ar xmax xmin) (a_ofZ ar g) in
      k <- vget globalInds i ;;
      Ok (a_add ar xmin (a_mul ar (a_add ar (a_ofZ ar k) (a_dec ar 5 1)) delta))).

  (** Copy of the border layers of [data] into the source buffers, Filter.cpp:143-158, 172-187, 447-462 *)
  Definition filter_publish (data : list D) f : res (filter D) :=
    mit <- get_mit f ;;
    for_each (map fst (f_winData f)) (fun side f =>
      ' (src, dst) <- omap_at lexcmp side (f_winData f) ;;
      wit <- omap_at lexcmp side (f_winIter f) ;;
      let wit := mai_begin wit in
      ' (wit, src) <- for_upto (mai_getNumberOfTerms wit) (fun i '(wit, src) =>
          inds <- mai_getIndices wit ;;
          bi <- mai_computeBigIndex mit inds ;;
          x <- vget data bi ;;
          src' <- vset src i (Some x) ;;
          Ok (mai_next wit, src')) (wit, src) ;;
      Ok (set_win f (omap_set lexcmp side (src, dst) (f_winData f)) (omap_set lexcmp side wit (f_winIter f)))) f.

  (** setInData, Filter.cpp:131-159 *)
  Definition filter_setInData f (g : list D -> D) : res (filter D) :=
    mit <- get_mit f ;;
    let mit := mai_begin mit in
    ' (mit, inData) <- for_upto (mai_getNumberOfTerms mit) (fun i '(mit, inData) =>
        inds <- mai_getIndices mit ;;
        pos <- filter_getPosition f inds ;;
        inData' <- vset inData i (g pos) ;;
        Ok (mai_next mit, inData')) (mit, f_inData f) ;;
    filter_publish inData (set_in (set_mit f mit) inData).

  (** setInDataByIndices, Filter.cpp:161-188 *)
  Definition filter_setInDataByIndices f (g : list Z -> D) : res (filter D) :=
    mit <- get_mit f ;;
    let mit := mai_begin mit in
    ' (mit, inData) <- for_upto (mai_getNumberOfTerms mit) (fun i '(mit, inData) =>
        inds <- mai_getIndices mit ;;
        inData' <- vset inData i (g inds) ;;
        Ok (mai_next mit, inData')) (mit, f_inData f) ;;
    filter_publish inData (set_in (set_mit f mit) inData).

  (** copyOutToIn, Filter.cpp:440-463 *)
  Definition filter_copyOutToIn f : res (filter D) :=
    mit <- get_mit f ;;
    inData <- for_upto (mai_getNumberOfTerms mit) (fun i inData =>
        x <- vget (f_outData f) i ;; vset inData i x) (f_inData f) ;;
    filter_publish (f_outData f) (set_in f inData).

  (** fetch, Filter.cpp:114-129; [remote rk side] is the content of the window of [side] exposed by [rk].
      MPI_Get copies n elements from the start of the remote window to the start of dstData. *)
  Definition filter_fetch (remote : Z -> list Z -> res (list (option D))) f (otherRank : Z) (side : list Z)
      : res (list (option D) * filter D) :=
    wit <- omap_at lexcmp side (f_winIter f) ;;
    let n := i32 (mai_getNumberOfTerms wit) in
    _ <- omap_at lexcmp side (f_winIds f) ;;
    ' (src, dst) <- omap_at lexcmp side (f_winData f) ;;
    if n <? 0 then Undef BadAlloc
    else if negb ((0 <=? otherRank) && (otherRank <? f_sz f)) then Undef MpiBadRank
    else
      data <- remote otherRank side ;;
      if vlen data <? n then Undef MpiBadRange
      else if vlen dst <? n then Undef OobWrite
      else
        let dst' := firstn (Z.to_nat n) data ++ skipn (Z.to_nat n) dst in
        Ok (dst', set_win f (omap_set lexcmp side (src, dst') (f_winData f)) (f_winIter f)).

  (** The offset index set of a cell and the test, Filter.cpp:231-245.  (int) + int is an int; [%=] with
      a size_t right operand converts the int to size_t, and the remainder back to int. *)
  Definition filter_offsetIndices f (inds offset : list Z) : res (list Z * bool) :=
    for_upto (f_ndims f) (fun j '(indOffset, inside) =>
      x <- vget inds j ;; o <- vget offset j ;;
      s <- int_op (i32 x + o) ;;
      g <- vget (f_globalDims f) j ;;
      r <- umod (u64 s) g ;;
      let k := i32 r in
      l <- vget (f_lo f) j ;; h <- vget (f_hi f) j ;;
      Ok (indOffset ++ [k], inside && (i32 l <=? k) && (k <? i32 h))) ([], true).

  (** Reading an element of a buffer. *)
  Definition rd (buf : list (option D)) (i : Z) : res D :=
    x <- vget buf i ;; match x with Some d => Ok d | None => Undef UninitRead end.

  (** The loop over the cells for one branch, Filter.cpp:224-261.  [dstData = None] is the null pointer. *)
  Definition filter_accumulate f (wit : mai) (dstData : option (list (option D))) (offset : list Z) (val : D) : res (filter D) :=
    mit <- get_mit f ;;
    let mit := mai_begin mit in
    ' (mit, outData) <- for_upto (mai_getNumberOfTerms mit) (fun i '(mit, outData) =>
        inds <- mai_getIndices mit ;;
        ' (indOffset, inside) <- filter_offsetIndices f inds offset ;;
        outData' <-
          (if inside : bool then
             bi2 <- mai_computeBigIndex_int mit indOffset ;;
             x <- vget (f_inData f) (u64 bi2) ;;
             o <- vget outData i ;; vset outData i (a_add ar o (a_mul ar val x))
           else match dstData with
                | Some dst =>
                    bi2 <- mai_computeBigIndex_int wit indOffset ;;
                    x <- rd dst (u64 bi2) ;;
                    o <- vget outData i ;; vset outData i (a_add ar o (a_mul ar val x))
                | None => Ok outData
                end) ;;
        Ok (mai_next mit, outData')) (mit, f_outData f) ;;
    Ok (set_out (set_mit f mit) outData).

  (** Body of the loop over the stencil's branches, Filter.cpp:202-262 *)
  Definition filter_branch remote f (it : list Z * D) : res (filter D) :=
    let (offset, val) := it in
    side <- filter_getSideFromOffset f offset ;;
    ' (neighborRk, c) <- cd_getNeighborRank (f_dcmp f) (f_rk f) offset ;;
    ' (wit, f) <- filter_getWindowIter (set_dcmp f c) neighborRk side ;;
    ' (dstData, f) <-
      match omap_find lexcmp side (f_winIds f) with
      | Some _ => ' (d, f) <- filter_fetch remote f neighborRk side ;; Ok (Some d, f)
      | None => Ok (None, f)
      end ;;
    filter_accumulate f wit dstData offset val.

  (** Filter.cpp:194-199 *)
  Definition filter_zeroOut f : res (filter D) :=
    mit <- get_mit f ;;
    ' (mit, outData) <- for_upto (mai_getNumberOfTerms mit) (fun i '(mit, outData) =>
        outData' <- vset outData i (a_zero ar) ;; Ok (mai_next mit, outData')) (mai_begin mit, f_outData f) ;;
    Ok (set_out (set_mit f mit) outData).

  (** applyFilter, Filter.cpp:191-263 *)
  Definition filter_applyFilter remote f : res (filter D) :=
    f <- filter_zeroOut f ;;
    for_each (f_stencil f) (fun it f => filter_branch remote f it) f.

  (** computeCheckSum up to the call of MPI_Reduce, Filter.cpp:466-482: the local sum *)
  Definition filter_localSum f (input : bool) : res (D * filter D) :=
    mit <- get_mit f ;;
    ' (mit, s) <- for_upto (mai_getNumberOfTerms mit) (fun i '(mit, s) =>
        x <- vget (if input then f_inData f else f_outData f) i ;;
        Ok (mai_next mit, a_add ar s x)) (mai_begin mit, a_zero ar) ;;
    Ok (s, set_mit f mit).

  (** printInData / printOutData, Filter.cpp:404-438: the (index set, value) pairs printed *)
  Definition filter_print f (input : bool) : res (list (list Z * D) * filter D) :=
    mit <- get_mit f ;;
    ' (mit, ls) <- for_upto (mai_getNumberOfTerms mit) (fun i '(mit, ls) =>
        inds <- mai_getIndices mit ;;
        x <- vget (if input then f_inData f else f_outData f) i ;;
        Ok (mai_next mit, ls ++ [(inds, x)])) (mai_begin mit, []) ;;
    Ok (ls, set_mit f mit).

  (** The first part of saveVTK, executed by every rank, Filter.cpp:488-505: arguments of MPI_Gather.
      [&v.front()] on an empty vector is undefined. *)
  Definition filter_saveVTK_send f : res (list D) :=
    ntot <- for_upto (f_ndims f) (fun i n => g <- vget (f_globalDims f) i ;; Ok (u64 (n * g))) 1 ;;
    if vlen (f_outData f) =? 0 then Undef EmptyFront
    else if f_rk f =? 0 then (if ntot =? 0 then Undef EmptyFront else Ok (f_outData f))
    else Undef EmptyFront.

  (** The rest of saveVTK on rank 0, Filter.cpp:507-537, [recvBuffer] having been filled by MPI_Gather:
      the field given to writeVTK *)
  Definition filter_saveVTK_root (recvBuffer : list D) f : res (list D * filter D) :=
    ntot <- for_upto (f_ndims f) (fun i n => g <- vget (f_globalDims f) i ;; Ok (u64 (n * g))) 1 ;;
    let nLocal := i32 (vlen (f_outData f)) in
    globalIt <- mai_build (repeat 0 (Z.to_nat (f_ndims f))) (f_globalDims f) false ;;
    mit <- get_mit f ;;
    ' (c, mit, globalField) <- for_upto (f_sz f) (fun rk '(c, mit, globalField) =>
        ' (begInds, c) <- cd_getBegIndices c rk ;;
        ' (mit, globalField) <- for_upto (mai_getNumberOfTerms mit) (fun iLocal '(mit, globalField) =>
            localInds <- mai_getIndices mit ;;
            globalInds <- tabulate (f_ndims f) (fun i => b <- vget begInds i ;; l <- vget localInds i ;; Ok (u64 (b + l))) ;;
            globalBigIndex <- mai_computeBigIndex globalIt globalInds ;;
            q <- int_op (rk * nLocal) ;;
            x <- vget recvBuffer (u64 (u64 q + iLocal)) ;;
            globalField' <- vset globalField globalBigIndex x ;;
            Ok (mai_next mit, globalField')) (mai_begin mit, globalField) ;;
        Ok (c, mit, globalField)) (f_dcmp f, mit, repeat (a_zero ar) (Z.to_nat ntot)) ;;
    Ok (globalField, set_mit (set_dcmp f c) mit).

  (** Releasing a resource that is not live is undefined. *)
  Definition release (live : list Z) (id : Z) : res (list Z) :=
    if existsb (Z.eqb id) live then Ok (remove Z.eq_dec id live) else Undef DoubleFree.

  (** Destructor with deleteWindow, Filter.cpp:80-87, 342-356: the resources still live afterwards *)
  Definition filter_delete f : res (list Z) :=
    for_each (f_winIds f) (fun (w : list Z * (Z * Z * Z)) live =>
      let side := fst w in
      live <- match omap_find lexcmp side (f_winIds f) with
              | Some (src, dst, _) => live <- release live src ;; release live dst
              | None => Ok live
              end ;;
      match omap_find lexcmp side (f_winIds f) with
      | Some (_, _, win) => release live win
      | None => Ok live
      end) (f_allocs f).

  (** ** All ranks together *)

  Definition world := list (filter D).

  (** The constructor on every rank of a communicator of [sz] ranks. *)
  Definition world_new (sz : Z) (globalDims : list Z) (xmins xmaxs : list D) (stencil : list (list Z * D)) : res world :=
    tabulate sz (fun rk => filter_new rk sz globalDims xmins xmaxs stencil).

  (** What MPI_Get from rank [rk] finds in the window of [side]. *)
  Definition world_remote (w : world) (rk : Z) (side : list Z) : res (list (option D)) :=
    g <- vget w rk ;; ' (src, _) <- omap_at lexcmp side (f_winData g) ;; Ok src.

  Definition world_apply (w : world) : res world := mapM (filter_applyFilter (world_remote w)) w.
  Definition world_setInData (w : world) (g : list D -> D) : res world := mapM (fun f => filter_setInData f g) w.
  Definition world_setInDataByIndices (w : world) (g : list Z -> D) : res world := mapM (fun f => filter_setInDataByIndices f g) w.
  Definition world_copyOutToIn (w : world) : res world := mapM filter_copyOutToIn w.

  (** The contributions of the ranks to MPI_Reduce in computeCheckSum. *)
  Definition world_localSums (w : world) (input : bool) : res (list D) :=
    mapM (fun f => ' (s, _) <- filter_localSum f input ;; Ok s) w.

  (** MPI_Gather: the receive buffer of rank 0 when all ranks send the same number of elements. *)
  Definition world_gather (w : world) : list D := concat (map f_outData w).

  (** The field assembled by saveVTK on rank 0. *)
  Definition world_saveVTK (w : world) : res (list D) :=
    f <- vget w 0 ;; ' (g, _) <- filter_saveVTK_root (world_gather w) f ;; Ok g.
End Filter.
