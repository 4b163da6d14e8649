(** * Model of the drivers laplacian/cxx/laplacian.cxx and laplacian/cxx/testStencil2d.cxx

    The functions below describe all the ranks at once: every rank parses the same command line and calls
    the same collective functions (lock-step; see MpiSched*.v).  MPI_Wtime, the time statistics and the
    text written to std::cout/std::cerr are left out, except for what printOutData prints.  A std::vector of 2^31
    elements or more is taken to be an allocation failure. *)
From Verif Require Import Cpp CmdModel FilterModel.
Local Open Scope Z_scope.

Section Lap.
  Context {D : Type} (ar : arith D) (dsin : D -> D) (m_pi : D).

  (** func, laplacian.cxx:22-28 and testStencil2d.cxx:22-28 *)
  Definition lap_func (pos : list D) : D :=
    fold_left (fun res x => a_mul ar res (dsin (a_mul ar (a_mul ar (a_dec ar 20 1) m_pi) x))) pos (a_ofZ ar 1).

  (** the stencil, laplacian.cxx:54-65 *)
  Definition lap_stencil (numDims : Z) : res (list (list Z * D)) :=
    let offset := repeat 0 (Z.to_nat numDims) in
    let stencil := omap_insert lexcmp offset (a_mul ar (a_neg ar (a_dec ar 20 1)) (a_ofZ ar numDims)) [] in
    ' (_, stencil) <- for_upto numDims (fun i '(offset, stencil) =>
        offset <- vset offset i 1 ;;
        let stencil := omap_insert lexcmp offset (a_dec ar 10 1) stencil in
        offset <- vset offset i (-1) ;;
        let stencil := omap_insert lexcmp offset (a_dec ar 10 1) stencil in
        offset <- vset offset i 0 ;;
        Ok (offset, stencil)) (offset, stencil) ;;
    Ok stencil.

  (** What the ranks end with: the filters, and the contributions to the two check sums. *)
  Record lap_result : Type := mkLap {
    lr_world : list (filter D);
    lr_vtk : option (list D);
    lr_in : list D;
    lr_out : list D
  }.

  (** laplacian.cxx:50-116, with numIter iterations (10 in the program); None: decomposition invalid *)
  Definition lap_body (sz numCells numDims : Z) (numIter : nat) (writeVTK : bool) : res (option lap_result) :=
    let numCells := u64 numCells in
    let numDims := u64 numDims in
    if two31 <=? numDims then Undef BadAlloc else
    stencil <- lap_stencil numDims ;;
    let globalDims := repeat numCells (Z.to_nat numDims) in
    let xmins := repeat (a_dec ar 0 1) (Z.to_nat numDims) in
    let xmaxs := repeat (a_dec ar 10 1) (Z.to_nat numDims) in
    w <- world_new ar sz globalDims xmins xmaxs stencil ;;
    f <- vget w 0 ;;
    if negb (filter_isDecompValid f) then Ok None
    else
      w <- world_setInData ar w lap_func ;;
      w <- for_upto (Z.of_nat numIter) (fun _ w => w <- world_apply ar w ;; world_copyOutToIn w) w ;;
      vtk <- (if writeVTK then g <- world_saveVTK ar w ;; Ok (Some g) else Ok None) ;;
      inSum <- world_localSums ar w true ;;
      outSum <- world_localSums ar w false ;;
      Ok (Some (mkLap w vtk inSum outSum)).

  (** laplacian.cxx:31-128; None: help printed, parse error or invalid decomposition *)
  Definition lap_main (atof : string -> D) (sz : Z) (argv : list string) : res (option lap_result) :=
    let args := clap_setPurpose clap_new "Purpose: benchmark finite difference operations." in
    let args := clap_setInt args "-numCells" 8000 "Number of cells along each axis" in
    let args := clap_setInt args "-numDims" 2 "Number of dimensions" in
    let args := clap_setBool args "-vtk" false "Write output to VTK file" in
    ' (success, args) <- clap_parse atof args argv ;;
    let help := clap_getBool args "-h" in
    if success && negb help then
      lap_body sz (clap_getInt args "-numCells") (clap_getInt args "-numDims") 10 (clap_getBool args "-vtk")
    else (_ <- clap_help args ;; Ok None).

  (** func for index sets, testStencil2d.cxx:30-38 *)
  Definition st2_func (inds : list Z) : D :=
    if fold_left (fun prod x => u64 (prod * x)) inds 1 =? 0 then a_dec ar 10 1 else a_dec ar 0 1.

  (** the stencil, testStencil2d.cxx:63-75 *)
  Definition st2_stencil : list (list Z * D) :=
    omap_insert lexcmp [0; -1] (a_neg ar (a_dec ar 10 1))
      (omap_insert lexcmp [1; 0] (a_dec ar 10 1)
        (omap_insert lexcmp [0; 0] (a_dec ar 0 1) [])).

  (** testStencil2d.cxx:59-104: the lines printed by every rank, and the field saved *)
  Definition st2_body (sz numCells : Z) (writeVTK : bool) : res (list (list (list Z * D)) * option (list D)) :=
    let numCells := u64 numCells in
    w <- world_new ar sz [numCells; numCells] [a_dec ar 0 1; a_dec ar 0 1] [a_dec ar 10 1; a_dec ar 10 1] st2_stencil ;;
    f <- vget w 0 ;;
    w <- (if filter_isDecompValid f then w <- world_setInDataByIndices w st2_func ;; world_apply ar w else Ok w) ;;
    lines <- mapM (fun f => ' (l, _) <- filter_print f false ;; Ok l) w ;;
    vtk <- (if writeVTK then g <- world_saveVTK ar w ;; Ok (Some g) else Ok None) ;;
    Ok (lines, vtk).
End Lap.
