(** * Model of the driver upwind/cxx/upwindMpi.cxx

    As in LapModel.v the functions describe all the ranks at once.  MPI_Wtime, the time statistics and the text
    written to std::cout/std::cerr are left out; the contributions of the ranks to every check sum are kept.
    The velocities and the lengths, constants of the program, are parameters of [um_body]. *)
From Verif Require Import Cpp CmdModel.
From Coq Require Import List.
From Verif Require Import FilterModel.
Import ListNotations.
Local Open Scope Z_scope.

Section UpMpi.
  Context {D : Type} (ar : arith D).

  (** initialCondition, upwindMpi.cxx:21-27; std::accumulate with an int accumulator over size_t *)
  Definition um_init (inds : list Z) : D :=
    if fold_left (fun acc x => i32 (u64 (u64 acc + x))) inds 0 =? 0 then a_ofZ ar 1 else a_ofZ ar 0.

  (** upwindMpi.cxx:61-72: deltas, signs and time step *)
  Definition um_axes (velocities lengths : list D) (numDims numCells : Z) : res (list D * list Z * D) :=
    for_upto (vlen velocities) (fun j '(deltas, signs, dt) =>
      lj <- vget lengths j ;;
      let dx := a_div ar lj (a_ofZ ar numCells) in
      deltas <- vset deltas j dx ;;
      vj <- vget velocities j ;;
      let val := a_div ar (a_mul ar (a_dec ar 1 1) dx) vj in
      let dt := if a_lt ar val dt then val else dt in
      signs <- vset signs j (if a_lt ar (a_ofZ ar 0) vj then 1 else -1) ;;
      Ok (deltas, signs, dt))
    (repeat (a_dec ar 0 1) (Z.to_nat numDims), repeat 0 (Z.to_nat numDims), a_max ar).

  (** signs[i] * dt * velocities[i] / deltas[i], upwindMpi.cxx:81 and 89 *)
  Definition um_weight (velocities deltas : list D) (signs : list Z) (dt : D) (i : Z) : res D :=
    s <- vget signs i ;;
    v <- vget velocities i ;;
    d <- vget deltas i ;;
    Ok (a_div ar (a_mul ar (a_mul ar (a_ofZ ar s) dt) v) d).

  (** the stencil, upwindMpi.cxx:74-92 *)
  Definition um_stencil (numDims : Z) (velocities deltas : list D) (signs : list Z) (dt : D) : res (list (list Z * D)) :=
    let offset := repeat 0 (Z.to_nat numDims) in
    val <- for_upto (vlen velocities) (fun i val =>
      c <- um_weight velocities deltas signs dt i ;; Ok (a_sub ar val c)) (a_dec ar 10 1) ;;
    let stencil := omap_insert lexcmp offset val [] in
    ' (_, stencil) <- for_upto numDims (fun i '(offset, stencil) =>
      s <- vget signs i ;;
      s <- int_op (- s) ;;
      offset <- vset offset i s ;;
      c <- um_weight velocities deltas signs dt i ;;
      let stencil := omap_insert lexcmp offset c stencil in
      offset <- vset offset i 0 ;;
      Ok (offset, stencil)) (offset, stencil) ;;
    Ok stencil.

  (** The filters at the end, the field saved, the contributions to the input and output check sums of every
      iteration, and those to the final check sum. *)
  Record um_result : Type := mkUm {
    um_world : list (filter D);
    um_vtk : option (list D);
    um_sums : list (list D * list D);
    um_final : list D
  }.

  (** One iteration, upwindMpi.cxx:116-125 *)
  Definition um_step (st : list (filter D) * list (list D * list D)) : res (list (filter D) * list (list D * list D)) :=
    let '(w, sums) := st in
    w <- world_apply ar w ;;
    inSum <- world_localSums ar w true ;;
    outSum <- world_localSums ar w false ;;
    w <- world_copyOutToIn w ;;
    Ok (w, sums ++ [(inSum, outSum)]).

  (** upwindMpi.cxx:50-151; [numCells] and [numSteps] are ints converted to size_t; None: decomposition invalid *)
  Definition um_body (velocities lengths : list D) (sz numCells numSteps : Z) (writeVTK : bool) : res (option um_result) :=
    let numDims := 3 in
    let numCells := u64 numCells in
    let numSteps := u64 numSteps in
    ' (deltas, signs, dt) <- um_axes velocities lengths numDims numCells ;;
    stencil <- um_stencil numDims velocities deltas signs dt ;;
    let globalDims := repeat numCells (Z.to_nat numDims) in
    let xmins := repeat (a_dec ar 0 1) (Z.to_nat numDims) in
    w <- world_new ar sz globalDims xmins lengths stencil ;;
    f <- vget w 0 ;;
    if negb (filter_isDecompValid f) then Ok None
    else
      w <- world_setInDataByIndices w um_init ;;
      ' (w, sums) <- for_upto numSteps (fun _ => um_step) (w, []) ;;
      vtk <- (if writeVTK then g <- world_saveVTK ar w ;; Ok (Some g) else Ok None) ;;
      outSum <- world_localSums ar w false ;;
      Ok (Some (mkUm w vtk sums outSum)).

  (** upwindMpi.cxx:30-164; None: help printed, parse error or invalid decomposition *)
  Definition um_main (atof : string -> D) (sz : Z) (argv : list string) : res (option um_result) :=
    let args := clap_setPurpose clap_new "Purpose: benchmark finite difference operations." in
    let args := clap_setInt args "-numCells" 128 "Number of cells along each axis" in
    let args := clap_setInt args "-numSteps" 10 "Number of time steps" in
    let args := clap_setBool args "-vtk" false "Write output to VTK file" in
    ' (success, args) <- clap_parse atof args argv ;;
    let help := clap_getBool args "-h" in
    if success && negb help then
      um_body (repeat (a_dec ar 10 1) 3) (repeat (a_dec ar 10 1) 3) sz
        (clap_getInt args "-numCells") (clap_getInt args "-numSteps") (clap_getBool args "-vtk")
    else (_ <- clap_help args ;; Ok None).
End UpMpi.
Arguments um_result : clear implicits.
