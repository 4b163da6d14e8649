(** * Property C70: what the MPI programs print and write, rank by rank *)
From Coq Require Import Reals Lra ZArith Lia Floats.SpecFloat.
From Verif Require Import Cpp CppProof OMap MaiModel MaiSpec Radix MaiProof CdModel CdSpec CdProof CdProps CmdModel CmdSpec CmdProof CmdProps
  FilterModel FilterSpec FilterProps LapModel LapSpec LapProof LapProps UpMpiModel UpMpiSpec UpMpiProps VtkModel VtkSpec VtkProps Double DblSpec DblProof DblField DblSten UmDblProps
  DrvSpec DrvProps NumModel NumSpec NumProof NumProps TextModel TextSpec TextProof TextRun TextProps FileProps MpiTextModel MpiTextSpec MpiTextProof.
From Coq Require Import List.
Import ListNotations.
Local Open Scope list_scope.
Local Open Scope string_scope.
Local Open Scope Z_scope.
Local Arguments prodZ : simpl never.
Local Arguments Z.of_nat : simpl never.

Lemma vtk_args_ok {D} dims (x0 x1 : D) : grid_ok dims -> (List.length dims <= 3)%nat ->
  vtk_args dims (repeat x0 (List.length dims)) (repeat x1 (List.length dims)).
Proof.
  intros (_ & _ & Hpos & Hp) H3. split; [exact H3|]. rewrite !repeat_length. split; [reflexivity|]. split; [reflexivity|]. split; [exact Hpos|].
  assert (P : forall j, (j < List.length dims)%nat -> 0 < nth j dims 0) by exact Hpos.
  destruct dims as [|a [|b [|c [|? ?]]]]; [| | | |simpl in H3; lia]; unfold file_dims, pad3; cbn [nth map]; rewrite prod3; rewrite ?prodZ_cons in Hp; change (prodZ []) with 1 in Hp.
  - reflexivity.
  - pose proof (P 0%nat ltac:(simpl; lia)). cbn [nth] in *. nia.
  - pose proof (P 0%nat ltac:(simpl; lia)). pose proof (P 1%nat ltac:(simpl; lia)). cbn [nth] in *.
    assert ((a + 1) * (b + 1) <= 4 * (a * b)) by nia. nia.
  - pose proof (P 0%nat ltac:(simpl; lia)). pose proof (P 1%nat ltac:(simpl; lia)). pose proof (P 2%nat ltac:(simpl; lia)). cbn [nth] in *.
    assert ((a + 1) * (b + 1) <= 4 * (a * b)) by nia.
    assert ((a + 1) * (b + 1) * (c + 1) <= 4 * (a * b) * (2 * c)) by (apply Z.mul_le_mono_nonneg; nia). nia.
Qed.

Section Programs.
  Context {D : Type} (ar : arith D) (show : D -> string) (reduce : nat -> list D -> D) (times : D * D * D) (atof : string -> D).
  Notation times_of sz := (times_line (show (fst (fst times))) (show (snd (fst times))) (show (a_div ar (snd times) (a_ofZ ar sz)))).

  (** The files of rank 0 *)
  Lemma save_ok dims filename field : grid_ok dims -> (List.length dims <= 3)%nat -> vlen field = prodZ dims ->
    let x0 := repeat (a_dec ar 0 1) (List.length dims) in let x1 := repeat (a_dec ar 10 1) (List.length dims) in
    exists file, writeVTK ar dims x0 x1 field = Ok (Some file) /\ vf_values file = field /\
      forall rk, save_text ar show rk filename dims x0 x1 (Some field) = Ok ("", if rk =? 0 then [(filename, grid_text show "outData" file)] else []).
  Proof.
    intros Hg H3 Hf x0 x1. destruct (C53_file ar dims x0 x1 field (vtk_args_ok dims _ _ Hg H3) ltac:(lia)) as (file & E & _ & _ & _ & _ & _ & _ & _ & Ev).
    exists file. split; [exact E|]. split; [rewrite Ev, <- Hf; unfold vlen; rewrite Nat2Z.id; apply firstn_all|].
    intros rk. unfold save_text, writeVTK_text. rewrite E. cbn [bind]. destruct (rk =? 0); reflexivity.
  Qed.

  (** ** upwindMpi *)
  Definition um_history : list (action D) := [APurpose "Purpose: benchmark finite difference operations.";
    ASetInt "-numCells" 128 "Number of cells along each axis"; ASetInt "-numSteps" 10 "Number of time steps";
    ASetBool "-vtk" false "Write output to VTK file"].

  Lemma um_parse sz exec args n k :
    readable ["-numCells"; "-numSteps"] args -> int_option args "-numCells" 128 n -> int_option args "-numSteps" 10 k ->
    let ones := repeat (a_dec ar 10 1) 3 in let dims := repeat (u64 n) 3 in
    (known um_options args -> flag args "-h" = false ->
       um_program ar show reduce times atof sz (exec :: args) =
       (result <- um_body ar ones ones sz n k (flag args "-vtk") ;;
        mapM (fun rk =>
          ' (_, out, err) <- ctor_text rk sz dims ;;
          match result with
          | None => Ok (mkRun ("" ++ out) (err ++ root rk ("Decomposition is invalid" ++ newline)) [] 0)
          | Some r =>
              ' (warning, files) <- save_text ar show rk "upMpi.vtk" dims (repeat (a_dec ar 0 1) 3) ones (um_vtk r) ;;
              Ok (mkRun ("" ++ out ++ root rk (iters_text show reduce 0 (um_sums r) ++ announce "upMpi.vtk" (um_vtk r) ++ times_text ar show times sz ++
                           "Check sum: " ++ show (reduce (2 * List.length (um_sums r))%nat (um_final r)) ++ newline))
                        (err ++ warning) files 0)
          end) (map Z.of_nat (seq 0 (Z.to_nat sz))))) /\
    (known um_options args -> flag args "-h" = true ->
       um_program ar show reduce times atof sz (exec :: args) =
       Ok (repeat (mkRun (usage exec [numCells_line (show_int n); numSteps_line (show_int k); h_line true; vtk_line (flag args "-vtk")]) "" [] 0) (Z.to_nat sz))) /\
    (forall a, first_unknown um_options args a ->
       um_program ar show reduce times atof sz (exec :: args) =
       Ok (map (fun rk => mkRun (a ++ " is not a valid option." ++ line_end ++ usage exec [numCells_line "128"; numSteps_line "10"; h_line false; vtk_line false])
                 (root rk ("ERROR when parsing command line arguments" ++ line_end)) [] 0) (map Z.of_nat (seq 0 (Z.to_nat sz))))).
  Proof.
    intros Hrd Hn Hk ones dims. unfold um_program. cbv zeta.
    match goal with |- context [clap_parse atof ?q] => set (p := q) end.
    destruct (parse_state atof um_history p exec args ["-numCells"; "-numSteps"] um_options (pick n k) eq_refl eq_refl eq_refl eq_refl) as (HK & HU).
    { intros a. split.
      - intros [<-|[<-|[<-|[<-|[]]]]]; [exists KBool|exists KInt|exists KInt|exists KBool]; simpl; tauto.
      - intros ([| | |] & H); simpl in H |- *; tauto. }
    { exact Hrd. }
    { intros key v [E|[E|[]]]; injection E as <- <-; assumption. }
    cbn [tl]. split; [|split].
    - intros K Fh. destruct (HK K) as (-> & ->). cbn [bind].
      change (clap_getBool (given p exec args (pick n k)) "-h") with (xorb false (flag args "-h")).
      change (clap_getBool (given p exec args (pick n k)) "-vtk") with (xorb false (flag args "-vtk")).
      change (clap_getInt (given p exec args (pick n k)) "-numCells") with n.
      change (clap_getInt (given p exec args (pick n k)) "-numSteps") with k.
      rewrite !xorb_false_l, Fh. reflexivity.
    - intros K Fh. destruct (HK K) as (-> & ->). cbn [bind].
      change (clap_getBool (given p exec args (pick n k)) "-h") with (xorb false (flag args "-h")).
      rewrite Fh. cbn [negb andb xorb]. unfold refuse.
      assert (E : help_text show (given p exec args (pick n k)) =
        Ok (usage exec [numCells_line (show_int n); numSteps_line (show_int k); h_line (flag args "-h"); vtk_line (flag args "-vtk")])).
      { unfold help_text. change (clap_help (given p exec args (pick n k))) with
          (Ok ("Purpose: benchmark finite difference operations.", exec,
               [@HInt D "-numCells" "Number of cells along each axis" n; HInt "-numSteps" "Number of time steps" k;
                HBool "-h" "Print help." (xorb false (flag args "-h"));
                HBool "-vtk" "Write output to VTK file" (xorb false (flag args "-vtk"))], newline ++ "Report bugs to alexander@gokliya.net" ++ newline)).
        rewrite !xorb_false_l. cbn [bind map help_line_text]. apply f_equal.
        unfold usage, numCells_line, numSteps_line, h_line, vtk_line. cbn [fold_right]. flat. }
      rewrite E. cbn [bind]. rewrite Fh, ranks_all. reflexivity.
    - intros a Ha. destruct (HU a Ha) as (-> & ->). cbn [bind andb]. unfold refuse.
      assert (E : help_text show (refused p exec) =
        Ok (usage exec [numCells_line "128"; numSteps_line "10"; h_line false; vtk_line false])).
      { unfold help_text. change (clap_help (refused p exec)) with
          (Ok ("Purpose: benchmark finite difference operations.", exec,
               [@HInt D "-numCells" "Number of cells along each axis" 128; HInt "-numSteps" "Number of time steps" 10;
                HBool "-h" "Print help." false;
                HBool "-vtk" "Write output to VTK file" false], newline ++ "Report bugs to alexander@gokliya.net" ++ newline)).
        cbn [bind map help_line_text]. apply f_equal.
        unfold usage, numCells_line, numSteps_line, h_line, vtk_line. cbn [fold_right].
        change (show_int 128) with "128". change (show_int 10) with "10". flat. }
      rewrite E. cbn [bind]. apply f_equal. apply map_ext. intros rk. f_equal. flat.
  Qed.

  Theorem C70_upwindMpi_help sz exec args n k :
    readable ["-numCells"; "-numSteps"] args -> int_option args "-numCells" 128 n -> int_option args "-numSteps" 10 k ->
    (known um_options args -> flag args "-h" = true ->
       um_program ar show reduce times atof sz (exec :: args) =
       Ok (repeat (mkRun (usage exec [numCells_line (show_int n); numSteps_line (show_int k); h_line true; vtk_line (flag args "-vtk")]) "" [] 0) (Z.to_nat sz))) /\
    (forall a, 1 <= sz -> first_unknown um_options args a ->
       let out := a ++ " is not a valid option." ++ line_end ++ usage exec [numCells_line "128"; numSteps_line "10"; h_line false; vtk_line false] in
       um_program ar show reduce times atof sz (exec :: args) =
       Ok (mkRun out ("ERROR when parsing command line arguments" ++ line_end) [] 0 :: repeat (mkRun out "" [] 0) (Z.to_nat sz - 1))).
  Proof.
    intros Hrd Hn Hk. destruct (um_parse sz exec args n k Hrd Hn Hk) as (_ & H1 & H2). split; [exact H1|].
    intros a Hs Ha out. rewrite (H2 a Ha). apply f_equal. apply ranks_first; [exact Hs|reflexivity|].
    intros rk Hr. unfold root. destruct (Z.eqb_spec rk 0); [lia|reflexivity].
  Qed.

  Theorem C70_upwindMpi_run sz exec args n k :
    readable ["-numCells"; "-numSteps"] args -> int_option args "-numCells" 128 n -> int_option args "-numSteps" 10 k ->
    known um_options args -> flag args "-h" = false -> grid_ok [n; n; n] -> 1 <= sz <= 2 ^ 30 ->
    let ones := repeat (a_dec ar 10 1) 3 in
    (decomposable sz [n; n; n] -> (n | 2 ^ 64) -> 0 <= k < 2 ^ 31 ->
       exists r parts files, um_body ar ones ones sz n k (flag args "-vtk") = Ok (Some r) /\ is_decomp sz [n; n; n] parts /\
         (if flag args "-vtk" then exists field file, um_vtk r = Some field /\
            writeVTK ar [n; n; n] (repeat (a_dec ar 0 1) 3) ones field = Ok (Some file) /\ vf_values file = field /\
            files = [("upMpi.vtk", grid_text show "outData" file)]
          else files = []) /\
         um_program ar show reduce times atof sz (exec :: args) =
         Ok (only_root sz (mkRun
           (decomp_report (show_int sz) (repeat (show_int n) 3) (map show_int parts) ++
            iter_lines 0 (map (fun s => (show (reduce (2 * fst s)%nat (fst (snd s))), show (reduce (2 * fst s + 1)%nat (snd (snd s)))))
                              (combine (seq 0 (Z.to_nat k)) (um_sums r))) ++
            file_line (flag args "-vtk") "upMpi.vtk" ++ times_of sz ++
            "Check sum: " ++ show (reduce (2 * Z.to_nat k)%nat (um_final r)) ++ line_end) "" files 0))) /\
    (~ decomposable sz [n; n; n] ->
       um_program ar show reduce times atof sz (exec :: args) = Ok (only_root sz (mkRun "" no_decomp_report [] 0))).
  Proof.
    intros Hrd Hn Hk K Fh Hg Hs ones. destruct (um_parse sz exec args n k Hrd Hn Hk) as (H0 & _). rewrite (H0 K Fh). clear H0. fold ones.
    assert (Hmr : 0 < n < 2 ^ 31).
    { pose proof Hg as (_ & _ & P & Q). pose proof (P 0%nat ltac:(simpl; lia)). rewrite prod3 in Q. cbn [nth] in *. nia. }
    rewrite (u64_id n) by (unfold two64; lia). change (repeat n 3) with [n; n; n]. split.
    - intros Hd Hm Hkr.
      destruct (C49_driver_field D ar ones ones sz n (Z.to_nat k) (flag args "-vtk") eq_refl eq_refl Hg Hs Hd Hm ltac:(rewrite Z2Nat.id by lia; lia))
        as (deltas & signs & dt & st & r & _ & _ & _ & Er & _ & _ & Esum & _ & Evtk & _). cbv zeta in *. rewrite Z2Nat.id in Er by lia.
      assert (Lsum : List.length (um_sums r) = Z.to_nat k) by (rewrite Esum, map_length, seq_length; reflexivity).
      destruct (ctor_text_valid sz [n; n; n] Hg Hs Hd) as (parts & Hp & Ec).
      assert (HV : exists files, (if flag args "-vtk" then exists field file, um_vtk r = Some field /\
            writeVTK ar [n; n; n] (repeat (a_dec ar 0 1) 3) ones field = Ok (Some file) /\ vf_values file = field /\
            files = [("upMpi.vtk", grid_text show "outData" file)]
          else files = []) /\
          forall rk, save_text ar show rk "upMpi.vtk" [n; n; n] (repeat (a_dec ar 0 1) 3) ones (um_vtk r) = Ok ("", if rk =? 0 then files else [])).
      { rewrite Evtk. destruct (flag args "-vtk").
        - match goal with |- context [Some ?f = Some _] => set (field := f) in * end.
          destruct (save_ok [n; n; n] "upMpi.vtk" field Hg ltac:(simpl; lia)) as (file & E1 & E2 & E3).
          { unfold field, vlen. rewrite map_length. change (col_major [0; 0; 0] [n; n; n]) with (nested_loops false [0; 0; 0] [n; n; n]).
            rewrite nested_loops_length; [unfold extents; cbn [combine map fst snd]; rewrite !Z.sub_0_r; reflexivity|reflexivity|].
            intros [|[|[|j]]] Hj; [cbn; lia..|cbn in Hj; lia]. }
          exists [("upMpi.vtk", grid_text show "outData" file)]. split; [exists field, file; auto|exact E3].
        - exists []. split; [reflexivity|]. intros rk. cbn [save_text]. destruct (rk =? 0); reflexivity. }
      destruct HV as (files & HV & Es). exists r, parts, files. split; [exact Er|]. split; [exact Hp|]. split; [exact HV|].
      rewrite Er. cbn [bind]. erewrite per_rank; [|intros rk _; rewrite Ec; cbn [bind]; rewrite Es; cbn [bind]; reflexivity].
      apply f_equal. apply ranks_root; [lia| |].
      + cbn [Z.eqb root]. rewrite iters_lines, times_eq, Lsum. unfold announce, file_line. rewrite Evtk. f_equal.
        change (append "" ?x) with x. f_equal. f_equal. destruct (flag args "-vtk"); reflexivity.
      + intros rk Hr. unfold root. destruct (Z.eqb_spec rk 0); [lia|]. reflexivity.
    - intros Hd. rewrite (C49_driver_invalid D ar ones ones sz n k (flag args "-vtk") eq_refl eq_refl Hg Hs Hd). cbn [bind].
      erewrite per_rank; [|intros rk _; rewrite (ctor_text_invalid rk sz _ Hg Hs Hd); cbn [bind]; reflexivity].
      apply f_equal. apply ranks_root; [lia|reflexivity|]. intros rk Hr. unfold root. destruct (Z.eqb_spec rk 0); [lia|]. reflexivity.
  Qed.

  (** ** laplacian *)
  Definition lap_history : list (action D) := [APurpose "Purpose: benchmark finite difference operations.";
    ASetInt "-numCells" 8000 "Number of cells along each axis"; ASetInt "-numDims" 2 "Number of dimensions";
    ASetBool "-vtk" false "Write output to VTK file"].

  Lemma lap_parse dsin m_pi sz exec args n k :
    readable ["-numCells"; "-numDims"] args -> int_option args "-numCells" 8000 n -> int_option args "-numDims" 2 k ->
    let nd := Z.to_nat (u64 k) in let dims := repeat (u64 n) nd in
    (known lap_options args -> flag args "-h" = false ->
       lap_program ar show reduce times atof dsin m_pi sz (exec :: args) =
       (result <- lap_body ar dsin m_pi sz n k 10 (flag args "-vtk") ;;
        mapM (fun rk =>
          ' (_, out, err) <- ctor_text rk sz dims ;;
          match result with
          | None => Ok (mkRun ("" ++ out) (err ++ root rk ("Decomposition is invalid" ++ newline)) [] 0)
          | Some r =>
              ' (warning, files) <- save_text ar show rk "laplacian.vtk" dims (repeat (a_dec ar 0 1) nd) (repeat (a_dec ar 10 1) nd) (lr_vtk r) ;;
              Ok (mkRun ("" ++ out ++ root rk (announce "laplacian.vtk" (lr_vtk r) ++ "Laplace" ++ times_text ar show times sz ++
                           "Check sums: input = " ++ show (reduce 0%nat (lr_in r)) ++ " output = " ++ show (reduce 1%nat (lr_out r)) ++ newline))
                        (err ++ warning) files 0)
          end) (map Z.of_nat (seq 0 (Z.to_nat sz))))) /\
    (known lap_options args -> flag args "-h" = true ->
       lap_program ar show reduce times atof dsin m_pi sz (exec :: args) =
       Ok (repeat (mkRun (usage exec [numCells_line (show_int n); numDims_line (show_int k); h_line true; vtk_line (flag args "-vtk")]) "" [] 0) (Z.to_nat sz))) /\
    (forall a, first_unknown lap_options args a ->
       lap_program ar show reduce times atof dsin m_pi sz (exec :: args) =
       Ok (map (fun rk => mkRun (a ++ " is not a valid option." ++ line_end ++ usage exec [numCells_line "8000"; numDims_line "2"; h_line false; vtk_line false])
                 (root rk ("ERROR when parsing command line arguments" ++ line_end)) [] 0) (map Z.of_nat (seq 0 (Z.to_nat sz))))).
  Proof.
    intros Hrd Hn Hk nd dims. unfold lap_program. cbv zeta.
    match goal with |- context [clap_parse atof ?q] => set (p := q) end.
    destruct (parse_state atof lap_history p exec args ["-numCells"; "-numDims"] lap_options (pick n k) eq_refl eq_refl eq_refl eq_refl) as (HK & HU).
    { intros a. split.
      - intros [<-|[<-|[<-|[<-|[]]]]]; [exists KBool|exists KInt|exists KInt|exists KBool]; simpl; tauto.
      - intros ([| | |] & H); simpl in H |- *; tauto. }
    { exact Hrd. }
    { intros key v [E|[E|[]]]; injection E as <- <-; assumption. }
    cbn [tl]. split; [|split].
    - intros K Fh. destruct (HK K) as (-> & ->). cbn [bind].
      change (clap_getBool (given p exec args (pick n k)) "-h") with (xorb false (flag args "-h")).
      change (clap_getBool (given p exec args (pick n k)) "-vtk") with (xorb false (flag args "-vtk")).
      change (clap_getInt (given p exec args (pick n k)) "-numCells") with n.
      change (clap_getInt (given p exec args (pick n k)) "-numDims") with k.
      rewrite !xorb_false_l, Fh. reflexivity.
    - intros K Fh. destruct (HK K) as (-> & ->). cbn [bind].
      change (clap_getBool (given p exec args (pick n k)) "-h") with (xorb false (flag args "-h")).
      rewrite Fh. cbn [negb andb xorb]. unfold refuse.
      assert (E : help_text show (given p exec args (pick n k)) =
        Ok (usage exec [numCells_line (show_int n); numDims_line (show_int k); h_line (flag args "-h"); vtk_line (flag args "-vtk")])).
      { unfold help_text. change (clap_help (given p exec args (pick n k))) with
          (Ok ("Purpose: benchmark finite difference operations.", exec,
               [@HInt D "-numCells" "Number of cells along each axis" n; HInt "-numDims" "Number of dimensions" k;
                HBool "-h" "Print help." (xorb false (flag args "-h"));
                HBool "-vtk" "Write output to VTK file" (xorb false (flag args "-vtk"))], newline ++ "Report bugs to alexander@gokliya.net" ++ newline)).
        rewrite !xorb_false_l. cbn [bind map help_line_text]. apply f_equal.
        unfold usage, numCells_line, numDims_line, h_line, vtk_line. cbn [fold_right]. flat. }
      rewrite E. cbn [bind]. rewrite Fh, ranks_all. reflexivity.
    - intros a Ha. destruct (HU a Ha) as (-> & ->). cbn [bind andb]. unfold refuse.
      assert (E : help_text show (refused p exec) =
        Ok (usage exec [numCells_line "8000"; numDims_line "2"; h_line false; vtk_line false])).
      { unfold help_text. change (clap_help (refused p exec)) with
          (Ok ("Purpose: benchmark finite difference operations.", exec,
               [@HInt D "-numCells" "Number of cells along each axis" 8000; HInt "-numDims" "Number of dimensions" 2;
                HBool "-h" "Print help." false;
                HBool "-vtk" "Write output to VTK file" false], newline ++ "Report bugs to alexander@gokliya.net" ++ newline)).
        cbn [bind map help_line_text]. apply f_equal.
        unfold usage, numCells_line, numDims_line, h_line, vtk_line. cbn [fold_right].
        change (show_int 8000) with "8000". change (show_int 2) with "2". flat. }
      rewrite E. cbn [bind]. apply f_equal. apply map_ext. intros rk. f_equal. flat.
  Qed.

  Theorem C70_laplacian_help dsin m_pi sz exec args n k :
    readable ["-numCells"; "-numDims"] args -> int_option args "-numCells" 8000 n -> int_option args "-numDims" 2 k ->
    (known lap_options args -> flag args "-h" = true ->
       lap_program ar show reduce times atof dsin m_pi sz (exec :: args) =
       Ok (repeat (mkRun (usage exec [numCells_line (show_int n); numDims_line (show_int k); h_line true; vtk_line (flag args "-vtk")]) "" [] 0) (Z.to_nat sz))) /\
    (forall a, 1 <= sz -> first_unknown lap_options args a ->
       let out := a ++ " is not a valid option." ++ line_end ++ usage exec [numCells_line "8000"; numDims_line "2"; h_line false; vtk_line false] in
       lap_program ar show reduce times atof dsin m_pi sz (exec :: args) =
       Ok (mkRun out ("ERROR when parsing command line arguments" ++ line_end) [] 0 :: repeat (mkRun out "" [] 0) (Z.to_nat sz - 1))).
  Proof.
    intros Hrd Hn Hk. destruct (lap_parse dsin m_pi sz exec args n k Hrd Hn Hk) as (_ & H1 & H2). split; [exact H1|].
    intros a Hs Ha out. rewrite (H2 a Ha). apply f_equal. apply ranks_first; [exact Hs|reflexivity|].
    intros rk Hr. unfold root. destruct (Z.eqb_spec rk 0); [lia|reflexivity].
  Qed.

  Theorem C70_laplacian_run dsin m_pi sz exec args n nd :
    readable ["-numCells"; "-numDims"] args -> int_option args "-numCells" 8000 n -> int_option args "-numDims" 2 nd ->
    known lap_options args -> flag args "-h" = false ->
    let d := Z.to_nat nd in let dims := repeat n d in
    0 <= nd -> grid_ok dims -> 1 <= sz <= 2 ^ 30 ->
    (decomposable sz dims -> (n | 2 ^ 64) ->
       exists r parts warning files, lap_body ar dsin m_pi sz n nd 10 (flag args "-vtk") = Ok (Some r) /\ lr_out r = lr_in r /\ is_decomp sz dims parts /\
         (if flag args "-vtk" then
            if nd <=? 3 then exists field file, lr_vtk r = Some field /\
              writeVTK ar dims (repeat (a_dec ar 0 1) d) (repeat (a_dec ar 10 1) d) field = Ok (Some file) /\ vf_values file = field /\
              warning = "" /\ files = [("laplacian.vtk", grid_text show "outData" file)]
            else warning = "WARNING: writeVTK does not support more than 3 dimensions" ++ line_end /\ files = []
          else warning = "" /\ files = []) /\
         lap_program ar show reduce times atof dsin m_pi sz (exec :: args) =
         Ok (only_root sz (mkRun
           (decomp_report (show_int sz) (repeat (show_int n) d) (map show_int parts) ++
            file_line (flag args "-vtk") "laplacian.vtk" ++ "Laplace" ++ times_of sz ++
            "Check sums: input = " ++ show (reduce 0%nat (lr_in r)) ++ " output = " ++ show (reduce 1%nat (lr_in r)) ++ line_end) warning files 0))) /\
    (~ decomposable sz dims ->
       lap_program ar show reduce times atof dsin m_pi sz (exec :: args) = Ok (only_root sz (mkRun "" no_decomp_report [] 0))).
  Proof.
    intros Hrd Hn Hk K Fh d dims Hnd Hg Hs. destruct (lap_parse dsin m_pi sz exec args n nd Hrd Hn Hk) as (H0 & _). rewrite (H0 K Fh). clear H0.
    destruct (square_nd n d Hg) as (Hd32 & Hmr).
    assert (End : Z.of_nat d = nd) by (unfold d; apply Z2Nat.id; lia).
    rewrite (u64_id n) by (unfold two64; lia). rewrite (u64_id nd) by (unfold two64; lia). fold d. fold dims. split.
    - intros Hd Hm.
      destruct (C39_driver_field D ar dsin m_pi sz n d 10 (flag args "-vtk") Hg Hs Hd Hm) as (st & r & _ & Er & _ & _ & _ & _ & Eio & _ & Evtk). cbv zeta in *.
      rewrite End in Er. specialize (Eio ltac:(lia)).
      destruct (ctor_text_valid sz dims Hg Hs Hd) as (parts & Hp & Ec).
      assert (HV : exists warning files, (if flag args "-vtk" then
            if nd <=? 3 then exists field file, lr_vtk r = Some field /\
              writeVTK ar dims (repeat (a_dec ar 0 1) d) (repeat (a_dec ar 10 1) d) field = Ok (Some file) /\ vf_values file = field /\
              warning = "" /\ files = [("laplacian.vtk", grid_text show "outData" file)]
            else warning = "WARNING: writeVTK does not support more than 3 dimensions" ++ line_end /\ files = []
          else warning = "" /\ files = []) /\
          forall rk, save_text ar show rk "laplacian.vtk" dims (repeat (a_dec ar 0 1) d) (repeat (a_dec ar 10 1) d) (lr_vtk r) =
            Ok (if rk =? 0 then warning else "", if rk =? 0 then files else [])).
      { assert (Ld : List.length dims = d) by (unfold dims; apply repeat_length). rewrite Evtk. destruct (flag args "-vtk").
        - match goal with |- context [Some ?f = Some _] => set (field := f) in * end. destruct (Z.leb_spec nd 3).
          + destruct (save_ok dims "laplacian.vtk" field Hg ltac:(lia)) as (file & E1 & E2 & E3).
            { unfold field, vlen. rewrite map_length. fold dims. change (col_major (repeat 0 d) dims) with (nested_loops false (repeat 0 d) dims).
              rewrite nested_loops_length; [|rewrite repeat_length; lia|].
              - unfold dims. clear. f_equal. unfold extents. induction d as [|e IH]; [reflexivity|]. cbn [repeat combine map fst snd]. rewrite IH, Z.sub_0_r. reflexivity.
              - intros j Hj. rewrite nth_repeat. rewrite repeat_length in Hj. destruct Hg as (_ & _ & P & _). specialize (P j ltac:(lia)). lia. }
            rewrite Ld in E1, E3. exists "", [("laplacian.vtk", grid_text show "outData" file)]. split; [exists field, file; auto|].
            intros rk. rewrite E3. destruct (rk =? 0); reflexivity.
          + exists ("WARNING: writeVTK does not support more than 3 dimensions" ++ line_end), []. split; [auto|].
            intros rk. unfold save_text, writeVTK_text. rewrite C53_more_axes by lia. cbn [bind]. destruct (rk =? 0); reflexivity.
        - exists "", []. split; [auto|]. intros rk. cbn [save_text]. destruct (rk =? 0); reflexivity. }
      destruct HV as (warning & files & HV & Es). exists r, parts, warning, files. split; [exact Er|]. split; [exact Eio|]. split; [exact Hp|]. split; [exact HV|].
      rewrite Er. cbn [bind]. erewrite per_rank; [|intros rk _; rewrite Ec; cbn [bind]; rewrite Es; cbn [bind]; reflexivity].
      apply f_equal. apply ranks_root; [lia| |].
      + cbn [Z.eqb root]. rewrite times_eq, Eio. unfold announce, file_line. rewrite Evtk. unfold dims. rewrite map_repeat. f_equal.
        change (append "" ?x) with x. f_equal. destruct (flag args "-vtk"); reflexivity.
      + intros rk Hr. unfold root. destruct (Z.eqb_spec rk 0); [lia|]. reflexivity.
    - intros Hd. rewrite <- End. rewrite (C39_driver_invalid D ar dsin m_pi sz n d 10 (flag args "-vtk") Hg Hs Hd). cbn [bind].
      erewrite per_rank; [|intros rk _; rewrite (ctor_text_invalid rk sz _ Hg Hs Hd); cbn [bind]; reflexivity].
      apply f_equal. apply ranks_root; [lia|reflexivity|]. intros rk Hr. unfold root. destruct (Z.eqb_spec rk 0); [lia|]. reflexivity.
  Qed.

  (** ** testStencil2d *)
  Definition st2_history : list (action D) := [APurpose "Purpose: benchmark finite difference operations.";
    ASetInt "-numCells" 8 "Number of cells along each axis"; ASetBool "-vtk" false "Write output to VTK file"].

  Lemma st2_parse sz exec args n :
    readable ["-numCells"] args -> int_option args "-numCells" 8 n ->
    let dims := repeat (u64 n) 2 in
    (known st2_options args -> flag args "-h" = false ->
       st2_program ar show atof sz (exec :: args) =
       (' (lines, vtk) <- st2_body ar sz n (flag args "-vtk") ;;
        mapM (fun rk =>
          ' (valid, out, err) <- ctor_text rk sz dims ;;
          ls <- vget lines rk ;;
          ' (warning, files) <- save_text ar show rk "stencil2d.vtk" dims (repeat (a_dec ar 0 1) 2) (repeat (a_dec ar 10 1) 2) vtk ;;
          Ok (mkRun ("" ++ out ++ root rk (announce "stencil2d.vtk" vtk))
                    (err ++ (if valid : bool then "" else root rk ("Decomposition is invalid" ++ newline)) ++ outData_text show rk ls ++ warning) files 0))
          (map Z.of_nat (seq 0 (Z.to_nat sz))))) /\
    (known st2_options args -> flag args "-h" = true ->
       st2_program ar show atof sz (exec :: args) =
       Ok (repeat (mkRun (usage exec [numCells_line (show_int n); h_line true; vtk_line (flag args "-vtk")]) "" [] 0) (Z.to_nat sz))) /\
    (forall a, first_unknown st2_options args a ->
       st2_program ar show atof sz (exec :: args) =
       Ok (map (fun rk => mkRun (a ++ " is not a valid option." ++ line_end ++ usage exec [numCells_line "8"; h_line false; vtk_line false])
                 (root rk ("ERROR when parsing command line arguments" ++ line_end)) [] 0) (map Z.of_nat (seq 0 (Z.to_nat sz))))).
  Proof.
    intros Hrd Hn dims. unfold st2_program. cbv zeta.
    match goal with |- context [clap_parse atof ?q] => set (p := q) end.
    destruct (parse_state atof st2_history p exec args ["-numCells"] st2_options (fun _ => n) eq_refl eq_refl eq_refl eq_refl) as (HK & HU).
    { intros a. split.
      - intros [<-|[<-|[<-|[]]]]; [exists KBool|exists KInt|exists KBool]; simpl; tauto.
      - intros ([| | |] & H); simpl in H |- *; tauto. }
    { exact Hrd. }
    { intros key v [E|[]]; injection E as <- <-; assumption. }
    cbn [tl]. split; [|split].
    - intros K Fh. destruct (HK K) as (-> & ->). cbn [bind].
      change (clap_getBool (given p exec args (fun _ => n)) "-h") with (xorb false (flag args "-h")).
      change (clap_getBool (given p exec args (fun _ => n)) "-vtk") with (xorb false (flag args "-vtk")).
      change (clap_getInt (given p exec args (fun _ => n)) "-numCells") with n.
      rewrite !xorb_false_l, Fh. reflexivity.
    - intros K Fh. destruct (HK K) as (-> & ->). cbn [bind].
      change (clap_getBool (given p exec args (fun _ => n)) "-h") with (xorb false (flag args "-h")).
      rewrite Fh. cbn [negb andb xorb]. unfold refuse.
      assert (E : help_text show (given p exec args (fun _ => n)) =
        Ok (usage exec [numCells_line (show_int n); h_line (flag args "-h"); vtk_line (flag args "-vtk")])).
      { unfold help_text. change (clap_help (given p exec args (fun _ => n))) with
          (Ok ("Purpose: benchmark finite difference operations.", exec,
               [@HInt D "-numCells" "Number of cells along each axis" n;
                HBool "-h" "Print help." (xorb false (flag args "-h"));
                HBool "-vtk" "Write output to VTK file" (xorb false (flag args "-vtk"))], newline ++ "Report bugs to alexander@gokliya.net" ++ newline)).
        rewrite !xorb_false_l. cbn [bind map help_line_text]. apply f_equal.
        unfold usage, numCells_line, h_line, vtk_line. cbn [fold_right]. flat. }
      rewrite E. cbn [bind]. rewrite Fh, ranks_all. reflexivity.
    - intros a Ha. destruct (HU a Ha) as (-> & ->). cbn [bind andb]. unfold refuse.
      assert (E : help_text show (refused p exec) =
        Ok (usage exec [numCells_line "8"; h_line false; vtk_line false])).
      { unfold help_text. change (clap_help (refused p exec)) with
          (Ok ("Purpose: benchmark finite difference operations.", exec,
               [@HInt D "-numCells" "Number of cells along each axis" 8;
                HBool "-h" "Print help." false;
                HBool "-vtk" "Write output to VTK file" false], newline ++ "Report bugs to alexander@gokliya.net" ++ newline)).
        cbn [bind map help_line_text]. apply f_equal.
        unfold usage, numCells_line, h_line, vtk_line. cbn [fold_right].
        change (show_int 8) with "8". flat. }
      rewrite E. cbn [bind]. apply f_equal. apply map_ext. intros rk. f_equal. flat.
  Qed.

  Theorem C70_testStencil2d_help sz exec args n :
    readable ["-numCells"] args -> int_option args "-numCells" 8 n ->
    (known st2_options args -> flag args "-h" = true ->
       st2_program ar show atof sz (exec :: args) =
       Ok (repeat (mkRun (usage exec [numCells_line (show_int n); h_line true; vtk_line (flag args "-vtk")]) "" [] 0) (Z.to_nat sz))) /\
    (forall a, 1 <= sz -> first_unknown st2_options args a ->
       let out := a ++ " is not a valid option." ++ line_end ++ usage exec [numCells_line "8"; h_line false; vtk_line false] in
       st2_program ar show atof sz (exec :: args) =
       Ok (mkRun out ("ERROR when parsing command line arguments" ++ line_end) [] 0 :: repeat (mkRun out "" [] 0) (Z.to_nat sz - 1))).
  Proof.
    intros Hrd Hn. destruct (st2_parse sz exec args n Hrd Hn) as (_ & H1 & H2). split; [exact H1|].
    intros a Hs Ha out. rewrite (H2 a Ha). apply f_equal. apply ranks_first; [exact Hs|reflexivity|].
    intros rk Hr. unfold root. destruct (Z.eqb_spec rk 0); [lia|reflexivity].
  Qed.

  Theorem C70_testStencil2d_run sz exec args n :
    readable ["-numCells"] args -> int_option args "-numCells" 8 n ->
    known st2_options args -> flag args "-h" = false -> grid_ok [n; n] -> 1 <= sz <= 2 ^ 30 ->
    let F g := a_add ar (a_add ar (a_add ar (a_zero ar)
        (a_mul ar (a_neg ar (a_dec ar 10 1)) (edge_field ar (wrap [n; n] (shift g [0; -1])))))
        (a_mul ar (a_dec ar 0 1) (edge_field ar (wrap [n; n] (shift g [0; 0])))))
        (a_mul ar (a_dec ar 10 1) (edge_field ar (wrap [n; n] (shift g [1; 0])))) in
    (decomposable sz [n; n] -> (n | 2 ^ 64) ->
       exists boxes parts files, tiling [n; n] boxes /\ List.length boxes = Z.to_nat sz /\ is_decomp sz [n; n] parts /\
         (if flag args "-vtk" then exists file,
            writeVTK ar [n; n] (repeat (a_dec ar 0 1) 2) (repeat (a_dec ar 10 1) 2) (map F (col_major [0; 0] [n; n])) = Ok (Some file) /\
            files = [("stencil2d.vtk", grid_text show "outData" file)]
          else files = []) /\
         exists runs, st2_program ar show atof sz (exec :: args) = Ok runs /\ List.length runs = Z.to_nat sz /\
           forall rk lo hi, nth_error boxes rk = Some (lo, hi) -> nth_error runs rk = Some (mkRun
             (match rk with O => decomp_report (show_int sz) (repeat (show_int n) 2) (map show_int parts) ++ file_line (flag args "-vtk") "stencil2d.vtk" | _ => "" end)
             ("[" ++ show_int (Z.of_nat rk) ++ "] outData: " ++ line_end ++
              cell_lines (show_int (Z.of_nat rk)) (map (fun g => (map show_int g, show (F g))) (col_major lo hi)))
             (match rk with O => files | _ => [] end) 0)) /\
    (~ decomposable sz [n; n] -> st2_program ar show atof sz (exec :: args) = Undef UninitRead).
  Proof.
    intros Hrd Hn K Fh Hg Hs F. destruct (st2_parse sz exec args n Hrd Hn) as (H0 & _). rewrite (H0 K Fh). clear H0.
    destruct (square_nd n 2 Hg) as (_ & Hmr). rewrite (u64_id n) by (unfold two64; lia). change (repeat n 2) with [n; n]. split.
    - intros Hd Hm. destruct (C57_testStencil2d D ar sz n (flag args "-vtk") Hg Hs Hd Hm) as (pieces & Hdis & Lp & E). fold F in Hdis, E.
      destruct (ctor_text_valid sz [n; n] Hg Hs Hd) as (parts & Hp & Ec).
      assert (HV : exists files, (if flag args "-vtk" then exists file,
            writeVTK ar [n; n] (repeat (a_dec ar 0 1) 2) (repeat (a_dec ar 10 1) 2) (map F (col_major [0; 0] [n; n])) = Ok (Some file) /\
            files = [("stencil2d.vtk", grid_text show "outData" file)]
          else files = []) /\
          forall rk, save_text ar show rk "stencil2d.vtk" [n; n] (repeat (a_dec ar 0 1) 2) (repeat (a_dec ar 10 1) 2)
            (if flag args "-vtk" then Some (map F (col_major [0; 0] [n; n])) else None) = Ok ("", if rk =? 0 then files else [])).
      { destruct (flag args "-vtk").
        - destruct (save_ok [n; n] "stencil2d.vtk" (map F (col_major [0; 0] [n; n])) Hg ltac:(simpl; lia)) as (file & E1 & E2 & E3).
          { unfold vlen. rewrite map_length. change (col_major [0; 0] [n; n]) with (nested_loops false [0; 0] [n; n]).
            rewrite nested_loops_length; [unfold extents; cbn [combine map fst snd]; rewrite !Z.sub_0_r; reflexivity|reflexivity|].
            intros [|[|j]] Hj; [cbn; lia..|cbn in Hj; lia]. }
          exists [("stencil2d.vtk", grid_text show "outData" file)]. split; [exists file; auto|exact E3].
        - exists []. split; [reflexivity|]. intros rk. cbn [save_text]. destruct (rk =? 0); reflexivity. }
      destruct HV as (files & HV & Es). exists (map fst pieces), parts, files.
      split; [apply Hdis|]. split; [rewrite map_length; exact Lp|]. split; [exact Hp|]. split; [exact HV|].
      rewrite E. cbn [bind].
      set (line := fun p : list Z * list Z * list D => combine (col_major (fst (fst p)) (snd (fst p))) (snd p)).
      set (g := fun rk => mkRun (root rk (decomp_report (show_int sz) (map show_int [n; n]) (map show_int parts)) ++ root rk (announce "stencil2d.vtk" (if flag args "-vtk" then Some (map F (col_major [0; 0] [n; n])) else None)))
        (outData_text show rk (nth (Z.to_nat rk) (map line pieces) []) ++ "") (if rk =? 0 then files else []) 0).
      exists (map g (map Z.of_nat (seq 0 (Z.to_nat sz)))). split; [|split; [rewrite !map_length, seq_length; reflexivity|]].
      + apply per_rank. intros rk Hr. rewrite Ec. cbn [bind].
        assert (L : (Z.to_nat rk < List.length (map line pieces))%nat) by (rewrite map_length, Lp; lia).
        rewrite (nth_ext_vget (map line pieces) rk (nth (Z.to_nat rk) (map line pieces) []) ltac:(lia)) by (apply nth_error_nth'; exact L). cbn [bind].
        rewrite Es. cbn [bind]. reflexivity.
      + intros rk lo hi Hb. rewrite nth_error_map in Hb. destruct (nth_error pieces rk) as [[box data]|] eqn:Ep; [|discriminate].
        cbn [option_map fst] in Hb. injection Hb as ->.
        assert (L : (rk < Z.to_nat sz)%nat) by (rewrite <- Lp; apply nth_error_Some; congruence).
        rewrite !nth_error_map, (nth_error_nth' _ 0%nat) by (rewrite seq_length; exact L). rewrite seq_nth by exact L. cbn [option_map plus]. f_equal. unfold g.
        rewrite Nat2Z.id. rewrite outData_lines, append_nil.
        assert (El : map (fun p : list Z * D => (map show_int (fst p), show (snd p))) (nth rk (map line pieces) []) = map (fun c => (map show_int c, show (F c))) (col_major lo hi)).
        { rewrite (nth_error_nth _ _ _ (map_nth_error line rk pieces Ep)). unfold line. cbn [fst snd].
          rewrite (proj2 Hdis lo hi data (nth_error_In _ _ Ep)). generalize (col_major lo hi). clear. induction l as [|c l IH]; [reflexivity|]. cbn [map combine fst snd]. rewrite IH. reflexivity. }
        rewrite El. unfold root, announce, file_line. destruct rk as [|rk]; [change (Z.of_nat 0 =? 0) with true; destruct (flag args "-vtk"); reflexivity|].
        destruct (Z.eqb_spec (Z.of_nat (S rk)) 0); [lia|]. reflexivity.
    - intros Hd. rewrite (C38_testStencil2d_undefined D ar sz n (flag args "-vtk") Hg Hs Hd). reflexivity.
  Qed.
End Programs.
Print Assumptions C70_upwindMpi_help.
Print Assumptions C70_upwindMpi_run.
Print Assumptions C70_laplacian_help.
Print Assumptions C70_laplacian_run.
Print Assumptions C70_testStencil2d_help.
Print Assumptions C70_testStencil2d_run.

