(** * Properties C67, C68: what the serial programs print and write *)
From Coq Require Import Reals Lra ZArith Lia Floats.SpecFloat.
From Flocq Require Import Core.
From Verif Require Import Cpp CppProof OMap MaiModel MaiSpec Radix MaiProof CmdModel CmdSpec CmdProof CmdProps
  FilterModel FilterSpec UpModel AccModel RealArith UpSpec UpProps AccProps Double DblSpec DblProof DblProps
  DrvModel DrvSpec DrvProps NumModel NumSpec NumProof NumProps TextModel TextSpec TextProof TextRun.
From Coq Require Import List.
Import ListNotations.
Local Open Scope string_scope.
Local Open Scope Z_scope.
Local Open Scope list_scope.
Local Open Scope string_scope.

(** ** C67: standard output, standard error, exit status *)
Ltac flat := change line_end with newline; cbn [texts repeat map append]; repeat (progress (rewrite ?append_assoc, ?append_nil; cbn [append])); reflexivity.

Section Options.
  Context {D : Type} (ar : arith D) (show : D -> string) (dsqrt : D -> D) (atof : string -> D).

  Definition up_history : list (action D) := [APurpose "Purpose: benchmark finite difference operations.";
    ASetInt "-numCells" 128 "Number of cells along each axis"; ASetInt "-numSteps" 10 "Number of time steps";
    ASetBool "-vtk" false "Write output to VTK file"; ASetBool "-std" false "Print out spread of solution"].

  Definition pick (n k : Z) (name : string) : Z := if String.eqb name "-numCells" then n else k.

  Theorem C67_upwind omp exec args n k :
    readable ["-numCells"; "-numSteps"] args ->
    int_option args "-numCells" 128 n -> int_option args "-numSteps" 10 k ->
    (known up_options args -> flag args "-h" = false ->
       up_program ar show omp dsqrt atof (exec :: args) =
       (r <- up_body ar dsqrt n k (flag args "-vtk") (flag args "-std") ;;
        Ok (mkRun (report (option_map (fun t => (show_int (fst t), show_int (snd t))) omp) (show_int (u64 n)) (show_int k)
                          (show (ur_sum r)) (option_map show (ur_std r))) ""
                  (file_text show "up0.vtk" 3 (ur_vtk0 r) ++ file_text show "up1.vtk" 3 (ur_vtk1 r))%list 0))) /\
    (known up_options args -> flag args "-h" = true ->
       up_program ar show omp dsqrt atof (exec :: args) =
       Ok (mkRun (usage exec [numCells_line (show_int n); numSteps_line (show_int k); h_line true;
                              std_line (flag args "-std"); vtk_line (flag args "-vtk")]) "" [] 0)) /\
    (forall a, first_unknown up_options args a ->
       up_program ar show omp dsqrt atof (exec :: args) =
       Ok (mkRun (a ++ " is not a valid option." ++ line_end ++
                  usage exec [numCells_line "128"; numSteps_line "10"; h_line false; std_line false; vtk_line false])
                 ("ERROR when parsing command line arguments" ++ line_end) [] 0)).
  Proof.
    intros Hrd Hn Hk. unfold up_program. cbv zeta.
    match goal with |- context [clap_parse atof ?q] => set (p := q) end.
    destruct (parse_state atof up_history p exec args ["-numCells"; "-numSteps"] up_options (pick n k) eq_refl eq_refl eq_refl eq_refl) as (HK & HU).
    { intros a. split.
      - intros [<-|[<-|[<-|[<-|[<-|[]]]]]]; [exists KBool|exists KInt|exists KInt|exists KBool|exists KBool]; simpl; tauto.
      - intros ([| | |] & H); simpl in H |- *; tauto. }
    { exact Hrd. }
    { intros key v [E|[E|[]]]; injection E as <- <-; assumption. }
    cbn [tl]. split; [|split].
    - intros K Fh. destruct (HK K) as (-> & ->). cbn [bind].
      change (clap_getBool (given p exec args (pick n k)) "-h") with (xorb false (flag args "-h")).
      change (clap_getBool (given p exec args (pick n k)) "-vtk") with (xorb false (flag args "-vtk")).
      change (clap_getBool (given p exec args (pick n k)) "-std") with (xorb false (flag args "-std")).
      change (clap_getInt (given p exec args (pick n k)) "-numCells") with n.
      change (clap_getInt (given p exec args (pick n k)) "-numSteps") with k.
      rewrite !xorb_false_l, Fh. cbn [negb andb].
      destruct (up_body ar dsqrt n k (flag args "-vtk") (flag args "-std")) as [r|]; [|reflexivity]. cbn [bind].
      apply f_equal. f_equal.
      destruct omp as [[t m]|], (ur_std r); unfold report, omp_text, sizes_text, sums_text; cbn [option_map fst snd]; flat.
    - intros K Fh. destruct (HK K) as (-> & ->). cbn [bind].
      change (clap_getBool (given p exec args (pick n k)) "-h") with (xorb false (flag args "-h")).
      rewrite Fh. cbn [negb andb xorb].
      assert (E : help_text show (given p exec args (pick n k)) =
        Ok (usage exec [numCells_line (show_int n); numSteps_line (show_int k); h_line (flag args "-h");
                              std_line (flag args "-std"); vtk_line (flag args "-vtk")])).
      { unfold help_text. change (clap_help (given p exec args (pick n k))) with
          (Ok ("Purpose: benchmark finite difference operations.", exec,
               [@HInt D "-numCells" "Number of cells along each axis" n; HInt "-numSteps" "Number of time steps" k;
                HBool "-h" "Print help." (xorb false (flag args "-h")); HBool "-std" "Print out spread of solution" (xorb false (flag args "-std"));
                HBool "-vtk" "Write output to VTK file" (xorb false (flag args "-vtk"))], newline ++ "Report bugs to alexander@gokliya.net" ++ newline)).
        rewrite !xorb_false_l. cbn [bind map help_line_text]. apply f_equal.
        unfold usage, numCells_line, numSteps_line, h_line, std_line, vtk_line. cbn [fold_right]. flat. }
      rewrite E. cbn [bind]. rewrite Fh. reflexivity.
    - intros a Ha. destruct (HU a Ha) as (-> & ->). cbn [bind andb].
      assert (E : help_text show (refused p exec) =
        Ok (usage exec [numCells_line "128"; numSteps_line "10"; h_line false; std_line false; vtk_line false])).
      { unfold help_text. change (clap_help (refused p exec)) with
          (Ok ("Purpose: benchmark finite difference operations.", exec,
               [@HInt D "-numCells" "Number of cells along each axis" 128; HInt "-numSteps" "Number of time steps" 10;
                HBool "-h" "Print help." false; HBool "-std" "Print out spread of solution" false;
                HBool "-vtk" "Write output to VTK file" false], newline ++ "Report bugs to alexander@gokliya.net" ++ newline)).
        cbn [bind map help_line_text]. apply f_equal.
        unfold usage, numCells_line, numSteps_line, h_line, std_line, vtk_line. cbn [fold_right].
        change (show_int 128) with "128". change (show_int 10) with "10". flat. }
      rewrite E. cbn [bind]. apply f_equal. f_equal. flat.
  Qed.

  (** The accelerator versions; the first one has no option -std *)
  Definition acc_history (ver : acc_version) : list (action D) := ([APurpose "Purpose: benchmark finite difference operations.";
    ASetInt "-numCells" 128 "Number of cells along each axis"; ASetInt "-numSteps" 10 "Number of time steps";
    ASetBool "-vtk" false "Write output to VTK file"] ++
    match ver with Acc1 => [] | _ => [ASetBool "-std" false "Print out spread of solution"] end)%list.

  Theorem C67_upwindAcc ver exec args n k :
    readable ["-numCells"; "-numSteps"] args ->
    int_option args "-numCells" 128 n -> int_option args "-numSteps" 10 k ->
    let std b := match ver with Acc1 => [] | _ => [std_line b] end in
    (known (acc_options ver) args -> flag args "-h" = false ->
       acc_program ar show ver dsqrt atof (exec :: args) =
       (' (_, sum, spread, vtk) <- acc_body ar ver dsqrt n k (flag args "-vtk") (match ver with Acc1 => false | _ => flag args "-std" end) ;;
        Ok (mkRun (report None (show_int n) (show_int k) (show sum) (option_map show spread)) "" (file_text show "up.vtk" 3 vtk) 0))) /\
    (known (acc_options ver) args -> flag args "-h" = true ->
       acc_program ar show ver dsqrt atof (exec :: args) =
       Ok (mkRun (usage exec ([numCells_line (show_int n); numSteps_line (show_int k); h_line true] ++
                              std (flag args "-std") ++ [vtk_line (flag args "-vtk")])%list) "" [] 0)) /\
    (forall a, first_unknown (acc_options ver) args a ->
       acc_program ar show ver dsqrt atof (exec :: args) =
       Ok (mkRun (a ++ " is not a valid option." ++ line_end ++
                  usage exec ([numCells_line "128"; numSteps_line "10"; h_line false] ++ std false ++ [vtk_line false])%list)
                 ("ERROR: wrong command line arguments" ++ line_end) [] 1)).
  Proof.
    intros Hrd Hn Hk std. unfold acc_program. cbv zeta.
    match goal with |- context [clap_parse atof ?q] => set (p := q) end.
    assert (Hh : run_history atof (acc_history ver) = Ok p) by (unfold p; destruct ver; reflexivity).
    assert (Eds : cl_double p = [] /\ cl_string p = [] /\ map fst (cl_int p) = ["-numCells"; "-numSteps"] /\
      cl_int p = [("-numCells", 128); ("-numSteps", 10)]) by (unfold p; destruct ver; repeat split).
    destruct Eds as (E1 & E2 & E3 & E4).
    destruct (parse_state atof (acc_history ver) p exec args ["-numCells"; "-numSteps"] (acc_options ver) (pick n k) Hh E1 E2 E3) as (HK & HU).
    { intros a. unfold p, acc_options, up_options. split.
      - destruct ver; intros H; repeat (destruct H as [<-|H]); try destruct H;
          first [exists KInt; simpl; tauto | exists KBool; simpl; tauto].
      - intros (c & H). destruct ver, c; simpl in H |- *; tauto. }
    { exact Hrd. }
    { rewrite E4. intros key v [E|[E|[]]]; injection E as <- <-; assumption. }
    clear Hh E1 E2 E3 E4.
    assert (Eb : forall b, clap_getBool (given p exec args (pick n k)) "-h" = flag args "-h" /\
      clap_getBool (given p exec args (pick n k)) "-vtk" = flag args "-vtk" /\
      match ver with Acc1 => b | _ => clap_getBool (given p exec args (pick n k)) "-std" end = match ver with Acc1 => b | _ => flag args "-std" end /\
      clap_getInt (given p exec args (pick n k)) "-numCells" = n /\ clap_getInt (given p exec args (pick n k)) "-numSteps" = k).
    { intros b. unfold p. rewrite <- (xorb_false_l (flag args "-h")), <- (xorb_false_l (flag args "-vtk")), <- (xorb_false_l (flag args "-std")).
      destruct ver; repeat split. }
    specialize (Eb false). destruct Eb as (Eh & Ev & Es & En & Ek).
    cbn [tl]. split; [|split].
    - intros K Fh. destruct (HK K) as (-> & ->). cbn [bind negb]. rewrite Eh, Ev, Es, En, Ek, Fh.
      destruct (acc_body ar ver dsqrt n k (flag args "-vtk") (match ver with Acc1 => false | _ => flag args "-std" end)) as [[[[a s] t] v]|]; [|reflexivity]. cbn [bind].
      apply f_equal. f_equal.
      destruct t; unfold report, sizes_text, sums_text; cbn [option_map fst snd]; flat.
    - intros K Fh. destruct (HK K) as (-> & ->). cbn [bind negb]. rewrite Eh, Fh.
      assert (E : help_text show (given p exec args (pick n k)) =
        Ok (usage exec ([numCells_line (show_int n); numSteps_line (show_int k); h_line (flag args "-h")] ++
                              std (flag args "-std") ++ [vtk_line (flag args "-vtk")])%list)).
      { unfold help_text.
        assert (E : clap_help (given p exec args (pick n k)) =
          (Ok ("Purpose: benchmark finite difference operations.", exec,
               ([@HInt D "-numCells" "Number of cells along each axis" n; HInt "-numSteps" "Number of time steps" k;
                HBool "-h" "Print help." (xorb false (flag args "-h"))] ++
                match ver with Acc1 => [] | _ => [HBool "-std" "Print out spread of solution" (xorb false (flag args "-std"))] end ++
                [HBool "-vtk" "Write output to VTK file" (xorb false (flag args "-vtk"))])%list, newline ++ "Report bugs to alexander@gokliya.net" ++ newline)))
          by (unfold p; destruct ver; reflexivity).
        rewrite E. rewrite !xorb_false_l. unfold std. unfold usage, numCells_line, numSteps_line, h_line, std_line, vtk_line.
        destruct ver; cbn [app bind map help_line_text fold_right]; apply f_equal; flat. }
      rewrite E. cbn [bind]. rewrite Fh. reflexivity.
    - intros a Ha. destruct (HU a Ha) as (-> & ->). cbn [bind negb].
      assert (E : help_text show (refused p exec) =
        Ok (usage exec ([numCells_line "128"; numSteps_line "10"; h_line false] ++ std false ++ [vtk_line false])%list)).
      { unfold help_text.
        assert (E : clap_help (refused p exec) =
          (Ok ("Purpose: benchmark finite difference operations.", exec,
               ([@HInt D "-numCells" "Number of cells along each axis" 128; HInt "-numSteps" "Number of time steps" 10;
                HBool "-h" "Print help." false] ++
                match ver with Acc1 => [] | _ => [HBool "-std" "Print out spread of solution" false] end ++
                [HBool "-vtk" "Write output to VTK file" false])%list, newline ++ "Report bugs to alexander@gokliya.net" ++ newline)))
          by (unfold p; destruct ver; reflexivity).
        rewrite E. unfold std. unfold usage, numCells_line, numSteps_line, h_line, std_line, vtk_line.
        change "128" with (show_int 128). change "10" with (show_int 10).
        destruct ver; cbn [app bind map help_line_text fold_right]; apply f_equal; flat. }
      rewrite E. cbn [bind]. apply f_equal. f_equal. flat.
  Qed.
End Options.
Print Assumptions C67_upwind.
Print Assumptions C67_upwindAcc.

(** Every command line is one of the three. *)
Theorem C67_cases ints options args : readable ints args ->
  known options args /\ flag args "-h" = false \/ known options args /\ flag args "-h" = true \/ exists a, first_unknown options args a.
Proof.
  intros (H7 & _). destruct (known_or_first options args H7) as [H|H]; [|right; right; exact H].
  destruct (flag args "-h"); [right; left|left]; (split; [exact H|reflexivity]).
Qed.
Print Assumptions C67_cases.

(** *** In double precision the check sum printed is 1 *)
Lemma six_one s : (Rabs (s - 1) < / 2000000)%R -> six_digits s = 1%R.
Proof.
  intros H. apply Rabs_lt_inv in H. unfold six_digits.
  assert (F : generic_format radix10 (FLX_exp 6) 1) by (apply (generic_format_bpow radix10 (FLX_exp 6) 0); vm_compute; discriminate).
  assert (V : Valid_exp (FLX_exp 6)) by (apply FLX_exp_valid; reflexivity).
  apply Rle_antisym.
  - refine (round_N_le_midp radix10 (FLX_exp 6) _ 1 s F _). rewrite succ_eq_pos by lra. change 1%R with (bpow radix10 0) at 3. rewrite ulp_bpow.
    change (FLX_exp 6 (0 + 1)) with (-5). change (bpow radix10 (-5)) with (/ 100000)%R. lra.
  - refine (round_N_ge_midp radix10 (FLX_exp 6) _ 1 s F _). change (pred radix10 (FLX_exp 6) 1) with (pred radix10 (FLX_exp 6) (bpow radix10 0)). rewrite pred_bpow.
    change (FLX_exp 6 0) with (-6). change (bpow radix10 (-6)) with (/ 1000000)%R. change (bpow radix10 0) with 1%R. lra.
Qed.

Lemma show_one x s : double_value x s -> (Rabs (s - 1) < / 2000000)%R -> show_double x = "1".
Proof.
  intros V H. pose proof (six_one s H) as E. apply Rabs_lt_inv in H.
  transitivity (show_double one); [|vm_compute; reflexivity].
  apply (C66_same_text x one s 1 V dv_one); [lra|lra|]. rewrite E. symmetry. apply (six_integer 1). reflexivity.
Qed.

Theorem C67_upwind_report omp dsqrt atof exec args n k :
  readable ["-numCells"; "-numSteps"] args -> int_option args "-numCells" 128 n -> int_option args "-numSteps" 10 k ->
  known up_options args -> flag args "-h" = false -> 1 <= n -> n * n * n < 2 ^ 31 -> 0 <= k <= 2 * 10 ^ 8 ->
  exists spread files, up_program arD show_double omp dsqrt atof (exec :: args) =
    Ok (mkRun (report (option_map (fun t => (show_int (fst t), show_int (snd t))) omp) (show_int n) (show_int k) "1" spread) "" files 0) /\
    (spread <> None <-> flag args "-std" = true) /\
    map fst files = if flag args "-vtk" then ["up0.vtk"; "up1.vtk"] else [].
Proof.
  intros Hrd Hn Hk K Fh H1 H2 H3.
  destruct (C65_six_decimals Acc1 dsqrt n k (flag args "-vtk") (flag args "-std") H1 H2 H3) as (r & s & _ & _ & _ & _ & _ & E & V & _ & _ & B & _).
  destruct (C67_upwind arD show_double dsqrt atof omp exec args n k Hrd Hn Hk) as (G & _). rewrite (G K Fh), E. cbn [bind].
  rewrite (show_one _ _ V B), u64_id by (unfold two64; nia). eexists _, _. split; [reflexivity|].
  unfold up_body in E. apply bind_ok in E as (dt & _ & E). apply bind_ok in E as (u & _ & E). apply bind_ok in E as (v0 & E0 & E).
  apply bind_ok in E as (u' & _ & E). apply bind_ok in E as (t & Et & E). apply bind_ok in E as (v1 & E1 & E). injection E as <-.
  cbn [ur_std ur_vtk0 ur_vtk1]. split.
  - destruct (flag args "-std").
    + apply bind_ok in Et as (w & _ & Et). injection Et as <-. cbn [option_map]. split; [reflexivity|discriminate].
    + injection Et as <-. cbn [option_map]. split; [congruence|discriminate].
  - destruct (flag args "-vtk").
    + apply bind_ok in E0 as (w & _ & E0). injection E0 as <-. apply bind_ok in E1 as (w' & _ & E1). injection E1 as <-. reflexivity.
    + injection E0 as <-. injection E1 as <-. reflexivity.
Qed.
Print Assumptions C67_upwind_report.

Theorem C67_upwindAcc_report ver dsqrt atof exec args n k :
  readable ["-numCells"; "-numSteps"] args -> int_option args "-numCells" 128 n -> int_option args "-numSteps" 10 k ->
  known (acc_options ver) args -> flag args "-h" = false -> 1 <= n -> n * n * n < 2 ^ 31 -> 0 <= k <= 2 * 10 ^ 8 ->
  exists spread files, acc_program arD show_double ver dsqrt atof (exec :: args) =
    Ok (mkRun (report None (show_int n) (show_int k) "1" spread) "" files 0) /\
    (spread <> None <-> ver <> Acc1 /\ flag args "-std" = true) /\
    map fst files = if flag args "-vtk" then ["up.vtk"] else [].
Proof.
  intros Hrd Hn Hk K Fh H1 H2 H3.
  destruct (C65_six_decimals ver dsqrt n k (flag args "-vtk") (match ver with Acc1 => false | _ => flag args "-std" end) H1 H2 H3)
    as (_ & _ & a & x & d & t & s & _ & _ & E & V & _ & B).
  destruct (C67_upwindAcc arD show_double dsqrt atof ver exec args n k Hrd Hn Hk) as (G & _). rewrite (G K Fh), E. cbn [bind].
  rewrite (show_one _ _ V B). eexists _, _. split; [reflexivity|].
  unfold acc_body in E. apply bind_ok in E as (dt & _ & E). apply bind_ok in E as (u & _ & E).
  apply bind_ok in E as (u' & _ & E). apply bind_ok in E as (w & Et & E). apply bind_ok in E as (v1 & E1 & E). injection E as _ _ <- <-.
  split.
  - destruct ver; [|destruct (flag args "-std")..].
    + injection Et as <-. cbn [option_map]. split; [congruence|intros [H _]; congruence].
    + apply bind_ok in Et as (w' & _ & Et). injection Et as <-. cbn [option_map]. split; [split; congruence|discriminate].
    + injection Et as <-. cbn [option_map]. split; [congruence|intros [_ H]; discriminate].
    + apply bind_ok in Et as (w' & _ & Et). injection Et as <-. cbn [option_map]. split; [split; congruence|discriminate].
    + injection Et as <-. cbn [option_map]. split; [congruence|intros [_ H]; discriminate].
  - destruct (flag args "-vtk").
    + apply bind_ok in E1 as (w' & _ & E1). injection E1 as <-. reflexivity.
    + injection E1 as <-. reflexivity.
Qed.
Print Assumptions C67_upwindAcc_report.

(** *** The pattern of the tests *)
Lemma accepts_report threads n k d sum spread : In d ["1"; "|"; "0"; "\"; "."; "9"]%char ->
  ctest_accepts (report threads n k (String d sum) spread).
Proof.
  intros H. unfold report. set (pre := (match threads with Some _ => _ | None => _ end) : string).
  exists (pre ++ "number of cells:  " ++ n ++ " " ++ n ++ " " ++ n ++ line_end ++ "number of time steps: " ++ k ++ line_end),
    "c"%char, " ", d, (sum ++ line_end ++ match spread with Some s => "std      : " ++ s ++ line_end | None => "" end).
  split; [|split; [right; reflexivity|split; [|exact H]]].
  - repeat (progress (rewrite ?append_assoc, ?append_nil; cbn [append])). reflexivity.
  - intros [|i] a E; cbn [String.get] in E; [injection E as <-; reflexivity|destruct i; discriminate].
Qed.

Theorem C67_tests_pass omp ver dsqrt atof exec args n k :
  readable ["-numCells"; "-numSteps"] args -> int_option args "-numCells" 128 n -> int_option args "-numSteps" 10 k ->
  known (acc_options ver) args -> flag args "-h" = false -> 1 <= n -> n * n * n < 2 ^ 31 -> 0 <= k <= 2 * 10 ^ 8 ->
  exists r r', up_program arD show_double omp dsqrt atof (exec :: args) = Ok r /\ ctest_accepts (r_out r) /\
    acc_program arD show_double ver dsqrt atof (exec :: args) = Ok r' /\ ctest_accepts (r_out r').
Proof.
  intros Hrd Hn Hk K Fh H1 H2 H3.
  assert (K' : known up_options args).
  { intros a Ha Hl. specialize (K a Ha Hl). unfold up_options. destruct ver; simpl in K |- *; tauto. }
  destruct (C67_upwind_report omp dsqrt atof exec args n k Hrd Hn Hk K' Fh H1 H2 H3) as (s & f & -> & _).
  destruct (C67_upwindAcc_report ver dsqrt atof exec args n k Hrd Hn Hk K Fh H1 H2 H3) as (s' & f' & -> & _).
  eexists _, _. split; [reflexivity|]. split; [apply accepts_report; simpl; tauto|]. split; [reflexivity|]. apply accepts_report; simpl; tauto.
Qed.
Print Assumptions C67_tests_pass.

(** The pattern does not say that the check sum is 1: the brackets make a set of characters. *)
Theorem C67_pattern_refuted : exists threads n k spread, ctest_accepts (report threads n k "0.5" spread) /\
  ctest_accepts (report threads n k "1.3" spread) /\ ctest_accepts (report threads n k "0" spread).
Proof. exists None, "3", "1", None. split; [|split]; apply accepts_report; simpl; tauto. Qed.
Print Assumptions C67_pattern_refuted.

(** Numbers given without option names, as in the commands of the tests (upwind/cxx/CMakeLists.txt:54-56), are ignored. *)
Theorem C67_bare_numbers omp dsqrt atof exec n k :
  up_program arD show_double omp dsqrt atof [exec; decimal n; decimal k] = up_program arD show_double omp dsqrt atof [exec].
Proof.
  assert (Rd : forall l, (forall a, In a l -> exists z, a = decimal z) -> readable ["-numCells"; "-numSteps"] l /\
    int_option l "-numCells" 128 128 /\ int_option l "-numSteps" 10 10 /\ known up_options l /\
    (forall o, looks_like_option o -> flag l o = false)).
  { intros l Hl.
    assert (Hno : forall o, looks_like_option o -> ~ In o l).
    { intros o Ho Hin. destruct (Hl o Hin) as (z & ->). exact (decimal_not_option z Ho). }
    assert (Hnv : forall o, looks_like_option o -> no_value o l).
    { intros o Ho l1 v l2 E. apply (Hno o Ho). rewrite E. apply in_elt. }
    split; [split|split; [|split; [|split]]].
    - intros a Ha. destruct (Hl a Ha) as (z & ->). apply decimal_ascii7.
    - intros l1 o v l2 E [<-|[<-|[]]]; exfalso; [apply (Hno _ numCells_option)|apply (Hno _ numSteps_option)]; rewrite E; apply in_elt.
    - right. split; [apply Hnv, numCells_option|reflexivity].
    - right. split; [apply Hnv, numSteps_option|reflexivity].
    - intros a Ha Hk. exfalso. exact (Hno a Hk Ha).
    - intros o Ho. unfold flag. rewrite (proj1 (count_occ_not_In string_dec l o)); [reflexivity|exact (Hno o Ho)]. }
  destruct (Rd [decimal n; decimal k]) as (R1 & A1 & B1 & K1 & F1); [intros a [<-|[<-|[]]]; eexists; reflexivity|].
  destruct (Rd []) as (R2 & A2 & B2 & K2 & F2); [intros a []|].
  assert (L : forall c t, ~ is_digit c -> looks_like_option (String "-" (String c t))) by (intros c t Hc; exists c, t; auto).
  assert (Lh : looks_like_option "-h" /\ looks_like_option "-vtk" /\ looks_like_option "-std").
  { repeat split; apply L; unfold is_digit; vm_compute; intros [_ H]; apply H; reflexivity. }
  destruct Lh as (Lh & Lv & Ls).
  destruct (C67_upwind arD show_double dsqrt atof omp exec _ _ _ R1 A1 B1) as (G1 & _). rewrite (G1 K1 (F1 _ Lh)), (F1 _ Lv), (F1 _ Ls).
  destruct (C67_upwind arD show_double dsqrt atof omp exec _ _ _ R2 A2 B2) as (G2 & _). rewrite (G2 K2 (F2 _ Lh)), (F2 _ Lv), (F2 _ Ls). reflexivity.
Qed.
Print Assumptions C67_bare_numbers.

(** ** Examples *)

Example C67_run : up_program arD show_double (Some (4, 8)) (SFsqrt 53 1024) (fun _ => one) ["upwind"; "-numCells"; "3"; "-numSteps"; "2"; "-std"] =
  Ok (mkRun "Running with OpenMP enabled
number of threads: 4 max number of threads: 8
number of cells:  3 3 3
number of time steps: 2
check sum: 1
std      : 0.0987633
" "" [] 0).
Proof. vm_compute. reflexivity. Qed.

Example C67_usage : up_program arD show_double None (SFsqrt 53 1024) (fun _ => one) ["./upwind"; "-h"; "-numSteps"; "7"; "-vtk"] =
  Ok (mkRun "Purpose: benchmark finite difference operations.
./upwind [options]
Usage:
	-numCells <int#> Number of cells along each axis (128)
	-numSteps <int#> Number of time steps (7)
	-h Print help. (1)
	-std Print out spread of solution (0)
	-vtk Write output to VTK file (1)

Report bugs to alexander@gokliya.net

" "" [] 0).
Proof. vm_compute. reflexivity. Qed.

(** The accelerator version fails where upwind does not. *)
Example C67_unknown :
  (r <- acc_program arD show_double Acc2 (SFsqrt 53 1024) (fun _ => one) ["upwindAcc2"; "-numCells"; "3"; "-x"] ;; Ok (String.substring 0 26 (r_out r), r_err r, r_exit r)) =
  Ok ("-x is not a valid option.
", "ERROR: wrong command line arguments
", 1) /\
  (r <- up_program arD show_double None (SFsqrt 53 1024) (fun _ => one) ["upwind"; "-numCells"; "3"; "-x"] ;; Ok (r_err r, r_exit r)) =
  Ok ("ERROR when parsing command line arguments
", 0).
Proof. split; vm_compute; reflexivity. Qed.

(** The hypotheses of [C67_upwind_report] *)
Example C67_hypotheses :
  let args := ["-numCells"; "20"; "-std"; "-numSteps"; "1000"] in
  readable ["-numCells"; "-numSteps"] args /\ int_option args "-numCells" 128 20 /\ int_option args "-numSteps" 10 1000 /\
  known up_options args /\ flag args "-h" = false.
Proof.
  intros args. split; [apply readableb_ok; reflexivity|]. split; [|split; [|split; [|reflexivity]]].
  - left. exists "20". split; [|reflexivity]. exists [], ["-std"; "-numSteps"; "1000"]. split; [reflexivity|].
    intros m1 w m2 E. assert (Hi : In "-numCells" ["20"; "-std"; "-numSteps"; "1000"]) by (rewrite E; apply in_elt). simpl in Hi. intuition discriminate.
  - left. exists "1000". split; [|reflexivity]. exists ["-numCells"; "20"; "-std"], []. split; [reflexivity|].
    intros m1 w m2 E. assert (Hi : In "-numSteps" ["1000"]) by (rewrite E; apply in_elt). simpl in Hi. intuition discriminate.
  - intros a Ha Hl. repeat (destruct Ha as [<-|Ha]; [simpl; tauto || (exfalso; destruct Hl as (c & t & E & _); discriminate)|]). destruct Ha.
Qed.
