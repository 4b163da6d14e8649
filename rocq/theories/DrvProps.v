(** * Properties C62, C63: whole programs *)
From Coq Require Import DecimalString Reals.
From Verif Require Import Cpp CppProof OMap MaiModel MaiSpec Radix MaiProof CdModel CdSpec CdProof CdProps CmdModel CmdSpec CmdProof CmdProps
  FilterModel FilterSpec FilterProps LapModel UpModel AccModel UpMpiModel RealArith UpSpec UpProps DrvModel DrvSpec.
From Coq Require Import List.
Import ListNotations.
Local Open Scope Z_scope.
Local Open Scope string_scope.

(** A decision procedure for literal words *)
Fixpoint ascii7b (s : string) : bool := match s with EmptyString => true | String c t => (N_of_ascii c <? 128)%N && ascii7b t end.
Lemma ascii7b_ok s : ascii7b s = true -> ascii7 s.
Proof.
  induction s as [|c t IH]; intros H [|i] d E; try discriminate; cbn [ascii7b] in H; apply andb_prop in H as [H1 H2].
  - inversion E; subst. apply N.ltb_lt, H1.
  - exact (IH H2 i d E).
Qed.

Fixpoint readableb (ints args : list string) : bool :=
  match args with
  | o :: t => (match t with v :: _ => negb (existsb (String.eqb o) ints) || (match c_atoi v with Undef NumRange => false | _ => true end) | [] => true end)
              && readableb ints t
  | [] => true
  end.
Lemma readableb_ok ints args : forallb ascii7b args = true -> readableb ints args = true -> readable ints args.
Proof.
  intros H7 H. split.
  - intros a Ha. rewrite forallb_forall in H7. apply ascii7b_ok, H7, Ha.
  - clear H7. intros l1 o v l2 ->. induction l1 as [|a l1 IH]; intros Ho; cbn [app readableb] in H; apply andb_prop in H as [H1 H2]; [|exact (IH H2 Ho)].
    assert (E : existsb (String.eqb o) ints = true) by (apply existsb_exists; exists o; split; [exact Ho|apply String.eqb_refl]).
    rewrite E in H1. cbn [negb orb] in H1. destruct (c_atoi v) as [|u]; [discriminate|]. destruct u; discriminate.
Qed.

(** ** C62: what a driver does is determined by the command line *)
Section Drive.
  Context {D : Type} (atof : string -> D).

  Lemma drive (hist : list (action D)) p exec args ints options :
    run_history atof hist = Ok p ->
    (forall k n, registered hist k n -> In n options) -> (forall n, In n options -> registered_any hist n) ->
    (forall n, registered hist KInt n <-> In n ints) ->
    clap_getBool p "-h" = false ->
    readable ints args ->
    exists b p' h, clap_parse atof p (exec :: args) = Ok (b, p') /\ clap_help p' = Ok h /\
      (b = true <-> known options args) /\
      (b && negb (clap_getBool p' "-h") = true <-> known options args /\ flag args "-h" = false) /\
      (b = true -> forall name d v, In name ints -> clap_getInt p name = d -> int_option args name d v -> clap_getInt p' name = v) /\
      (b = true -> forall name, registered hist KBool name -> clap_getBool p name = false -> clap_getBool p' name = flag args name).
  Proof.
    intros Hr Ho Ho' Hi Hh (H7 & Hrd).
    destruct (C17_defined atof hist p (exec :: args) Hr ltac:(discriminate) H7) as (b & p' & Hp).
    { intros l1 o v l2 E Hreg. apply (Hrd l1 o v l2 E), Hi, Hreg. }
    exists b, p'. assert (Hr' : run_history atof (hist ++ [AParse (exec :: args)]) = Ok p').
    { unfold run_history in *. rewrite run_app, Hr. cbn [bind for_each act]. rewrite Hp. reflexivity. }
    destruct (C25_help_complete atof (atof "") _ _ Hr') as (pur & ex & lines & foot & Eh & _). exists (pur, ex, lines, foot).
    assert (HB : b = true <-> known options args).
    { rewrite (C17_accepts_iff_registered atof hist p (exec :: args) b p' Hr Hp). cbn [tl]. unfold known. split.
      - intros K a Ha Hl. destruct (K a Ha Hl) as (k & Hk). apply (Ho k), Hk.
      - intros K a Ha Hl. apply Ho', K; assumption. }
    assert (HF : b = true -> forall name, registered hist KBool name -> clap_getBool p name = false -> clap_getBool p' name = flag args name).
    { intros -> name Hreg E. rewrite (C20_flag_parity atof hist p _ p' Hr Hp name Hreg), E, xorb_false_l. reflexivity. }
    split; [exact Hp|]. split; [exact Eh|]. split; [exact HB|]. split; [|split; [|exact HF]].
    - rewrite andb_true_iff, negb_true_iff. rewrite HB. split; intros (K & E); (split; [exact K|]).
      + rewrite <- (HF (proj2 HB K) "-h"); [exact E| |exact Hh]. left. split; reflexivity.
      + rewrite (HF (proj2 HB K) "-h"); [exact E| |exact Hh]. left. split; reflexivity.
    - intros -> name d v Hn Hd [(s & Hs & Ev)|(Hno & ->)].
      + destruct (C19_last_value_wins atof (atof "") hist p _ p' Hr Hp name s Hs) as (_ & G & _).
        specialize (G (proj2 (Hi name) Hn)). congruence.
      + destruct (C19_no_value_keeps_previous atof (atof "") p _ p' Hp name Hno) as (_ & G & _). congruence.
  Qed.
End Drive.

Ltac reg_in := intros k n [(-> & ->)|(a & h & Ha & Hr)]; [simpl; tauto|];
  repeat (destruct Ha as [<-|Ha]; [cbn [registers] in Hr; inversion Hr; subst; simpl; tauto|]); destruct Ha.
Lemma reg_i {D} (hist : list (action D)) n v h : In (ASetInt n v h) hist -> registered hist KInt n.
Proof. intros H. right. exists (ASetInt n v h), h. split; [exact H|reflexivity]. Qed.
Lemma reg_b {D} (hist : list (action D)) n v h : In (ASetBool n v h) hist -> registered hist KBool n.
Proof. intros H. right. exists (ASetBool n v h), h. split; [exact H|reflexivity]. Qed.
Ltac find_in := first [left; reflexivity | right; find_in].
Ltac reg_bool := first [left; split; reflexivity | eapply reg_b; find_in].
Ltac reg_any := let n := fresh in let Hn := fresh in intros n Hn; repeat (destruct Hn as [<-|Hn]; [|]); try destruct Hn;
  first [exists KBool; reg_bool | exists KInt; eapply reg_i; find_in].
Ltac reg_int := intros n; split;
  [intros [(? & ?)|(a & h & Ha & Hr)]; [discriminate|];
   repeat (destruct Ha as [<-|Ha]; [cbn [registers] in Hr; inversion Hr; subst; simpl; tauto|]); destruct Ha
  |let Hn := fresh in intros Hn; repeat (destruct Hn as [<-|Hn]; [eapply reg_i; find_in|]); destruct Hn].

(** upwind.cxx, upwindOMPTasks.cxx *)
Definition up_options := ["-h"; "-numCells"; "-numSteps"; "-vtk"; "-std"].

Theorem C62_upwind {D} (ar : arith D) dsqrt atof exec args nc ns :
  readable ["-numCells"; "-numSteps"] args ->
  int_option args "-numCells" 128 nc -> int_option args "-numSteps" 10 ns ->
  (known up_options args /\ flag args "-h" = false ->
     up_main ar dsqrt atof (exec :: args) =
     (r <- up_body ar dsqrt nc ns (flag args "-vtk") (flag args "-std") ;; Ok (Some r))) /\
  (~ (known up_options args /\ flag args "-h" = false) -> up_main ar dsqrt atof (exec :: args) = Ok None).
Proof.
  intros Hrd Hnc Hns. unfold up_main.
  set (hist := [APurpose "Purpose: benchmark finite difference operations.";
    ASetInt "-numCells" 128 "Number of cells along each axis"; ASetInt "-numSteps" 10 "Number of time steps";
    ASetBool "-vtk" false "Write output to VTK file"; ASetBool "-std" false "Print out spread of solution"] : list (action D)).
  cbv zeta. match goal with |- context [clap_parse atof ?q] => set (p := q) end.
  destruct (drive atof hist p exec args ["-numCells"; "-numSteps"] up_options eq_refl ltac:(reg_in) ltac:(reg_any) ltac:(reg_int) eq_refl Hrd)
    as (b & p' & h & Ep & Eh & HB & HR & HI & HF).
  rewrite Ep. cbn [bind]. split; intros K.
  - rewrite (proj2 HR K). assert (Hb : b = true) by (apply HB, K).
    rewrite (HI Hb "-numCells" 128 nc ltac:(simpl; tauto) eq_refl Hnc), (HI Hb "-numSteps" 10 ns ltac:(simpl; tauto) eq_refl Hns).
    rewrite (HF Hb "-vtk" ltac:(reg_bool) eq_refl), (HF Hb "-std" ltac:(reg_bool) eq_refl). reflexivity.
  - destruct (b && negb (clap_getBool p' "-h")) eqn:E; [exfalso; apply K, HR; reflexivity|]. rewrite Eh. reflexivity.
Qed.
Print Assumptions C62_upwind.

(** upwindAcc.cxx, upwindAcc2.cxx, upwindOMP5.cxx: the first has no option -std *)
Definition acc_options (ver : acc_version) := match ver with Acc1 => ["-h"; "-numCells"; "-numSteps"; "-vtk"] | _ => up_options end.

Theorem C62_upwindAcc {D} (ar : arith D) ver dsqrt atof exec args nc ns :
  readable ["-numCells"; "-numSteps"] args ->
  int_option args "-numCells" 128 nc -> int_option args "-numSteps" 10 ns ->
  (known (acc_options ver) args /\ flag args "-h" = false ->
     acc_main ar ver dsqrt atof (exec :: args) =
     (r <- acc_body ar ver dsqrt nc ns (flag args "-vtk") (match ver with Acc1 => false | _ => flag args "-std" end) ;; Ok (Some r))) /\
  (~ (known (acc_options ver) args /\ flag args "-h" = false) -> acc_main ar ver dsqrt atof (exec :: args) = Ok None).
Proof.
  intros Hrd Hnc Hns. unfold acc_main.
  set (hist := [APurpose "Purpose: benchmark finite difference operations.";
    ASetInt "-numCells" 128 "Number of cells along each axis"; ASetInt "-numSteps" 10 "Number of time steps";
    ASetBool "-vtk" false "Write output to VTK file"] : list (action D)).
  set (hist' := (hist ++ match ver with Acc1 => [] | _ => [ASetBool "-std" false "Print out spread of solution"] end)%list).
  cbv zeta. match goal with |- context [clap_parse atof ?q] => set (p := q) end.
  assert (Hh : run_history atof hist' = Ok p) by (unfold hist', p; destruct ver; reflexivity).
  assert (exists b p' h, clap_parse atof p (exec :: args) = Ok (b, p') /\ clap_help p' = Ok h /\
      (b = true <-> known (acc_options ver) args) /\
      (b && negb (clap_getBool p' "-h") = true <-> known (acc_options ver) args /\ flag args "-h" = false) /\
      (b = true -> clap_getInt p' "-numCells" = nc /\ clap_getInt p' "-numSteps" = ns /\ clap_getBool p' "-vtk" = flag args "-vtk" /\
         (match ver with Acc1 => false | _ => clap_getBool p' "-std" end = match ver with Acc1 => false | _ => flag args "-std" end)))
    as (b & p' & h & Ep & Eh & HB & HR & HI).
  { destruct ver; cbn [acc_options] in *.
    - destruct (drive atof hist' p exec args ["-numCells"; "-numSteps"] ["-h"; "-numCells"; "-numSteps"; "-vtk"] Hh ltac:(reg_in) ltac:(reg_any) ltac:(reg_int) eq_refl Hrd)
        as (b & p' & h & Ep & Eh & HB & HR & HI & HF). exists b, p', h. do 4 (split; [assumption|]). intros Hb.
      split; [exact (HI Hb "-numCells" 128 nc ltac:(simpl; tauto) eq_refl Hnc)|].
      split; [exact (HI Hb "-numSteps" 10 ns ltac:(simpl; tauto) eq_refl Hns)|].
      split; [exact (HF Hb "-vtk" ltac:(reg_bool) eq_refl)|reflexivity].
    - destruct (drive atof hist' p exec args ["-numCells"; "-numSteps"] up_options Hh ltac:(reg_in) ltac:(reg_any) ltac:(reg_int) eq_refl Hrd)
        as (b & p' & h & Ep & Eh & HB & HR & HI & HF). exists b, p', h. do 4 (split; [assumption|]). intros Hb.
      split; [exact (HI Hb "-numCells" 128 nc ltac:(simpl; tauto) eq_refl Hnc)|].
      split; [exact (HI Hb "-numSteps" 10 ns ltac:(simpl; tauto) eq_refl Hns)|].
      split; [exact (HF Hb "-vtk" ltac:(reg_bool) eq_refl)|exact (HF Hb "-std" ltac:(reg_bool) eq_refl)].
    - destruct (drive atof hist' p exec args ["-numCells"; "-numSteps"] up_options Hh ltac:(reg_in) ltac:(reg_any) ltac:(reg_int) eq_refl Hrd)
        as (b & p' & h & Ep & Eh & HB & HR & HI & HF). exists b, p', h. do 4 (split; [assumption|]). intros Hb.
      split; [exact (HI Hb "-numCells" 128 nc ltac:(simpl; tauto) eq_refl Hnc)|].
      split; [exact (HI Hb "-numSteps" 10 ns ltac:(simpl; tauto) eq_refl Hns)|].
      split; [exact (HF Hb "-vtk" ltac:(reg_bool) eq_refl)|exact (HF Hb "-std" ltac:(reg_bool) eq_refl)]. }
  rewrite Ep. cbn [bind]. split; intros K.
  - rewrite (proj2 HR K). assert (Hb : b = true) by (apply HB, K). destruct (HI Hb) as (-> & -> & -> & ->). reflexivity.
  - destruct (b && negb (clap_getBool p' "-h")) eqn:E; [exfalso; apply K, HR; reflexivity|]. rewrite Eh. reflexivity.
Qed.
Print Assumptions C62_upwindAcc.

(** upwindMpi.cxx: velocity 1 and length 1 along every axis *)
Definition um_options := ["-h"; "-numCells"; "-numSteps"; "-vtk"].

Theorem C62_upwindMpi {D} (ar : arith D) atof sz exec args nc ns :
  readable ["-numCells"; "-numSteps"] args ->
  int_option args "-numCells" 128 nc -> int_option args "-numSteps" 10 ns ->
  (known um_options args /\ flag args "-h" = false ->
     um_main ar atof sz (exec :: args) =
     um_body ar (repeat (a_dec ar 10 1) 3) (repeat (a_dec ar 10 1) 3) sz nc ns (flag args "-vtk")) /\
  (~ (known um_options args /\ flag args "-h" = false) -> um_main ar atof sz (exec :: args) = Ok None).
Proof.
  intros Hrd Hnc Hns. unfold um_main.
  set (hist := [APurpose "Purpose: benchmark finite difference operations.";
    ASetInt "-numCells" 128 "Number of cells along each axis"; ASetInt "-numSteps" 10 "Number of time steps";
    ASetBool "-vtk" false "Write output to VTK file"] : list (action D)).
  cbv zeta. match goal with |- context [clap_parse atof ?q] => set (p := q) end.
  destruct (drive atof hist p exec args ["-numCells"; "-numSteps"] um_options eq_refl ltac:(reg_in) ltac:(reg_any) ltac:(reg_int) eq_refl Hrd)
    as (b & p' & h & Ep & Eh & HB & HR & HI & HF).
  rewrite Ep. cbn [bind]. split; intros K.
  - rewrite (proj2 HR K). assert (Hb : b = true) by (apply HB, K).
    rewrite (HI Hb "-numCells" 128 nc ltac:(simpl; tauto) eq_refl Hnc), (HI Hb "-numSteps" 10 ns ltac:(simpl; tauto) eq_refl Hns).
    rewrite (HF Hb "-vtk" ltac:(reg_bool) eq_refl). reflexivity.
  - destruct (b && negb (clap_getBool p' "-h")) eqn:E; [exfalso; apply K, HR; reflexivity|]. rewrite Eh. reflexivity.
Qed.
Print Assumptions C62_upwindMpi.

(** laplacian.cxx: always ten iterations *)
Definition lap_options := ["-h"; "-numCells"; "-numDims"; "-vtk"].

Theorem C62_laplacian {D} (ar : arith D) dsin m_pi atof sz exec args nc nd :
  readable ["-numCells"; "-numDims"] args ->
  int_option args "-numCells" 8000 nc -> int_option args "-numDims" 2 nd ->
  (known lap_options args /\ flag args "-h" = false ->
     lap_main ar dsin m_pi atof sz (exec :: args) = lap_body ar dsin m_pi sz nc nd 10 (flag args "-vtk")) /\
  (~ (known lap_options args /\ flag args "-h" = false) -> lap_main ar dsin m_pi atof sz (exec :: args) = Ok None).
Proof.
  intros Hrd Hnc Hns. unfold lap_main.
  set (hist := [APurpose "Purpose: benchmark finite difference operations.";
    ASetInt "-numCells" 8000 "Number of cells along each axis"; ASetInt "-numDims" 2 "Number of dimensions";
    ASetBool "-vtk" false "Write output to VTK file"] : list (action D)).
  cbv zeta. match goal with |- context [clap_parse atof ?q] => set (p := q) end.
  destruct (drive atof hist p exec args ["-numCells"; "-numDims"] lap_options eq_refl ltac:(reg_in) ltac:(reg_any) ltac:(reg_int) eq_refl Hrd)
    as (b & p' & h & Ep & Eh & HB & HR & HI & HF).
  rewrite Ep. cbn [bind]. split; intros K.
  - rewrite (proj2 HR K). assert (Hb : b = true) by (apply HB, K).
    rewrite (HI Hb "-numCells" 8000 nc ltac:(simpl; tauto) eq_refl Hnc), (HI Hb "-numDims" 2 nd ltac:(simpl; tauto) eq_refl Hns).
    rewrite (HF Hb "-vtk" ltac:(reg_bool) eq_refl). reflexivity.
  - destruct (b && negb (clap_getBool p' "-h")) eqn:E; [exfalso; apply K, HR; reflexivity|]. rewrite Eh. reflexivity.
Qed.
Print Assumptions C62_laplacian.

(** testStencil2d.cxx *)
Definition st2_options := ["-h"; "-numCells"; "-vtk"].

Theorem C62_testStencil2d {D} (ar : arith D) atof sz exec args nc :
  readable ["-numCells"] args -> int_option args "-numCells" 8 nc ->
  (known st2_options args /\ flag args "-h" = false ->
     st2_main ar atof sz (exec :: args) = (r <- st2_body ar sz nc (flag args "-vtk") ;; Ok (Some r))) /\
  (~ (known st2_options args /\ flag args "-h" = false) -> st2_main ar atof sz (exec :: args) = Ok None).
Proof.
  intros Hrd Hnc. unfold st2_main.
  set (hist := [APurpose "Purpose: benchmark finite difference operations.";
    ASetInt "-numCells" 8 "Number of cells along each axis"; ASetBool "-vtk" false "Write output to VTK file"] : list (action D)).
  cbv zeta. match goal with |- context [clap_parse atof ?q] => set (p := q) end.
  destruct (drive atof hist p exec args ["-numCells"] st2_options eq_refl ltac:(reg_in) ltac:(reg_any) ltac:(reg_int) eq_refl Hrd)
    as (b & p' & h & Ep & Eh & HB & HR & HI & HF).
  rewrite Ep. cbn [bind]. split; intros K.
  - rewrite (proj2 HR K). assert (Hb : b = true) by (apply HB, K).
    rewrite (HI Hb "-numCells" 8 nc ltac:(simpl; tauto) eq_refl Hnc).
    rewrite (HF Hb "-vtk" ltac:(reg_bool) eq_refl). reflexivity.
  - destruct (b && negb (clap_getBool p' "-h")) eqn:E; [exfalso; apply K, HR; reflexivity|]. rewrite Eh. reflexivity.
Qed.
Print Assumptions C62_testStencil2d.

(** The command line [upwind -numCells n -numSteps s]: check sum 1, values in [0, 1] (real numbers). *)
Lemma decimal_chars d i c : String.get i (NilEmpty.string_of_uint d) = Some c -> is_digit c.
Proof.
  revert i; induction d; intros i E; [destruct i; discriminate|..]; (destruct i as [|i]; [|exact (IHd i E)]);
    inversion E; unfold is_digit; vm_compute; split; discriminate.
Qed.
Lemma decimal_ascii7 z : ascii7 (decimal z).
Proof.
  unfold ascii7, decimal. destruct (Z.to_int z) as [d|d]; cbn [NilEmpty.string_of_int]; intros i c E.
  - apply decimal_chars in E. unfold is_digit in E. lia.
  - destruct i as [|i]; [inversion E; reflexivity|]. apply decimal_chars in E. unfold is_digit in E. lia.
Qed.
Lemma decimal_not_option z : ~ looks_like_option (decimal z).
Proof.
  intros (c & t & E & Hd). unfold decimal in E. destruct (Z.to_int z) as [d|d]; cbn [NilEmpty.string_of_int] in E.
  - destruct d; discriminate.
  - apply Hd. apply (decimal_chars d 0%nat). inversion E as [E']. rewrite E'. reflexivity.
Qed.

Lemma decimal_neq z o : looks_like_option o -> decimal z <> o.
Proof. intros H E. apply (decimal_not_option z). rewrite E. exact H. Qed.
Lemma numCells_option : looks_like_option "-numCells".
Proof. exists "n"%char, "umCells". split; [reflexivity|]. unfold is_digit. vm_compute. intros [_ H]. apply H. reflexivity. Qed.
Lemma numSteps_option : looks_like_option "-numSteps".
Proof. exists "n"%char, "umSteps". split; [reflexivity|]. unfold is_digit. vm_compute. intros [_ H]. apply H. reflexivity. Qed.
Lemma app_short {A} (l1 : list A) a b l2 w x y z : [w; x; y; z] = (l1 ++ a :: b :: l2)%list ->
  (a = w /\ b = x) \/ (a = x /\ b = y) \/ (a = y /\ b = z).
Proof.
  destruct l1 as [|p [|q [|r [|s l1]]]]; cbn [app]; intros E; inversion E; subst; auto. destruct l1; discriminate.
Qed.

Lemma cmdline_numbers n s :
  - 2 ^ 31 <= n < 2 ^ 31 -> - 2 ^ 31 <= s < 2 ^ 31 ->
  let args := ["-numCells"; decimal n; "-numSteps"; decimal s] in
  readable ["-numCells"; "-numSteps"] args /\ int_option args "-numCells" 128 n /\ int_option args "-numSteps" 10 s /\
  known up_options args /\ flag args "-h" = false /\ flag args "-vtk" = false /\ flag args "-std" = false.
Proof.
  intros Hn Hs args.
  assert (Ha : forall z, - 2 ^ 31 <= z < 2 ^ 31 -> c_atoi (decimal z) = Ok z).
  { intros z Hz. rewrite c_atoi_decimal. rewrite (proj2 (int_range_spec z) Hz). reflexivity. }
  assert (Hf : forall o, o <> "-numCells" -> o <> "-numSteps" -> looks_like_option o -> flag args o = false).
  { intros o H1 H2 Ho. unfold flag, args. cbn [count_occ].
    destruct (string_dec "-numCells" o) as [E|_]; [congruence|]. destruct (string_dec (decimal n) o) as [E|_]; [exfalso; exact (decimal_neq n o Ho E)|].
    destruct (string_dec "-numSteps" o) as [E|_]; [congruence|]. destruct (string_dec (decimal s) o) as [E|_]; [exfalso; exact (decimal_neq s o Ho E)|]. reflexivity. }
  assert (Ln : forall c t, ~ is_digit c -> looks_like_option (String "-" (String c t))) by (intros c t Hc; exists c, t; auto).
  split; [split|split; [|split; [|split; [|split; [|split]]]]].
  - intros a [<-|[<-|[<-|[<-|[]]]]]; [|apply decimal_ascii7| |apply decimal_ascii7]; intros i c E;
      do 9 (destruct i as [|i]; [inversion E; subst; vm_compute; reflexivity|]); destruct i; discriminate.
  - intros l1 o v l2 E Ho. apply app_short in E as [(-> & ->)|[(-> & ->)|(-> & ->)]]; [rewrite Ha by assumption; discriminate| |rewrite Ha by assumption; discriminate].
    exfalso. destruct Ho as [E|[E|[]]]; symmetry in E; [exact (decimal_neq n _ numCells_option E)|exact (decimal_neq n _ numSteps_option E)].
  - left. exists (decimal n). split; [|apply Ha, Hn]. exists [], ["-numSteps"; decimal s]. split; [reflexivity|].
    intros m1 w m2 E. assert (E' : args = (("-numCells" :: m1) ++ "-numCells" :: w :: m2)%list) by (unfold args; cbn [app]; rewrite <- E; reflexivity).
    destruct m1 as [|a [|b [|c [|d m1]]]]; inversion E; try (destruct m1; discriminate); try discriminate.
    exact (decimal_neq n _ numCells_option H0).
  - left. exists (decimal s). split; [|apply Ha, Hs]. exists ["-numCells"; decimal n], []. split; [reflexivity|].
    intros m1 w m2 E. destruct m1 as [|a [|b m1]]; inversion E.
  - intros a [<-|[<-|[<-|[<-|[]]]]] Hl; try (simpl; tauto); exfalso; exact (decimal_not_option _ Hl).
  - apply Hf; try discriminate. apply Ln. unfold is_digit; vm_compute; intros [_ H]; apply H; reflexivity.
  - apply Hf; try discriminate. apply Ln. unfold is_digit; vm_compute; intros [_ H]; apply H; reflexivity.
  - apply Hf; try discriminate. apply Ln. unfold is_digit; vm_compute; intros [_ H]; apply H; reflexivity.
Qed.

Theorem C62_upwind_check_sum atof exec n s :
  1 <= n -> n * n * n < 2 ^ 31 -> - 2 ^ 31 <= s < 2 ^ 31 ->
  exists r, up_main arR R_sqrt.sqrt atof [exec; "-numCells"; decimal n; "-numSteps"; decimal s] = Ok (Some r) /\
    ur_sum r = 1%R /\ vlen (up_f (ur_up r)) = n * n * n /\ (forall x, In x (up_f (ur_up r)) -> 0 <= x <= 1)%R /\
    ur_std r = None /\ ur_vtk0 r = None /\ ur_vtk1 r = None.
Proof.
  intros H1 H3 Hs. assert (Hn : - 2 ^ 31 <= n < 2 ^ 31) by nia.
  destruct (cmdline_numbers n s Hn Hs) as (Hrd & I1 & I2 & Hk & Fh & Fv & Fs).
  destruct (C54_driver n s false false H1 H3) as (r & dt & Er & _ & _ & _ & Esum & Elen & Hb).
  exists r. destruct (C62_upwind arR R_sqrt.sqrt atof exec _ n s Hrd I1 I2) as (G & _).
  rewrite (G (conj Hk Fh)), Fv, Fs, Er. cbn [bind]. split; [reflexivity|]. split; [exact Esum|]. split; [exact Elen|]. split; [exact Hb|].
  unfold up_body in Er. apply bind_ok in Er as (dt' & _ & Er). apply bind_ok in Er as (u & _ & Er). cbn [bind] in Er.
  apply bind_ok in Er as (u' & _ & Er). inversion Er. repeat split.
Qed.
Print Assumptions C62_upwind_check_sum.

(** Defaults when the numbers are given without option names (as in some of the ctest command lines of the project);
    help; an unknown option. *)
Example C62_example :
  let args := ["16"; "3"; "-vtk"; "-std"; "-vtk"; "-numSteps"; "1"; "-numSteps"] in
  readable ["-numCells"; "-numSteps"] args /\ int_option args "-numCells" 128 128 /\ int_option args "-numSteps" 10 1 /\
  known up_options args /\ flag args "-h" = false /\ flag args "-vtk" = false /\ flag args "-std" = true.
Proof.
  intros args. split.
  - apply readableb_ok; reflexivity.
  - split.
    { right. split; [|reflexivity]. intros l1 v l2 E. assert (Hi : In "-numCells" args) by (rewrite E; apply in_elt). simpl in Hi. repeat (destruct Hi as [Hi|Hi]; [discriminate|]). exact Hi. }
    split.
    { left. exists "1". split; [|reflexivity]. exists ["16"; "3"; "-vtk"; "-std"; "-vtk"], ["-numSteps"]. split; [reflexivity|].
      intros [|? [|? [|? m1]]] w m2 E; inversion E. }
    split; [|repeat split]. intros a Ha Hl. repeat (destruct Ha as [<-|Ha]; [simpl; tauto || (exfalso; destruct Hl as (c & t & E & _); discriminate)|]). destruct Ha.
Qed.

Example C62_help_example :
  up_main arZ (fun x => x) (fun _ => 0) ["upwind"; "-numCells"; "2"; "-h"] = Ok None /\
  up_main arZ (fun x => x) (fun _ => 0) ["upwind"; "-n"; "2"] = Ok None.
Proof. split; vm_compute; reflexivity. Qed.

(** ** C63: the two example programs print what they are meant to show *)

(** Lines printed by testMultiArrayIter: the nested loops, numbered. *)
Theorem C63_testMultiArrayIter lo hi rowMajor :
  wf_box lo hi -> nonempty_box lo hi -> prodZ (extents lo hi) < 2 ^ 64 ->
  mat_test lo hi rowMajor = Ok (combine (map Z.of_nat (seq 0 (length (nested_loops rowMajor lo hi)))) (nested_loops rowMajor lo hi)).
Proof.
  intros H1 H2 H3. pose proof (conj H1 (conj H2 H3) : good_box lo hi) as H.
  pose proof (good_prod lo hi H) as HP. pose proof (good_allpos lo hi H) as Hp.
  assert (Hl : length lo = length hi) by apply H.
  unfold mat_test. rewrite mai_build_good by exact H. cbn [bind]. unfold mai_getNumberOfTerms.
  change (m_ntot (mai_of lo hi rowMajor 0)) with (prodZ (extents lo hi)).
  match goal with |- bind (for_upto ?c ?bd ?s) _ = _ =>
    destruct (for_upto_inv (fun k st =>
      st = (mai_of lo hi rowMajor (u64 (Z.of_nat k)),
            map (fun k => (Z.of_nat k, vadd lo (digs rowMajor (extents lo hi) (Z.of_nat k)))) (seq 0 k))) bd c s) as (t & -> & Ht) end.
  - reflexivity.
  - intros i s Hi ->. rewrite mai_getIndices_of by exact H. cbn [bind].
    eexists; split; [reflexivity|].
    rewrite seq_S, map_app. simpl map. f_equal.
    + unfold mai_next, mai_setBig, mai_of; simpl. f_equal. rewrite u64_add_l. f_equal. lia.
    + rewrite (u64_id (Z.of_nat i)) by lia. reflexivity.
  - subst t. cbn [bind]. rewrite nested_loops_enum; [|exact Hl|intros j Hj; destruct (good_lo lo hi j H Hj); lia].
    rewrite map_length, seq_length. f_equal. generalize (seq 0 (Z.to_nat (prodZ (extents lo hi)))). intros l.
    induction l as [|a l IH]; [reflexivity|]. cbn [map combine]. rewrite IH. reflexivity.
Qed.
Print Assumptions C63_testMultiArrayIter.

Example C63_mat_example :
  (r <- mat_main ;; Ok (firstn 3 (fst r), firstn 3 (snd r), length (fst r)))
  = Ok ([(0, [1; 2; 3]); (1, [1; 2; 4]); (2, [1; 2; 5])], [(0, [1; 2; 3]); (1, [2; 2; 3]); (2, [3; 2; 3])], 75%nat).
Proof. vm_compute. reflexivity. Qed.

Lemma along_nth n j s i : (i < n)%nat -> nth i (along n j s) 0 = if (i =? j)%nat then s else 0.
Proof.
  intros Hi. unfold along. set (F := fun i => if (i =? j)%nat then s else 0).
  rewrite nth_indep with (d' := F O) by (rewrite map_length, seq_length; exact Hi).
  rewrite map_nth, seq_nth by exact Hi. reflexivity.
Qed.
Lemma along_length n j s : length (along n j s) = n.
Proof. unfold along. rewrite map_length, seq_length. reflexivity. Qed.

Lemma along_set n j s : (j < n)%nat -> vset (repeat 0 n) (Z.of_nat j) s = Ok (along n j s).
Proof.
  intros Hj. rewrite vset_nat by (rewrite repeat_length; exact Hj). f_equal.
  apply nth_ext' with (d := 0); [rewrite upd_length, repeat_length, along_length; reflexivity|].
  intros i Hi. rewrite upd_length, repeat_length in Hi. rewrite along_nth by exact Hi.
  rewrite upd_nth by (rewrite repeat_length; exact Hj). destruct (Nat.eqb_spec i j); [reflexivity|].
  apply nth_repeat0.
Qed.
Lemma along_reset n j s : (j < n)%nat -> vset (along n j s) (Z.of_nat j) 0 = Ok (repeat 0 n).
Proof.
  intros Hj. rewrite vset_nat by (rewrite along_length; exact Hj). f_equal.
  apply nth_ext' with (d := 0); [rewrite upd_length, repeat_length, along_length; reflexivity|].
  intros i Hi. rewrite upd_length, along_length in Hi.
  rewrite upd_nth by (rewrite along_length; exact Hj). rewrite nth_repeat0.
  destruct (Nat.eqb_spec i j); [reflexivity|]. rewrite along_nth by exact Hi. destruct (Nat.eqb_spec i j); [contradiction|reflexivity].
Qed.

Lemma cdt_neighbours_of sz dims b rk : grid_ok dims -> 1 <= sz <= 2 ^ 30 -> is_decomp sz dims b -> 0 <= rk < sz ->
  cdt_neighbours rk (vlen dims) (cube_of sz dims b rk) =
  Ok (map (fun dir => (dir, nb_of b rk dir)) (directions (length dims)), cube_of sz dims b rk).
Proof.
  intros Hg Hn Hb Hrk. change (2 ^ 30) with 1073741824 in Hn. assert (E64 : u64 rk = rk) by (apply u64_id; unfold two64; lia).
  assert (Q : forall j s, (j < length dims)%nat -> -1 <= s <= 1 ->
    cd_getNeighborRank (cube_of sz dims b rk) rk (along (length dims) j s) = Ok (nb_of b rk (along (length dims) j s), cube_of sz dims b rk)).
  { intros j s Hj Hs. rewrite cd_getNeighborRank_of; try assumption; [rewrite E64; reflexivity|apply along_length|].
    intros i Hi. rewrite along_nth by exact Hi. pose proof (coords_range sz dims b (u64 rk) i Hb Hi).
    destruct (i =? j)%nat; lia. }
  unfold cdt_neighbours. unfold vlen at 1 2. rewrite Nat2Z.id.
  match goal with |- bind (for_upto ?c ?bd ?s) _ = _ =>
    destruct (for_upto_inv (fun k st =>
      st = (repeat 0 (length dims), map (fun dir => (dir, nb_of b rk dir)) (flat_map (fun j => [along (length dims) j (-1); along (length dims) j 1]) (seq 0 k)),
            cube_of sz dims b rk)) bd c s) as (t & -> & Ht) end.
  - reflexivity.
  - intros i s Hi ->. rewrite Nat2Z.id in Hi. cbn [for_each].
    rewrite along_set by exact Hi. cbn [bind]. rewrite Q by (try exact Hi; lia). cbn [bind]. rewrite along_reset by exact Hi. cbn [bind].
    rewrite along_set by exact Hi. cbn [bind]. rewrite Q by (try exact Hi; lia). cbn [bind]. rewrite along_reset by exact Hi. cbn [bind].
    eexists; split; [reflexivity|]. rewrite seq_S, flat_map_app, map_app. cbn [flat_map map app Nat.add]. rewrite <- app_assoc. reflexivity.
  - rewrite Nat2Z.id in Ht. subst t. reflexivity.
Qed.

Lemma cdt_test_of sz dims b : grid_ok dims -> 1 <= sz <= 2 ^ 30 -> is_decomp sz dims b -> cd_new sz dims = Ok (cube_of sz dims b 0) ->
  cdt_test sz dims = Ok (b, map (fun k => let rk := Z.of_nat k in
    mkCdt (beg_of dims b rk) (end_of dims b rk) (map (fun dir => (dir, nb_of b rk dir)) (directions (length dims)))) (seq 0 (Z.to_nat sz))).
Proof.
  intros Hg Hn Hb E. unfold cdt_test. rewrite E. cbn [bind].
  assert (Hn' : sz < two31) by (unfold two31; change (2 ^ 30) with 1073741824 in Hn; lia).
  match goal with |- bind (for_upto ?c ?bd ?s) _ = _ =>
    destruct (for_upto_inv (fun k st => exists p,
      st = (cube_of sz dims b p, map (fun k => let rk := Z.of_nat k in
    mkCdt (beg_of dims b rk) (end_of dims b rk) (map (fun dir => (dir, nb_of b rk dir)) (directions (length dims)))) (seq 0 k))) bd c s) as (t & -> & p & Ht) end.
  - exists 0. reflexivity.
  - intros i s Hi (p & ->). assert (E64 : u64 (Z.of_nat i) = Z.of_nat i) by (apply u64_id; unfold two64, two31 in *; lia).
    rewrite cd_getBegIndices_of by assumption. cbn [bind]. rewrite cd_getEndIndices_of by assumption. cbn [bind]. rewrite E64.
    rewrite cdt_neighbours_of by (try assumption; lia). cbn [bind].
    eexists; split; [reflexivity|]. exists (Z.of_nat i). rewrite seq_S, map_app. reflexivity.
  - subst t. reflexivity.
Qed.

(** testCubeDecomp, for any number of processes that can be laid out over the grid *)
Theorem C63_testCubeDecomp sz dims :
  grid_ok dims -> 1 <= sz <= 2 ^ 30 -> (exists d, is_decomp sz dims d) ->
  exists decomp ranks, cdt_test sz dims = Ok (decomp, ranks) /\ is_decomp sz dims decomp /\ vlen ranks = sz /\
    let line rk := nth (Z.to_nat rk) ranks (mkCdt [] [] []) in
    (* every cell is in exactly one of the boxes printed *)
    (forall g, in_box (repeat 0 (length dims)) dims g -> exists rk, 0 <= rk < sz /\
       forall rk', 0 <= rk' < sz -> (in_box (cdt_lo (line rk')) (cdt_hi (line rk')) g <-> rk' = rk)) /\
    (* the neighbours are those of the axis directions, and their boxes are the displaced ones *)
    (forall rk, 0 <= rk < sz -> map fst (cdt_nb (line rk)) = directions (length dims) /\
       forall dir nb, In (dir, nb) (cdt_nb (line rk)) -> 0 <= nb < sz /\
         forall j, (j < length dims)%nat ->
           nth j (cdt_lo (line nb)) 0 =
           (nth j (cdt_lo (line rk)) 0 + nth j dir 0 * (nth j (cdt_hi (line rk)) 0 - nth j (cdt_lo (line rk)) 0)) mod nth j dims 0).
Proof.
  intros Hg Hn (d & Hd). assert (Hn1 : 1 <= sz < two31) by (unfold two31; change (2 ^ 30) with 1073741824 in Hn; lia).
  assert (E : exists b, is_decomp sz dims b /\ cd_new sz dims = Ok (cube_of sz dims b 0) /\ cd_build cd_empty sz dims = Ok (true, cube_of sz dims b 0)).
  { unfold cd_new. pose proof (cd_build_eq cd_empty sz dims Hg Hn1) as E. apply (in_decomps sz dims d Hg) in Hd.
    destruct (decomps sz dims) as [|v t] eqn:Ed; [destruct Hd|]. 
    destruct (cd_build_true cd_empty sz dims _ Hg Hn1 E) as (b & Hb & Eb). rewrite Eb in E. rewrite E.
    exists b. auto. }
  destruct E as (b & Hb & E & Eb). rewrite (cdt_test_of sz dims b Hg Hn Hb E).
  eexists _, _. split; [reflexivity|]. split; [exact Hb|]. split; [unfold vlen; rewrite map_length, seq_length; lia|].
  cbv zeta.
  assert (L : forall rk, 0 <= rk < sz -> nth (Z.to_nat rk) (map (fun k => mkCdt (beg_of dims b (Z.of_nat k)) (end_of dims b (Z.of_nat k))
    (map (fun dir => (dir, nb_of b (Z.of_nat k) dir)) (directions (length dims)))) (seq 0 (Z.to_nat sz))) (mkCdt [] [] []) =
    mkCdt (beg_of dims b rk) (end_of dims b rk) (map (fun dir => (dir, nb_of b rk dir)) (directions (length dims)))).
  { intros rk Hrk. match goal with |- nth _ (map ?f _) _ = _ => set (F := f) end.
    rewrite nth_indep with (d' := F O) by (rewrite map_length, seq_length; lia). rewrite map_nth, seq_nth by lia.
    unfold F. cbn [Nat.add]. rewrite !Z2Nat.id by lia. reflexivity. }
  split.
  - intros g G. exists (owner dims b g). split; [apply owner_range; assumption|].
    intros rk' Hrk'. rewrite L by exact Hrk'. cbn [cdt_lo cdt_hi]. apply (owner_iff sz); assumption.
  - intros rk Hrk. rewrite L by exact Hrk. cbn [cdt_lo cdt_hi cdt_nb]. split; [rewrite map_map; cbn [fst]; apply map_id|].
    intros dir nb Hin. apply in_map_iff in Hin as (dir' & Ei & Hin). inversion Ei; subst dir' nb. clear Ei.
    assert (Hdir : length dir = length dims /\ forall j, (j < length dims)%nat -> -1 <= nth j dir 0 <= 1).
    { unfold directions in Hin. apply in_flat_map in Hin as (j & _ & Hin).
      assert (Hs : exists s, -1 <= s <= 1 /\ dir = along (length dims) j s) by (destruct Hin as [<-|[<-|[]]]; [exists (-1)|exists 1]; split; (reflexivity || lia)).
      destruct Hs as (s & Hs & ->). split; [apply along_length|]. intros i Hi. rewrite along_nth by exact Hi. destruct (i =? j)%nat; lia. }
    destruct Hdir as (Hl & Hs).
    pose proof (nb_of_range sz dims b rk dir Hb Hl) as Hnb. split; [exact Hnb|].
    rewrite L by exact Hnb. cbn [cdt_lo].
    destruct (C09_periodic_neighbour cd_empty sz dims _ rk dir Hg Hn Eb Hrk Hl) as (nb & c'' & En & _ & lo & hi & lo' & hi' & B1 & B2 & HB).
    { intros j Hj. specialize (Hs j Hj). cbn [cd_getDecomp cube_of c_decomp]. destruct (proj1 (proj2 Hb) j Hj). lia. }
    rewrite cd_getNeighborRank_of in En; try assumption.
    + rewrite u64_id in En by (unfold two64, two31 in *; lia). inversion En; subst nb.
      apply (box_of_rank_of sz dims b 0 _ _ _ Hg (proj2 Hn1) Hb Hrk) in B1 as (-> & ->).
      apply (box_of_rank_of sz dims b 0 _ _ _ Hg (proj2 Hn1) Hb Hnb) in B2 as (-> & ->). exact HB.
    + intros j Hj. specialize (Hs j Hj). pose proof (coords_range sz dims b (u64 rk) j Hb Hj). lia.
Qed.
Print Assumptions C63_testCubeDecomp.

(** Without such a layout the program reads an iterator that was never built. *)
Theorem C63_testCubeDecomp_no_layout sz dims :
  grid_ok dims -> 1 <= sz < 2 ^ 31 -> (forall d, ~ is_decomp sz dims d) -> cdt_test sz dims = Undef UninitRead.
Proof.
  intros Hg Hn Hno. destruct (C16_constructor_hides_failure sz dims Hg Hn Hno) as (c & E & _ & Hu).
  unfold cdt_test. rewrite E. cbn [bind]. unfold for_upto. replace (Z.to_nat sz) with (S (Z.to_nat (sz - 1))) by lia.
  cbn [for_from]. rewrite Hu. reflexivity.
Qed.
Print Assumptions C63_testCubeDecomp_no_layout.

Example C63_cubeDecomp_example :
  (r <- cdt_main ;; Ok (map fst r, nth 1 (snd (nth 1 r ([], []))) (mkCdt [] [] []))) =
  Ok ([[2]; [3; 2]; [1; 3; 2]], mkCdt [0; 1] [1; 2] [([-1; 0], 5); ([1; 0], 3); ([0; -1], 0); ([0; 1], 0)]).
Proof. vm_compute. reflexivity. Qed.
Example C63_no_layout_example : cdt_test 7 [8; 8] = Undef UninitRead.
Proof. vm_compute. reflexivity. Qed.
