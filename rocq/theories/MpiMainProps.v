(** * Property C72: the MPI programs from MPI_Init to MPI_Finalize, the ranks in any order *)
From Coq Require Import List String.
From Verif Require Import Cpp CppProof OMap MaiModel MaiSpec Radix MaiProof CdModel CdSpec CdProof CdProps CmdModel CmdSpec CmdProof CmdProps
  FilterModel FilterSpec FilterProps LapModel LapSpec LapProof LapProps UpMpiModel UpMpiSpec UpMpiProps VtkModel VtkSpec VtkProps
  DrvSpec DrvProps NumModel NumSpec NumProof NumProps TextModel TextSpec TextProof TextRun TextProps FileProps MpiTextModel MpiTextSpec MpiTextProof MpiTextProps
  MpiSchedModel MpiSchedSpec MpiSchedProof MpiSchedFilter MpiMainModel MpiMainProof MpiMainRun MpiMainSpec MpiMainCalls.
Import ListNotations.
Local Open Scope list_scope.
Local Open Scope string_scope.
Local Open Scope Z_scope.
Local Arguments prodZ : simpl never.
Local Arguments Z.of_nat : simpl never.

(** The ranks. *)
Definition all_ranks (sz : Z) : list Z := map Z.of_nat (seq 0 (Z.to_nat sz)).

(** With -vtk: [&v.front()] of the empty vector recvBuffer on the ranks other than 0 gives some pointer, or there are no
    other ranks; the sizes are in range. *)
Definition may_save (tolerant : bool) (sz : Z) (dims : list Z) : Prop := (tolerant = true \/ sz = 1) /\ sz <= 2 ^ 30 /\ grid_ok dims.

Lemma looks_like_option_dec a : looks_like_option a \/ ~ looks_like_option a.
Proof.
  destruct a as [|x [|c t]]; [right; intros (c & t & E & _); discriminate|right; intros (c & t & E & _); discriminate|].
  destruct (Ascii.ascii_dec x "-") as [->|Hx]; [|right; intros (c' & t' & E & _); congruence].
  assert (Hd : is_digit c \/ ~ is_digit c) by (unfold is_digit; lia).
  destruct Hd as [Hd|Hd]; [right; intros (c' & t' & E & Hn); congruence|left; exists c, t; split; [reflexivity|exact Hd]].
Qed.

Lemma known_or options args : known options args \/ exists a, first_unknown options args a.
Proof.
  induction args as [|a args IH] using rev_ind; [left; intros a []|]. destruct IH as [IH|(b & l1 & l2 & E & H)].
  - destruct (in_dec string_dec a options) as [Hi|Hi]; [|destruct (looks_like_option_dec a) as [Hl|Hl]].
    + left. intros b Hb Hl. apply in_app_or in Hb as [Hb|[<-|[]]]; [apply IH; assumption|exact Hi].
    + right. exists a, args, []. auto.
    + left. intros b Hb Hl'. apply in_app_or in Hb as [Hb|[<-|[]]]; [apply IH; assumption|contradiction].
  - right. exists b, l1, (l2 ++ [a])%list. rewrite E, <- app_assoc. auto.
Qed.

Section Programs.
  Context {D : Type} (ar : arith D) (show : D -> string) (reduce : nat -> list D -> D) (rtime : redop -> list D -> D) (wall : Z -> D)
    (atof : string -> D) (tolerant : bool).
  Notation ends ps runs := (always_ends (S := filter D) (E := option D) (V := D) (R := TextModel.run) exposed ps runs).
  Notation times sz := (reduced_times rtime wall sz).

  (** ** upwindMpi *)
  Theorem C72_upwindMpi sz exec args n k runs :
    readable ["-numCells"; "-numSteps"] args -> int_option args "-numCells" 128 n -> int_option args "-numSteps" 10 k ->
    (flag args "-vtk" = true -> may_save tolerant sz [n; n; n]) ->
    um_program ar show reduce (times sz) atof sz (exec :: args) = Ok runs ->
    ends (map (um_proc ar show reduce rtime wall atof tolerant sz (exec :: args)) (all_ranks sz)) runs.
  Proof.
    intros Hrd Hn Hk Hv E. apply lockstep_always. apply (um_lockstep ar show reduce rtime wall atof tolerant sz _ _ E).
    set (p := clap_setBool _ _ _ _).
    destruct (parse_state atof um_history p exec args ["-numCells"; "-numSteps"] um_options (pick n k) eq_refl eq_refl eq_refl eq_refl) as (HK & HU).
    { intros a. split.
      - intros [<-|[<-|[<-|[<-|[]]]]]; [exists KBool|exists KInt|exists KInt|exists KBool]; simpl; tauto.
      - intros ([| | |] & H); simpl in H |- *; tauto. }
    { exact Hrd. }
    { intros key v [E'|[E'|[]]]; injection E' as <- <-; assumption. }
    intros a Hp Hb. destruct (known_or um_options args) as [K|(x & Hx)].
    2:{ destruct (HU x Hx) as (_ & E'). rewrite E' in Hp. discriminate. }
    destruct (HK K) as (_ & E'). rewrite E' in Hp. injection Hp as <-.
    change (clap_getBool (given p exec args (pick n k)) "-vtk") with (xorb false (flag args "-vtk")) in Hb. rewrite xorb_false_l in Hb.
    destruct (Hv Hb) as (H1 & H2 & H3). split; [exact H1|]. split; [exact H2|].
    change (clap_getInt (given p exec args (pick n k)) "-numCells") with n. destruct (square_nd n 3 H3) as (_ & Hmr).
    rewrite (u64_id n) by (unfold two64; lia). exact H3.
  Qed.

  Theorem C72_upwindMpi_run sz exec args n k :
    readable ["-numCells"; "-numSteps"] args -> int_option args "-numCells" 128 n -> int_option args "-numSteps" 10 k ->
    known um_options args -> flag args "-h" = false -> grid_ok [n; n; n] -> 1 <= sz <= 2 ^ 30 ->
    (flag args "-vtk" = true -> tolerant = true \/ sz = 1) ->
    let ps := map (um_proc ar show reduce rtime wall atof tolerant sz (exec :: args)) (all_ranks sz) in
    (decomposable sz [n; n; n] -> (n | 2 ^ 64) -> 0 <= k < 2 ^ 31 ->
       exists out files, ends ps (only_root sz (mkRun out "" files 0)) /\ (files = [] <-> flag args "-vtk" = false)) /\
    (~ decomposable sz [n; n; n] -> ends ps (only_root sz (mkRun "" no_decomp_report [] 0))).
  Proof.
    intros Hrd Hn Hk K Fh Hg Hs Hv ps.
    assert (HV : flag args "-vtk" = true -> may_save tolerant sz [n; n; n]) by (intros H; split; [exact (Hv H)|split; [apply Hs|exact Hg]]).
    destruct (C70_upwindMpi_run ar show reduce (times sz) atof sz exec args n k Hrd Hn Hk K Fh Hg Hs) as (H1 & H2). split.
    - intros Hd Hm Hk'. destruct (H1 Hd Hm Hk') as (r & parts & files & _ & _ & Hf & E). eexists _, files. split; [exact (C72_upwindMpi sz exec args n k _ Hrd Hn Hk HV E)|].
      destruct (flag args "-vtk"); [destruct Hf as (? & ? & _ & _ & _ & ->); split; discriminate|subst files; split; reflexivity].
    - intros Hd. exact (C72_upwindMpi sz exec args n k _ Hrd Hn Hk HV (H2 Hd)).
  Qed.

  (** ** laplacian *)
  Theorem C72_laplacian dsin m_pi sz exec args n nd runs :
    readable ["-numCells"; "-numDims"] args -> int_option args "-numCells" 8000 n -> int_option args "-numDims" 2 nd ->
    (flag args "-vtk" = true -> 0 <= nd /\ may_save tolerant sz (repeat n (Z.to_nat nd))) ->
    lap_program ar show reduce (times sz) atof dsin m_pi sz (exec :: args) = Ok runs ->
    ends (map (lap_proc ar show reduce rtime wall atof tolerant dsin m_pi sz (exec :: args)) (all_ranks sz)) runs.
  Proof.
    intros Hrd Hn Hk Hv E. apply lockstep_always. apply (lap_lockstep ar show reduce rtime wall atof tolerant dsin m_pi sz _ _ E).
    set (p := clap_setBool _ _ _ _).
    destruct (parse_state atof lap_history p exec args ["-numCells"; "-numDims"] lap_options (pick n nd) eq_refl eq_refl eq_refl eq_refl) as (HK & HU).
    { intros a. split.
      - intros [<-|[<-|[<-|[<-|[]]]]]; [exists KBool|exists KInt|exists KInt|exists KBool]; simpl; tauto.
      - intros ([| | |] & H); simpl in H |- *; tauto. }
    { exact Hrd. }
    { intros key v [E'|[E'|[]]]; injection E' as <- <-; assumption. }
    intros a Hp Hb. destruct (known_or lap_options args) as [K|(x & Hx)].
    2:{ destruct (HU x Hx) as (_ & E'). rewrite E' in Hp. discriminate. }
    destruct (HK K) as (_ & E'). rewrite E' in Hp. injection Hp as <-.
    change (clap_getBool (given p exec args (pick n nd)) "-vtk") with (xorb false (flag args "-vtk")) in Hb. rewrite xorb_false_l in Hb.
    destruct (Hv Hb) as (H0 & H1 & H2 & H3). split; [exact H1|]. split; [exact H2|].
    change (clap_getInt (given p exec args (pick n nd)) "-numCells") with n. change (clap_getInt (given p exec args (pick n nd)) "-numDims") with nd.
    destruct (square_nd n (Z.to_nat nd) H3) as (Hd & Hmr).
    rewrite (u64_id n) by (unfold two64; lia). rewrite (u64_id nd) by (unfold two64; lia). exact H3.
  Qed.

  Theorem C72_laplacian_run dsin m_pi sz exec args n nd :
    readable ["-numCells"; "-numDims"] args -> int_option args "-numCells" 8000 n -> int_option args "-numDims" 2 nd ->
    known lap_options args -> flag args "-h" = false ->
    let dims := repeat n (Z.to_nat nd) in
    0 <= nd -> grid_ok dims -> 1 <= sz <= 2 ^ 30 ->
    (flag args "-vtk" = true -> tolerant = true \/ sz = 1) ->
    let ps := map (lap_proc ar show reduce rtime wall atof tolerant dsin m_pi sz (exec :: args)) (all_ranks sz) in
    (decomposable sz dims -> (n | 2 ^ 64) ->
       exists out warning files, ends ps (only_root sz (mkRun out warning files 0)) /\ (files = [] <-> flag args "-vtk" = false \/ 3 < nd)) /\
    (~ decomposable sz dims -> ends ps (only_root sz (mkRun "" no_decomp_report [] 0))).
  Proof.
    intros Hrd Hn Hk K Fh dims Hnd Hg Hs Hv ps.
    assert (HV : flag args "-vtk" = true -> 0 <= nd /\ may_save tolerant sz dims) by (intros H; split; [exact Hnd|]; split; [exact (Hv H)|split; [apply Hs|exact Hg]]).
    destruct (C70_laplacian_run ar show reduce (times sz) atof dsin m_pi sz exec args n nd Hrd Hn Hk K Fh Hnd Hg Hs) as (H1 & H2). split.
    - intros Hd Hm. destruct (H1 Hd Hm) as (r & parts & warning & files & _ & _ & _ & Hf & E). eexists _, warning, files.
      split; [exact (C72_laplacian dsin m_pi sz exec args n nd _ Hrd Hn Hk HV E)|].
      destruct (flag args "-vtk"); [destruct (Z.leb_spec nd 3); [destruct Hf as (? & ? & _ & _ & _ & _ & ->)|destruct Hf as (_ & ->)]|destruct Hf as (_ & ->)].
      + split; [discriminate|intros [Hc|Hc]; [discriminate|lia]].
      + split; [intros _; right; assumption|reflexivity].
      + split; [left; reflexivity|reflexivity].
    - intros Hd. exact (C72_laplacian dsin m_pi sz exec args n nd _ Hrd Hn Hk HV (H2 Hd)).
  Qed.

  (** ** testStencil2d *)
  Theorem C72_testStencil2d sz exec args n runs :
    readable ["-numCells"] args -> int_option args "-numCells" 8 n ->
    (flag args "-vtk" = true -> may_save tolerant sz [n; n]) ->
    st2_program ar show atof sz (exec :: args) = Ok runs ->
    ends (map (st2_proc ar show atof tolerant sz (exec :: args)) (all_ranks sz)) runs.
  Proof.
    intros Hrd Hn Hv E. apply lockstep_always. apply (st2_lockstep ar show atof tolerant sz _ _ E).
    set (p := clap_setBool _ _ _ _).
    destruct (parse_state atof st2_history p exec args ["-numCells"] st2_options (fun _ => n) eq_refl eq_refl eq_refl eq_refl) as (HK & HU).
    { intros a. split.
      - intros [<-|[<-|[<-|[]]]]; [exists KBool|exists KInt|exists KBool]; simpl; tauto.
      - intros ([| | |] & H); simpl in H |- *; tauto. }
    { exact Hrd. }
    { intros key v [E'|[]]; injection E' as <- <-; assumption. }
    intros a Hp Hb. destruct (known_or st2_options args) as [K|(x & Hx)].
    2:{ destruct (HU x Hx) as (_ & E'). rewrite E' in Hp. discriminate. }
    destruct (HK K) as (_ & E'). rewrite E' in Hp. injection Hp as <-.
    change (clap_getBool (given p exec args (fun _ => n)) "-vtk") with (xorb false (flag args "-vtk")) in Hb. rewrite xorb_false_l in Hb.
    destruct (Hv Hb) as (H1 & H2 & H3). split; [exact H1|]. split; [exact H2|].
    change (clap_getInt (given p exec args (fun _ => n)) "-numCells") with n. destruct (square_nd n 2 H3) as (_ & Hmr).
    rewrite (u64_id n) by (unfold two64; lia). exact H3.
  Qed.

  Theorem C72_testStencil2d_run sz exec args n :
    readable ["-numCells"] args -> int_option args "-numCells" 8 n ->
    known st2_options args -> flag args "-h" = false -> grid_ok [n; n] -> 1 <= sz <= 2 ^ 30 ->
    (flag args "-vtk" = true -> tolerant = true \/ sz = 1) ->
    decomposable sz [n; n] -> (n | 2 ^ 64) ->
    exists runs, st2_program ar show atof sz (exec :: args) = Ok runs /\ List.length runs = Z.to_nat sz /\
      ends (map (st2_proc ar show atof tolerant sz (exec :: args)) (all_ranks sz)) runs.
  Proof.
    intros Hrd Hn K Fh Hg Hs Hv Hd Hm.
    assert (HV : flag args "-vtk" = true -> may_save tolerant sz [n; n]) by (intros H; split; [exact (Hv H)|split; [apply Hs|exact Hg]]).
    destruct (C70_testStencil2d_run ar show (times sz) atof sz exec args n Hrd Hn K Fh Hg Hs) as (H1 & _).
    destruct (H1 Hd Hm) as (boxes & parts & files & _ & _ & _ & _ & runs & E & L & _).
    exists runs. split; [exact E|]. split; [exact L|]. exact (C72_testStencil2d sz exec args n _ Hrd Hn HV E).
  Qed.

  (** ** The collective calls

      In every execution, also when it ends in undefined behaviour or not at all, whatever the command line: a rank that has
      returned started MPI first, freed all the windows it created and no other, and ended MPI last. *)
  Notation after sched ps := (MpiSchedModel.run (S := filter D) (E := option D) (V := D) (R := TextModel.run) exposed sched (start ps)).

  Theorem C72_upwindMpi_calls sz argv sched c x r :
    after sched (map (um_proc ar show reduce rtime wall atof tolerant sz argv) (all_ranks sz)) = Some (Ok c) ->
    In x c -> pr x = Ret r -> orderly (map fst (colls x)).
  Proof. apply starting_orderly. intros p Hp. apply in_map_iff in Hp as (rk & <- & _). apply um_starting. Qed.

  Theorem C72_laplacian_calls dsin m_pi sz argv sched c x r :
    after sched (map (lap_proc ar show reduce rtime wall atof tolerant dsin m_pi sz argv) (all_ranks sz)) = Some (Ok c) ->
    In x c -> pr x = Ret r -> orderly (map fst (colls x)).
  Proof. apply starting_orderly. intros p Hp. apply in_map_iff in Hp as (rk & <- & _). apply lap_starting. Qed.

  Theorem C72_testStencil2d_calls sz argv sched c x r :
    after sched (map (st2_proc ar show atof tolerant sz argv) (all_ranks sz)) = Some (Ok c) ->
    In x c -> pr x = Ret r -> orderly (map fst (colls x)).
  Proof. apply starting_orderly. intros p Hp. apply in_map_iff in Hp as (rk & <- & _). apply st2_starting. Qed.
End Programs.
Print Assumptions C72_upwindMpi_calls.
Print Assumptions C72_laplacian_calls.
Print Assumptions C72_testStencil2d_calls.
Print Assumptions C72_upwindMpi.
Print Assumptions C72_upwindMpi_run.
Print Assumptions C72_laplacian.
Print Assumptions C72_laplacian_run.
Print Assumptions C72_testStencil2d.
Print Assumptions C72_testStencil2d_run.

(** ** Examples *)

(** A scheduler: the first possible event of a list, again and again. *)
Fixpoint pick_event {D} (c : config (filter D) (option D) D TextModel.run) (l : list event) : option (event * res (config (filter D) (option D) D TextModel.run)) :=
  match l with
  | [] => None
  | ev :: l => match turn exposed ev c with Some r => Some (ev, r) | None => pick_event c l end
  end.
Fixpoint drive {D} (fuel : nat) (l : list event) (c : config (filter D) (option D) D TextModel.run) : list event :=
  match fuel with
  | O => []
  | S fuel => match pick_event c l with
              | Some (ev, Ok c') => ev :: drive fuel l c'
              | Some (ev, Undef _) => [ev]
              | None => []
              end
  end.
Definition events (n : nat) : list event := flat_map (fun r => Proceed r :: map (Arrive r) (seq 0 8)) (seq 0 n).
Definition ex_num (z : Z) : string := show_int z.
Definition ex_reduce (i : nat) (l : list Z) : Z := fold_left Z.add l 0.
Definition ex_rtime (o : redop) (l : list Z) : Z := match o with Sum => fold_left Z.add l 0 | Min => fold_left Z.min l 99 | Max => fold_left Z.max l 0 end.
Definition ex_wall (rk : Z) : Z := 3 + rk.
Definition ex_atof (s : string) : Z := 0.
Definition ex_lap (tolerant : bool) (sz : Z) (args : list string) :=
  start (map (lap_proc arZ ex_num ex_reduce ex_rtime ex_wall ex_atof tolerant (fun x => x) 1 sz args) (all_ranks sz)).
Definition ex_um (tolerant : bool) (sz : Z) (args : list string) :=
  start (map (um_proc arZ ex_num ex_reduce ex_rtime ex_wall ex_atof tolerant sz args) (all_ranks sz)).
Definition ex_st2 (tolerant : bool) (sz : Z) (args : list string) :=
  start (map (st2_proc arZ ex_num ex_atof tolerant sz args) (all_ranks sz)).


(** An execution in the order [l], and what the ranks leave behind. *)
Definition outcome {D} (l : list event) (c : config (filter D) (option D) D TextModel.run) : nat * option (res (list (option TextModel.run))) :=
  let s := drive 5000 l c in
  (List.length s, match MpiSchedModel.run exposed s c with
                  | Some (Ok c) => Some (Ok (map (fun x => match pr x with Ret r => Some r | _ => None end) c))
                  | Some (Undef u) => Some (Undef u)
                  | None => None
                  end).

(** Two ranks on a 2 x 2 x 2 grid, with a file: rank 0 first whenever it can advance, and rank 1 first.  102 events. *)
Definition ex_um_args := ["upwindMpi"; "-numCells"; "2"; "-numSteps"; "2"; "-vtk"].
Example C72_upwindMpi_example :
  match um_program arZ ex_num ex_reduce (reduced_times ex_rtime ex_wall 2) ex_atof 2 ex_um_args with
  | Ok runs => outcome (events 2) (ex_um true 2 ex_um_args) = (102%nat, Some (Ok (map Some runs))) /\
               outcome (rev (events 2)) (ex_um true 2 ex_um_args) = (102%nat, Some (Ok (map Some runs))) /\
               drive 5000 (events 2) (ex_um true 2 ex_um_args) <> drive 5000 (rev (events 2)) (ex_um true 2 ex_um_args)
  | Undef _ => False
  end.
Proof. vm_compute. split; [reflexivity|]. split; [reflexivity|]. discriminate. Qed.

(** One axis, 4 cells, two ranks. *)
Definition ex_lap_args := ["laplacian"; "-numCells"; "4"; "-numDims"; "1"].
Example C72_laplacian_example :
  match lap_program arZ ex_num ex_reduce (reduced_times ex_rtime ex_wall 2) ex_atof (fun x => x) 1 2 ex_lap_args with
  | Ok runs => snd (outcome (events 2) (ex_lap false 2 ex_lap_args)) = Some (Ok (map Some runs)) /\
               snd (outcome (rev (events 2)) (ex_lap false 2 ex_lap_args)) = Some (Ok (map Some runs))
  | Undef _ => False
  end.
Proof. vm_compute. split; reflexivity. Qed.

(** Four ranks on a 4 x 4 grid, and a command line that is refused. *)
Definition ex_st2_args := ["testStencil2d"; "-numCells"; "4"].
Example C72_testStencil2d_example :
  match st2_program arZ ex_num ex_atof 4 ex_st2_args, st2_program arZ ex_num ex_atof 4 ["testStencil2d"; "-numcells"; "4"] with
  | Ok runs, Ok runs' =>
      snd (outcome (events 4) (ex_st2 false 4 ex_st2_args)) = Some (Ok (map Some runs)) /\
      snd (outcome (rev (events 4)) (ex_st2 false 4 ex_st2_args)) = Some (Ok (map Some runs)) /\
      outcome (events 4) (ex_st2 false 4 ["testStencil2d"; "-numcells"; "4"]) = (8%nat, Some (Ok (map Some runs')))
  | _, _ => False
  end.
Proof. vm_compute. split; [reflexivity|]. split; reflexivity. Qed.

(** With -vtk on several ranks the condition on [front] is needed: in the words of the C++ standard the programs are
    undefined there, Filter.cpp:504. *)
Theorem C72_file_strict_refuted :
  exists sched, MpiSchedModel.run exposed sched (ex_um false 2 ex_um_args) = Some (Undef EmptyFront).
Proof. exists (drive 5000 (events 2) (ex_um false 2 ex_um_args)). vm_compute. reflexivity. Qed.
Print Assumptions C72_file_strict_refuted.

(** testStencil2d on a number of ranks that does not fit: the first rank that comes to printOutData stops. *)
Example C72_testStencil2d_invalid : outcome (events 3) (ex_st2 false 3 ex_st2_args) = (2%nat, Some (Undef UninitRead)).
Proof. vm_compute. reflexivity. Qed.

(** The calls of the two ranks of laplacian. *)
Example C72_laplacian_calls_example :
  match MpiSchedModel.run exposed (drive 5000 (events 2) (ex_lap false 2 ex_lap_args)) (ex_lap false 2 ex_lap_args) with
  | Some (Ok c) => map (fun x => map fst (colls x)) c =
      repeat ([Init; WinCreate; WinCreate; Reduce Sum; Reduce Min; Reduce Max; Reduce Sum; Reduce Sum; WinFree [-1]; WinFree [1]; Finalize]) 2
  | _ => False
  end.
Proof. vm_compute. reflexivity. Qed.
