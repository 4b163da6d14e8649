(** * The MPI programs rank by rank: from MPI_Init to MPI_Finalize *)
From Coq Require Import List String.
From Verif Require Import Cpp CppProof OMap MaiModel CdModel CdSpec CmdModel FilterModel FilterSpec LapModel UpMpiModel VtkModel
  NumModel NumProof TextModel MpiTextModel MpiSchedModel MpiSchedSpec MpiSchedFilter MpiMainModel MpiMainProof.
Import ListNotations.
Local Open Scope string_scope.
Local Open Scope Z_scope.
Local Arguments Z.of_nat : simpl never.

Section Main.
  Context {D : Type} (ar : arith D) (show : D -> string) (reduce : nat -> list D -> D) (rtime : redop -> list D -> D) (wall : Z -> D)
    (atof : string -> D) (tolerant : bool).
  Notation process := (proc (filter D) (option D) D TextModel.run).
  Notation lockstep := (lockstep (S := filter D) (E := option D) (V := D) (R := TextModel.run) exposed).
  Notation ranks sz := (map Z.of_nat (seq 0 (Z.to_nat sz))).
  Implicit Types f : filter D.
  Implicit Types w : list (filter D).

  (** The reduced times. *)
  Definition reduced_times (sz : Z) : D * D * D :=
    (rtime Min (map wall (ranks sz)), rtime Max (map wall (ranks sz)), rtime Sum (map wall (ranks sz))).

  Lemma exit_lockstep w sz (out err : filter D -> string) files (T : Z -> TextModel.run) : ranked w -> List.length w = Z.to_nat sz ->
    (forall f, In f w -> mkRun (out f) (err f) (files f) 0 = T (f_rk f)) ->
    lockstep (map (fun f => exit_proc (out f) (err f) (files f)) w) (map T (ranks sz)).
  Proof using Type.
    intros HR HL HT. apply (coll_quiet exposed Finalize (fun _ => []) (fun _ => None) (fun f => Ret (mkRun (out f) (err f) (files f) 0))); [reflexivity|].
    rewrite <- HL, <- (ranked_ranks w HR), map_map. rewrite (map_ext_in _ (fun f => Ret (T (f_rk f)))) by (intros f Hf; rewrite (HT f Hf); reflexivity).
    rewrite <- (map_map (fun f => T (f_rk f)) (@Ret _ _ _ _)). apply lockstep_end.
  Qed.

  Lemma mapM_all {A B} (h : A -> res B) (h' : A -> B) l l' : (forall a, In a l -> h a = Ok (h' a)) -> mapM h l = Ok l' -> l' = map h' l.
  Proof using Type.
    revert l'. induction l as [|a l IH]; intros l' H E; cbn [mapM] in E; [inversion E; reflexivity|]. rewrite (H a (or_introl eq_refl)) in E. cbn [bind] in E.
    apply bind_ok in E as (t & Et & E). inversion E. cbn [map]. f_equal. apply IH; [|exact Et]. intros b Hb. apply H. right. exact Hb.
  Qed.

  Lemma refuse_lockstep sz msg success (args : clap D) runs : refuse show sz msg success args = Ok runs ->
    lockstep (map (fun rk => refuse_proc show rk msg success args) (ranks sz)) runs.
  Proof using Type.
    unfold refuse, refuse_proc. intros E. apply bind_ok in E as (h & Eh & E). rewrite Eh. inversion E. clear E. cbn [priv].
    unfold exit_proc. refine (coll_quiet exposed Finalize (fun _ => []) (fun _ => None) _ _ _ eq_refl _).
    match goal with |- lockstep _ (map ?T _) => rewrite (map_ext_in _ (fun rk => Ret (T rk))); [rewrite <- (map_map T (@Ret _ _ _ _)); apply lockstep_end|] end.
    intros rk _. cbv beta. unfold root. destruct success, (rk =? 0); reflexivity.
  Qed.

  Lemma root_root rk s : root rk (root 0 s) = root rk s.
  Proof using Type. reflexivity. Qed.

  (** The messages of the constructor. *)
  Lemma ctor_text_ranks sz dims v o e : ctor_text 0 sz dims = Ok (v, o, e) ->
    (exists c, cd_build cd_empty sz dims = Ok (v, c)) /\ forall rk, ctor_text rk sz dims = Ok (v, root rk o, root rk e).
  Proof using Type.
    unfold ctor_text. intros E. apply bind_ok in E as ((valid & c) & Eb & E). rewrite Eb. cbn [bind]. destruct valid; cbn [negb] in *.
    - apply bind_ok in E as (d & Ed & E). inversion E; subst. split; [eauto|]. intros rk. cbn [bind]. rewrite Ed. cbn [bind]. unfold root. destruct (rk =? 0); reflexivity.
    - inversion E; subst. split; [eauto|]. intros rk. unfold root. destruct (rk =? 0); reflexivity.
  Qed.

  Lemma save_text_ranks filename dims x0 x1 vtk wn fl : save_text ar show 0 filename dims x0 x1 vtk = Ok (wn, fl) ->
    forall rk, save_text ar show rk filename dims x0 x1 vtk = Ok (root rk wn, if rk =? 0 then fl else []).
  Proof using Type.
    unfold save_text. intros E rk. destruct vtk; [|inversion E; unfold root; destruct (rk =? 0); reflexivity]. change (0 =? 0) with true in E. unfold root.
    destruct (rk =? 0); [exact E|reflexivity].
  Qed.

  Lemma vget0 {A} (l : list A) a : vget l 0 = Ok a -> exists t, l = a :: t.
  Proof using Type. intros E. apply vget_inv in E as (_ & E). destruct l as [|b l]; [discriminate|]. inversion E; subst. eauto. Qed.

  (** All the filters just constructed have a valid decomposition if one has. *)
  Lemma new_valid sz dims x0 x1 st w f : world_new ar sz dims x0 x1 st = Ok w -> vget w 0 = Ok f ->
    1 <= sz /\ (exists c, cd_build cd_empty sz dims = Ok (f_valid f, c)) /\ forall g, In g w -> f_valid g = f_valid f.
  Proof using Type.
    intros E E0. destruct (world_new_const ar _ _ _ _ _ _ E) as (_ & HL & _ & HC). apply vget0 in E0 as (t & ->). cbn [List.length] in HL.
    destruct (HC f (or_introl eq_refl)) as (v & c & Eb & Hc). assert (f_valid f = v) as -> by (unfold const in Hc; congruence).
    split; [lia|]. split; [eauto|]. intros g Hg. destruct (HC g Hg) as (v' & c' & Eb' & Hc'). unfold const in Hc'. congruence.
  Qed.
  Lemma ranks_root sz : 1 <= sz -> In 0 (ranks sz).
  Proof using Type. intros H. apply in_map_iff. exists 0%nat. split; [reflexivity|]. apply in_seq. lia. Qed.
  Lemma mapM_in {A B} (h : A -> res B) l l' a : mapM h l = Ok l' -> In a l -> exists b, h a = Ok b.
  Proof using Type. intros E Ha. apply mapM_Forall2 in E. destruct (Forall2_in_l _ _ _ a E Ha) as (b & _ & Hb). eauto. Qed.

  (** ** laplacian.cxx *)
  Lemma lap_lockstep dsin m_pi sz argv runs :
    lap_program ar show reduce (reduced_times sz) atof dsin m_pi sz argv = Ok runs ->
    (forall args, clap_parse atof
        (clap_setBool (clap_setInt (clap_setInt (clap_setPurpose clap_new "Purpose: benchmark finite difference operations.")
           "-numCells" 8000 "Number of cells along each axis") "-numDims" 2 "Number of dimensions") "-vtk" false "Write output to VTK file") argv = Ok (true, args) ->
       clap_getBool args "-vtk" = true ->
       (tolerant = true \/ sz = 1) /\ sz <= 2 ^ 30 /\ grid_ok (repeat (u64 (clap_getInt args "-numCells")) (Z.to_nat (u64 (clap_getInt args "-numDims"))))) ->
    lockstep (map (lap_proc ar show reduce rtime wall atof tolerant dsin m_pi sz argv) (ranks sz)) runs.
  Proof using Type.
    intros E HV. unfold lap_program in E. unfold lap_proc.
    refine (coll_quiet exposed Init (fun _ => []) (fun _ => None) _ _ _ eq_refl _).
    set (args0 := clap_setBool _ _ _ _) in *. apply bind_ok in E as (msg & Em & E). rewrite Em. cbn [priv].
    apply bind_ok in E as ((success & args) & Ep & E). rewrite Ep. cbn [priv]. cbv zeta in E |- *.
    destruct (success && negb (clap_getBool args "-h")) eqn:Es.
    2:{ apply refuse_lockstep. exact E. }
    assert (success = true) as -> by (destruct success; [reflexivity|discriminate]). specialize (HV args Ep). clear Es Ep Em args0.
    apply bind_ok in E as (result & Eb & E). unfold lap_body in Eb. cbv zeta in Eb.
    set (numCells := u64 (clap_getInt args "-numCells")) in *. set (numDims := u64 (clap_getInt args "-numDims")) in *.
    set (dims := repeat numCells (Z.to_nat numDims)) in *. set (x0 := repeat (a_dec ar 0 1) (Z.to_nat numDims)) in *. set (x1 := repeat (a_dec ar 10 1) (Z.to_nat numDims)) in *.
    destruct (two31 <=? numDims); [discriminate|]. apply bind_ok in Eb as (st & Est & Eb). rewrite Est. cbn [priv].
    apply bind_ok in Eb as (w & Ew & Eb). apply bind_ok in Eb as (f0 & E0 & Eb).
    destruct (new_valid _ _ _ _ _ _ _ Ew E0) as (Hsz & (c & Ecd) & Hvalid). destruct (world_new_const ar _ _ _ _ _ _ Ew) as (HR & HL & HA & HC).
    destruct (mapM_in _ _ _ 0 E (ranks_root sz Hsz)) as (r0 & Er0). apply bind_ok in Er0 as (((v & o) & e) & Ec & Er0).
    destruct (ctor_text_ranks _ _ _ _ _ Ec) as ((c' & Ecd') & Hct). assert (v = f_valid f0) by congruence. subst v. clear c' Ecd'.
    rewrite (map_ext _ (fun rk => new_proc ar rk sz dims x0 x1 st (fun f =>
      let out := msg ++ root rk o in
      let err := root rk e ++ (if (f_rk f =? 0) && negb (filter_isDecompValid f) then "Decomposition is invalid" ++ newline else "") in
      if filter_isDecompValid f then
        program ar (ILocal (fun f => filter_setInData ar f (lap_func ar dsin m_pi)) :: List.concat (repeat [IApply; ILocal filter_copyOutToIn] 10)) (fun f =>
        times_proc ar rtime wall f (fun times =>
        output_proc ar show tolerant (clap_getBool args "-vtk") "laplacian.vtk" out err f (fun out err files f =>
        checksum_proc ar reduce 0 true f (fun inSum f =>
        checksum_proc ar reduce 1 false f (fun outSum f =>
        let out := out ++ (if f_rk f =? 0 then
          "Laplace" ++ times_text ar show times (f_sz f) ++ "Check sums: input = " ++ show inSum ++ " output = " ++ show outSum ++ newline else "") in
        delete_proc f (exit_proc out err files)))))) f
      else delete_proc f (exit_proc out err [])))).
    2:{ intros rk. rewrite Hct. reflexivity. }
    cbv zeta. refine (new_lockstep ar sz dims x0 x1 st w _ _ Ew _). unfold filter_isDecompValid in Eb |- *.
    destruct (f_valid f0) eqn:Ev; cbn [negb] in Eb.
    2:{ (* no decomposition *)
      inversion Eb; subst result. clear Eb Er0.
      rewrite (mapM_all _ (fun rk => mkRun (msg ++ root rk o) (root rk e ++ root rk ("Decomposition is invalid" ++ newline)) [] 0) _ _) with (2 := E).
      2:{ intros rk _. rewrite Hct. reflexivity. }
      rewrite (map_ext_in _ (fun f => delete_proc f (exit_proc (msg ++ root (f_rk f) o) (root (f_rk f) e ++ root (f_rk f) ("Decomposition is invalid" ++ newline)) []))).
      2:{ intros f Hf. rewrite (Hvalid f Hf), andb_true_r. reflexivity. }
      apply (delete_lockstep w _ _ HA). apply (exit_lockstep w sz _ _ _ (fun rk => mkRun (msg ++ root rk o) (root rk e ++ root rk ("Decomposition is invalid" ++ newline)) [] 0) HR HL).
      reflexivity. }
    apply bind_ok in Eb as (w1 & E1 & Eb). apply bind_ok in Eb as (w2 & E2 & Eb). apply bind_ok in Eb as (vtk & Evtk & Eb).
    apply bind_ok in Eb as (ins & Ein & Eb). apply bind_ok in Eb as (outs & Eout & Eb). inversion Eb; subst result. clear Eb. cbn [lr_vtk lr_in lr_out] in *.
    pose proof (setInData_moved ar _ _ _ E1) as M1.
    assert (M2 : moved w1 w2) by (apply (repeat_moved ar 10 0 w1 w2 (fun f => moved_ended w w1 f M1) E2)).
    pose proof (moved_trans _ _ _ M1 M2) as M. pose proof (ranked_const _ _ (moved_const _ _ M) HR) as HR2. pose proof (moved_alike _ _ M HA) as HA2.
    assert (HE2 : forall f, In f w2 -> ended f) by (intros f; apply (moved_ended w w2 f M)).
    assert (HL2 : List.length w2 = Z.to_nat sz) by (rewrite <- HL; symmetry; apply (Forall2_len _ _ _ M)).
    assert (HC2 : forall f, In f w2 -> f_sz f = sz /\ f_globalDims f = dims /\ f_xmins f = x0 /\ f_xmaxs f = x1).
    { intros f Hf. destruct (Forall2_in_r _ _ _ f (moved_const _ _ M) Hf) as (g & Hg & Eg). destruct (HC g Hg) as (v' & c' & _ & Hc). unfold const in *. split; [congruence|]. split; [congruence|]. split; congruence. }
    apply bind_ok in Er0 as ((warning & files) & Esv & _). pose proof (save_text_ranks _ _ _ _ _ _ _ Esv) as Hsv.
    set (tail := announce "laplacian.vtk" vtk ++ "Laplace" ++ times_text ar show (reduced_times sz) sz ++
                         "Check sums: input = " ++ show (reduce 0%nat ins) ++ " output = " ++ show (reduce 1%nat outs) ++ newline) in *.
    rewrite (mapM_all _ (fun rk => mkRun (msg ++ root rk o ++ root rk tail) (root rk e ++ root rk warning) (if rk =? 0 then files else []) 0) _ _) with (2 := E).
    2:{ intros rk _. rewrite Hct. cbn [bind]. rewrite Hsv. reflexivity. }
    clear E.
    set (K5 := fun (times : D * D * D) out err files (inSum outSum : D) f => delete_proc f (exit_proc (out ++ (if f_rk f =? 0 then
          "Laplace" ++ times_text ar show times (f_sz f) ++ "Check sums: input = " ++ show inSum ++ " output = " ++ show outSum ++ newline else "")) err files)).
    set (K3 := fun times out err files f => checksum_proc ar reduce 0 true f (fun inSum f => checksum_proc ar reduce 1 false f (fun outSum f => K5 times out err files inSum outSum f))).
    set (K2 := fun rk times f => output_proc ar show tolerant (clap_getBool args "-vtk") "laplacian.vtk" (msg ++ root rk o) (root rk e) f (fun out err files f => K3 times out err files f)).
    set (K1 := fun rk f => times_proc ar rtime wall f (fun times => K2 rk times f)).
    rewrite (map_ext_in _ (fun f => program ar (ILocal (fun f => filter_setInData ar f (lap_func ar dsin m_pi)) :: List.concat (repeat [IApply; ILocal filter_copyOutToIn] 10)) (K1 (f_rk f)) f)).
    2:{ intros f Hf. rewrite (Hvalid f Hf), andb_false_r, append_nil. reflexivity. }
    apply (program_lockstep ar _ K1 _) with (w' := w2).
    { intros i [<-|Hi]; [cbn [keeps_shape]; apply setInData_shape|]. apply in_concat in Hi as (l & Hl & Hi). apply repeat_spec in Hl. subst l.
      destruct Hi as [<-|[<-|[]]]; [exact I|]. cbn [keeps_shape]. apply copyOutToIn_shape. }
    { exact HA. }
    { cbn [for_each]. change (world_instr ar (ILocal (fun f => filter_setInData ar f (lap_func ar dsin m_pi))) w) with (world_setInData ar w (lap_func ar dsin m_pi)). rewrite E1. cbn [bind].
      rewrite <- (repeat_instr ar 10 0). exact E2. }
    intros _. clear M1 E1 E2 HA HC.
    apply (times_lockstep ar rtime wall (fun f times => K2 (f_rk f) times f) w2 _ HR2).
    assert (HW : clap_getBool args "-vtk" = true -> even w2 /\ (tolerant = true \/ List.length w2 = 1%nat)).
    { intros Hw. destruct (HV Hw) as (V1 & V2 & V3). split; [|destruct V1 as [V1|V1]; [left; exact V1|right; rewrite HL2, V1; reflexivity]].
      apply (moved_even w w2 M). apply (new_even ar sz dims x0 x1 st w Ew); [exact Hvalid|exact V3|lia]. }
    destruct (output_lockstep ar show tolerant (clap_getBool args "-vtk") "laplacian.vtk" (fun rk => msg ++ root rk o) (fun rk => root rk e) w2 vtk dims x0 x1 warning files HR2 HE2
      (fun f Hf => proj2 (HC2 f Hf)) HW Evtk Esv) as (w3 & HU & HO).
    apply (HO (fun rk out err files f => K3 (times_of ar rtime wall (map f_rk w2) rk) out err files f)). clear HO.
    pose proof (upto_moved _ _ HU HE2) as M3. pose proof (ranked_const _ _ (moved_const _ _ M3) HR2) as HR3.
    assert (HE3 : forall f, In f w3 -> ended f) by (intros f; apply (moved_ended w2 w3 f M3)).
    assert (HL3 : List.length w3 = Z.to_nat sz) by (rewrite <- HL2; symmetry; apply (Forall2_len _ _ _ M3)).
    rewrite <- (upto_sums ar _ _ _ HU) in Ein. rewrite <- (upto_sums ar _ _ _ HU) in Eout.
    refine (checksum_lockstep ar reduce 0 true (fun f0 inSum f => checksum_proc ar reduce 1 false f (fun outSum f => K5 (times_of ar rtime wall (map f_rk w2) (f_rk f0)) ((msg ++ root (f_rk f0) o) ++ root (f_rk f0) (announce "laplacian.vtk" vtk)) (root (f_rk f0) e ++ root (f_rk f0) warning) (if f_rk f0 =? 0 then files else []) inSum outSum f)) w3 ins _ HR3 HE3 Ein _).
    refine (checksum_lockstep ar reduce 1 false (fun f0 outSum f => K5 (times_of ar rtime wall (map f_rk w2) (f_rk f0)) ((msg ++ root (f_rk f0) o) ++ root (f_rk f0) (announce "laplacian.vtk" vtk)) (root (f_rk f0) e ++ root (f_rk f0) warning) (if f_rk f0 =? 0 then files else []) (if f_rk f0 =? 0 then reduce 0%nat ins else a_zero ar) outSum f) w3 outs _ HR3 HE3 Eout _).
    apply (delete_lockstep w3 (fun f => exit_proc _ _ _) _ (moved_alike _ _ M3 HA2)).
    apply (exit_lockstep w3 sz _ _ _ _ HR3 HL3). intros f Hf.
    destruct (Forall2_in_r _ _ _ f (moved_const _ _ M3) Hf) as (g & Hg & Eg). assert (Hs : f_sz f = sz) by (destruct (HC2 g Hg) as (Hs & _); unfold const in Eg; congruence).
    rewrite Hs, (ranked_ranks _ HR2), HL2. unfold times_of, root, tail. destruct (f_rk f =? 0); [|rewrite ?append_nil; reflexivity].
    rewrite !append_assoc. reflexivity.
  Qed.

  (** ** upwindMpi.cxx *)
  Lemma um_lockstep sz argv runs :
    um_program ar show reduce (reduced_times sz) atof sz argv = Ok runs ->
    (forall args, clap_parse atof
        (clap_setBool (clap_setInt (clap_setInt (clap_setPurpose clap_new "Purpose: benchmark finite difference operations.")
           "-numCells" 128 "Number of cells along each axis") "-numSteps" 10 "Number of time steps") "-vtk" false "Write output to VTK file") argv = Ok (true, args) ->
       clap_getBool args "-vtk" = true ->
       (tolerant = true \/ sz = 1) /\ sz <= 2 ^ 30 /\ grid_ok (repeat (u64 (clap_getInt args "-numCells")) 3)) ->
    lockstep (map (um_proc ar show reduce rtime wall atof tolerant sz argv) (ranks sz)) runs.
  Proof using Type.
    intros E HV. unfold um_program in E. unfold um_proc.
    refine (coll_quiet exposed Init (fun _ => []) (fun _ => None) _ _ _ eq_refl _).
    set (args0 := clap_setBool _ _ _ _) in *. apply bind_ok in E as (msg & Em & E). rewrite Em. cbn [priv].
    apply bind_ok in E as ((success & args) & Ep & E). rewrite Ep. cbn [priv]. cbv zeta in E |- *.
    destruct (success && negb (clap_getBool args "-h")) eqn:Es.
    2:{ apply refuse_lockstep. exact E. }
    assert (success = true) as -> by (destruct success; [reflexivity|discriminate]). specialize (HV args Ep). clear Es Ep Em args0.
    apply bind_ok in E as (result & Eb & E). unfold um_body in Eb. cbv zeta in Eb. change (Z.to_nat 3) with 3%nat in Eb.
    set (numCells := u64 (clap_getInt args "-numCells")) in *. set (numSteps := u64 (clap_getInt args "-numSteps")) in *.
    set (dims := repeat numCells 3) in *. set (x0 := repeat (a_dec ar 0 1) 3) in *. set (x1 := repeat (a_dec ar 10 1) 3) in *.
    apply bind_ok in Eb as (((deltas & signs) & dt) & Eax & Eb). rewrite Eax. cbn [bind]. apply bind_ok in Eb as (st & Est & Eb). rewrite Est. cbn [priv].
    apply bind_ok in Eb as (w & Ew & Eb). apply bind_ok in Eb as (f0 & E0 & Eb).
    destruct (new_valid _ _ _ _ _ _ _ Ew E0) as (Hsz & (c & Ecd) & Hvalid). destruct (world_new_const ar _ _ _ _ _ _ Ew) as (HR & HL & HA & HC).
    destruct (mapM_in _ _ _ 0 E (ranks_root sz Hsz)) as (r0 & Er0). apply bind_ok in Er0 as (((v & o) & e) & Ec & Er0).
    destruct (ctor_text_ranks _ _ _ _ _ Ec) as ((c' & Ecd') & Hct). assert (v = f_valid f0) by congruence. subst v. clear c' Ecd'.
    rewrite (map_ext _ (fun rk => new_proc ar rk sz dims x0 x1 st (fun f =>
      let out := msg ++ root rk o in
      let err := root rk e ++ (if (f_rk f =? 0) && negb (filter_isDecompValid f) then "Decomposition is invalid" ++ newline else "") in
      if filter_isDecompValid f then
        priv (filter_setInDataByIndices f (um_init ar)) (fun f =>
        steps_proc ar show reduce (Z.to_nat numSteps) 0 out f (fun out f =>
        times_proc ar rtime wall f (fun times =>
        output_proc ar show tolerant (clap_getBool args "-vtk") "upMpi.vtk" out err f (fun out err files f =>
        checksum_proc ar reduce (2 * Z.to_nat numSteps) false f (fun outSum f =>
        let out := out ++ (if f_rk f =? 0 then times_text ar show times (f_sz f) ++ "Check sum: " ++ show outSum ++ newline else "") in
        delete_proc f (exit_proc out err files))))))
      else delete_proc f (exit_proc out err [])))).
    2:{ intros rk. rewrite Hct. reflexivity. }
    cbv zeta. refine (new_lockstep ar sz dims x0 x1 st w _ _ Ew _). unfold filter_isDecompValid in Eb |- *.
    destruct (f_valid f0) eqn:Ev; cbn [negb] in Eb.
    2:{ (* no decomposition *)
      inversion Eb; subst result. clear Eb Er0.
      rewrite (mapM_all _ (fun rk => mkRun (msg ++ root rk o) (root rk e ++ root rk ("Decomposition is invalid" ++ newline)) [] 0) _ _) with (2 := E).
      2:{ intros rk _. rewrite Hct. reflexivity. }
      rewrite (map_ext_in _ (fun f => delete_proc f (exit_proc (msg ++ root (f_rk f) o) (root (f_rk f) e ++ root (f_rk f) ("Decomposition is invalid" ++ newline)) []))).
      2:{ intros f Hf. rewrite (Hvalid f Hf), andb_true_r. reflexivity. }
      apply (delete_lockstep w _ _ HA). apply (exit_lockstep w sz _ _ _ (fun rk => mkRun (msg ++ root rk o) (root rk e ++ root rk ("Decomposition is invalid" ++ newline)) [] 0) HR HL).
      reflexivity. }
    apply bind_ok in Eb as (w1 & E1 & Eb). apply bind_ok in Eb as ((w2 & sums) & E2 & Eb). apply bind_ok in Eb as (vtk & Evtk & Eb).
    apply bind_ok in Eb as (outs & Eout & Eb). inversion Eb; subst result. clear Eb. cbn [um_vtk um_sums um_final] in *.
    pose proof (setInDataByIndices_moved _ _ _ E1) as M1. pose proof (ranked_const _ _ (moved_const _ _ M1) HR) as HR1. pose proof (moved_alike _ _ M1 HA) as HA1.
    assert (HE1 : forall f, In f w1 -> ended f) by (intros f; apply (moved_ended w w1 f M1)).
    destruct (steps_lockstep ar show reduce (Z.to_nat numSteps) 0 (fun rk => msg ++ root rk o) w1 w2 [] sums HR1 HA1 HE1 E2) as (M2 & news & Enews & Hnews & HSteps).
    cbn [app] in Enews. subst news.
    pose proof (moved_trans _ _ _ M1 M2) as M. pose proof (ranked_const _ _ (moved_const _ _ M) HR) as HR2. pose proof (moved_alike _ _ M HA) as HA2.
    assert (HE2 : forall f, In f w2 -> ended f) by (intros f; apply (moved_ended w w2 f M)).
    assert (HL2 : List.length w2 = Z.to_nat sz) by (rewrite <- HL; symmetry; apply (Forall2_len _ _ _ M)).
    assert (HC2 : forall f, In f w2 -> f_sz f = sz /\ f_globalDims f = dims /\ f_xmins f = x0 /\ f_xmaxs f = x1).
    { intros f Hf. destruct (Forall2_in_r _ _ _ f (moved_const _ _ M) Hf) as (g & Hg & Eg). destruct (HC g Hg) as (v' & c' & _ & Hc). unfold const in *. split; [congruence|]. split; [congruence|]. split; congruence. }
    apply bind_ok in Er0 as ((warning & files) & Esv & _). pose proof (save_text_ranks _ _ _ _ _ _ _ Esv) as Hsv. rewrite Hnews in E.
    set (tail := iters_text show reduce 0 sums ++ announce "upMpi.vtk" vtk ++ times_text ar show (reduced_times sz) sz ++
                         "Check sum: " ++ show (reduce (2 * Z.to_nat numSteps)%nat outs) ++ newline) in *.
    rewrite (mapM_all _ (fun rk => mkRun (msg ++ root rk o ++ root rk tail) (root rk e ++ root rk warning) (if rk =? 0 then files else []) 0) _ _) with (2 := E).
    2:{ intros rk _. rewrite Hct. cbn [bind]. rewrite Hsv. reflexivity. }
    clear E.
    set (K5 := fun (times : D * D * D) out err files (outSum : D) f => delete_proc f (exit_proc (out ++ (if f_rk f =? 0 then times_text ar show times (f_sz f) ++ "Check sum: " ++ show outSum ++ newline else "")) err files)).
    set (K3 := fun times out err files f => checksum_proc ar reduce (2 * Z.to_nat numSteps) false f (fun outSum f => K5 times out err files outSum f)).
    set (K2 := fun rk times out f => output_proc ar show tolerant (clap_getBool args "-vtk") "upMpi.vtk" out (root rk e) f (fun out err files f => K3 times out err files f)).
    set (K1 := fun rk out f => times_proc ar rtime wall f (fun times => K2 rk times out f)).
    erewrite (map_Forall2 _ _ (fun f => steps_proc ar show reduce (Z.to_nat numSteps) 0 (msg ++ root (f_rk f) o) f (K1 (f_rk f))) w w1) with (2 := Forall2_imp _ _ _ _ (fun f f' Hf H => conj (Hvalid f Hf) H) (mapM_Forall2 _ _ _ E1)).
    2:{ intros f f' (Hf & H). rewrite Hf, andb_false_r, append_nil, H. pose proof (shape_const _ _ (setInDataByIndices_shape _ _ _ H)) as Hc.
        assert (f_rk f' = f_rk f) as -> by (unfold const in Hc; congruence). reflexivity. }
    apply HSteps. clear HSteps M1 E1 E2 HA HC.
    apply (times_lockstep ar rtime wall (fun f times => K2 (f_rk f) times ((msg ++ root (f_rk f) o) ++ root (f_rk f) (iters_text show reduce 0 sums)) f) w2 _ HR2).
    assert (HW : clap_getBool args "-vtk" = true -> even w2 /\ (tolerant = true \/ List.length w2 = 1%nat)).
    { intros Hw. destruct (HV Hw) as (V1 & V2 & V3). split; [|destruct V1 as [V1|V1]; [left; exact V1|right; rewrite HL2, V1; reflexivity]].
      apply (moved_even w w2 M). apply (new_even ar sz dims x0 x1 st w Ew); [exact Hvalid|exact V3|lia]. }
    destruct (output_lockstep ar show tolerant (clap_getBool args "-vtk") "upMpi.vtk" (fun rk => (msg ++ root rk o) ++ root rk (iters_text show reduce 0 sums)) (fun rk => root rk e) w2 vtk dims x0 x1 warning files HR2 HE2
      (fun f Hf => proj2 (HC2 f Hf)) HW Evtk Esv) as (w3 & HU & HO).
    apply (HO (fun rk out err files f => K3 (times_of ar rtime wall (map f_rk w2) rk) out err files f)). clear HO.
    pose proof (upto_moved _ _ HU HE2) as M3. pose proof (ranked_const _ _ (moved_const _ _ M3) HR2) as HR3.
    assert (HE3 : forall f, In f w3 -> ended f) by (intros f; apply (moved_ended w2 w3 f M3)).
    assert (HL3 : List.length w3 = Z.to_nat sz) by (rewrite <- HL2; symmetry; apply (Forall2_len _ _ _ M3)).
    rewrite <- (upto_sums ar _ _ _ HU) in Eout.
    refine (checksum_lockstep ar reduce (2 * Z.to_nat numSteps) false (fun f0 outSum f => K5 (times_of ar rtime wall (map f_rk w2) (f_rk f0)) (((msg ++ root (f_rk f0) o) ++ root (f_rk f0) (iters_text show reduce 0 sums)) ++ root (f_rk f0) (announce "upMpi.vtk" vtk)) (root (f_rk f0) e ++ root (f_rk f0) warning) (if f_rk f0 =? 0 then files else []) outSum f) w3 outs _ HR3 HE3 Eout _).
    apply (delete_lockstep w3 (fun f => exit_proc _ _ _) _ (moved_alike _ _ M3 HA2)).
    apply (exit_lockstep w3 sz _ _ _ _ HR3 HL3). intros f Hf.
    destruct (Forall2_in_r _ _ _ f (moved_const _ _ M3) Hf) as (g & Hg & Eg). assert (Hs : f_sz f = sz) by (destruct (HC2 g Hg) as (Hs & _); unfold const in Eg; congruence).
    rewrite Hs, (ranked_ranks _ HR2), HL2. unfold times_of, root, tail. destruct (f_rk f =? 0); [|rewrite ?append_nil; reflexivity].
    rewrite !append_assoc. reflexivity.
  Qed.

  (** ** testStencil2d.cxx *)
  Lemma st2_lockstep sz argv runs :
    st2_program ar show atof sz argv = Ok runs ->
    (forall args, clap_parse atof
        (clap_setBool (clap_setInt (clap_setPurpose clap_new "Purpose: benchmark finite difference operations.")
           "-numCells" 8 "Number of cells along each axis") "-vtk" false "Write output to VTK file") argv = Ok (true, args) ->
       clap_getBool args "-vtk" = true ->
       (tolerant = true \/ sz = 1) /\ sz <= 2 ^ 30 /\ grid_ok (repeat (u64 (clap_getInt args "-numCells")) 2)) ->
    lockstep (map (st2_proc ar show atof tolerant sz argv) (ranks sz)) runs.
  Proof using Type.
    intros E HV. unfold st2_program in E. unfold st2_proc.
    refine (coll_quiet exposed Init (fun _ => []) (fun _ => None) _ _ _ eq_refl _).
    set (args0 := clap_setBool _ _ _ _) in *. apply bind_ok in E as (msg & Em & E). rewrite Em. cbn [priv].
    apply bind_ok in E as ((success & args) & Ep & E). rewrite Ep. cbn [priv]. cbv zeta in E |- *.
    destruct (success && negb (clap_getBool args "-h")) eqn:Es.
    2:{ apply refuse_lockstep. exact E. }
    assert (success = true) as -> by (destruct success; [reflexivity|discriminate]). specialize (HV args Ep). clear Es Ep Em args0.
    apply bind_ok in E as ((lines & vtk) & Eb & E). unfold st2_body in Eb. cbv zeta in Eb.
    set (numCells := u64 (clap_getInt args "-numCells")) in *.
    change [numCells; numCells] with (repeat numCells 2) in Eb. change [a_dec ar 0 1; a_dec ar 0 1] with (repeat (a_dec ar 0 1) 2) in Eb. change [a_dec ar 10 1; a_dec ar 10 1] with (repeat (a_dec ar 10 1) 2) in Eb.
    set (dims := repeat numCells 2) in *. set (x0 := repeat (a_dec ar 0 1) 2) in *. set (x1 := repeat (a_dec ar 10 1) 2) in *.
    apply bind_ok in Eb as (w & Ew & Eb). apply bind_ok in Eb as (f0 & E0 & Eb).
    destruct (new_valid _ _ _ _ _ _ _ Ew E0) as (Hsz & (c & Ecd) & Hvalid). destruct (world_new_const ar _ _ _ _ _ _ Ew) as (HR & HL & HA & HC).
    destruct (mapM_in _ _ _ 0 E (ranks_root sz Hsz)) as (r0 & Er0). apply bind_ok in Er0 as (((v & o) & e) & Ec & Er0).
    destruct (ctor_text_ranks _ _ _ _ _ Ec) as ((c' & Ecd') & Hct). assert (v = f_valid f0) by congruence. subst v. clear c' Ecd'.
    apply bind_ok in Eb as (w2 & E2 & Eb). apply bind_ok in Eb as (ls & Els & Eb). apply bind_ok in Eb as (vtk' & Evtk & Eb). inversion Eb; subst ls vtk'. clear Eb.
    unfold filter_isDecompValid in E2. destruct (f_valid f0) eqn:Ev.
    2:{ (* no decomposition *)
      exfalso. inversion E2; subst w2. apply vget0 in E0 as (t & E0). rewrite E0 in Els. cbn [mapM] in Els. apply bind_ok in Els as (l0 & El & _).
      destruct (Forall2_in_r _ _ _ f0 (world_new_Forall2 ar _ _ _ _ _ _ Ew) ltac:(rewrite E0; left; reflexivity)) as (rk & _ & En).
      unfold filter_new in En. rewrite Ecd in En. cbn [bind negb] in En. inversion En; subst f0. discriminate El. }
    apply bind_ok in E2 as (w1 & E1 & E2). pose proof (setInDataByIndices_moved _ _ _ E1) as M1. pose proof (apply_moved ar _ _ E2) as M2.
    rewrite (map_ext _ (fun rk => new_proc ar rk sz dims x0 x1 (st2_stencil ar) (fun f =>
      let out := msg ++ root rk o in
      let err := root rk e ++ (if (f_rk f =? 0) && negb (filter_isDecompValid f) then "Decomposition is invalid" ++ newline else "") in
      program ar (if filter_isDecompValid f then [ILocal (fun f => filter_setInDataByIndices f (st2_func ar)); IApply] else []) (fun f =>
      priv (filter_print f false) (fun '(lines, f) =>
      let err := err ++ outData_text show (f_rk f) lines in
      output_proc ar show tolerant (clap_getBool args "-vtk") "stencil2d.vtk" out err f (fun out err files f =>
      delete_proc f (exit_proc out err files)))) f))).
    2:{ intros rk. rewrite Hct. reflexivity. }
    cbv zeta. refine (new_lockstep ar sz dims x0 x1 _ w _ _ Ew _). unfold filter_isDecompValid.
    pose proof (moved_trans _ _ _ M1 M2) as M. pose proof (ranked_const _ _ (moved_const _ _ M) HR) as HR2. pose proof (moved_alike _ _ M HA) as HA2.
    assert (HE2 : forall f, In f w2 -> ended f) by (intros f; apply (moved_ended w w2 f M)).
    assert (HL2 : List.length w2 = Z.to_nat sz) by (rewrite <- HL; symmetry; apply (Forall2_len _ _ _ M)).
    assert (HC2 : forall f, In f w2 -> f_sz f = sz /\ f_globalDims f = dims /\ f_xmins f = x0 /\ f_xmaxs f = x1).
    { intros f Hf. destruct (Forall2_in_r _ _ _ f (moved_const _ _ M) Hf) as (g & Hg & Eg). destruct (HC g Hg) as (v' & c' & _ & Hc). unfold const in *. split; [congruence|]. split; [congruence|]. split; congruence. }
    apply bind_ok in Er0 as (ls0 & _ & Er0). apply bind_ok in Er0 as ((warning & files) & Esv & _). pose proof (save_text_ranks _ _ _ _ _ _ _ Esv) as Hsv.
    set (L := fun rk => nth (Z.to_nat rk) lines []).
    assert (HP : forall f, In f w2 -> filter_print f false = Ok (L (f_rk f), f)).
    { intros f Hf. pose proof (HE2 f Hf) as Hend. apply In_nth_error in Hf as (i & Ei). apply mapM_Forall2 in Els. destruct (Forall2_nth _ _ _ i f Els Ei) as (l & El & Hl).
      apply bind_ok in Hl as ((l' & f') & Hl & E'). inversion E'; subst l'. rewrite (print_ended f false l f' Hend Hl) in Hl. rewrite Hl. do 2 f_equal. unfold L.
      rewrite (HR2 i f Ei), Nat2Z.id. symmetry. apply nth_error_nth. exact El. }
    assert (Hlen : List.length lines = Z.to_nat sz) by (rewrite <- HL2; symmetry; apply mapM_Forall2 in Els; apply (Forall2_len _ _ _ Els)).
    rewrite (mapM_all _ (fun rk => mkRun (msg ++ root rk o ++ root rk (announce "stencil2d.vtk" vtk)) (root rk e ++ "" ++ outData_text show rk (L rk) ++ root rk warning) (if rk =? 0 then files else []) 0) _ _) with (2 := E).
    2:{ intros rk Hrk. rewrite Hct. cbn [bind]. apply in_map_iff in Hrk as (i & <- & Hi). apply in_seq in Hi. rewrite (vget_nat lines i []) by (rewrite Hlen; lia).
        cbn [bind]. rewrite Hsv. cbn [bind]. unfold L. rewrite Nat2Z.id. reflexivity. }
    clear E.
    set (K2 := fun (out err : string) files f => delete_proc f (exit_proc out err files)).
    set (K1 := fun rk f => priv (filter_print f false) (fun '(lines, f) => output_proc ar show tolerant (clap_getBool args "-vtk") "stencil2d.vtk" (msg ++ root rk o) (root rk e ++ outData_text show (f_rk f) lines) f (fun out err files f => K2 out err files f))).
    rewrite (map_ext_in _ (fun f => program ar [ILocal (fun f => filter_setInDataByIndices f (st2_func ar)); IApply] (K1 (f_rk f)) f)).
    2:{ intros f Hf. rewrite (Hvalid f Hf), andb_false_r, append_nil. reflexivity. }
    apply (program_lockstep ar _ K1 _) with (w' := w2).
    { intros i [<-|[<-|[]]]; [cbn [keeps_shape]; apply setInDataByIndices_shape|exact I]. }
    { exact HA. }
    { cbn [for_each]. change (world_instr ar (ILocal (fun f => filter_setInDataByIndices f (st2_func ar))) w) with (world_setInDataByIndices w (st2_func ar)). rewrite E1. cbn [bind world_instr].
      rewrite E2. reflexivity. }
    intros _. clear M1 M2 E1 E2 HA HC.
    rewrite (map_ext_in _ (fun f => output_proc ar show tolerant (clap_getBool args "-vtk") "stencil2d.vtk" (msg ++ root (f_rk f) o) (root (f_rk f) e ++ outData_text show (f_rk f) (L (f_rk f))) f (fun out err files f => K2 out err files f))).
    2:{ intros f Hf. unfold K1. rewrite (HP f Hf). reflexivity. }
    assert (HW : clap_getBool args "-vtk" = true -> even w2 /\ (tolerant = true \/ List.length w2 = 1%nat)).
    { intros Hw. destruct (HV Hw) as (V1 & V2 & V3). split; [|destruct V1 as [V1|V1]; [left; exact V1|right; rewrite HL2, V1; reflexivity]].
      apply (moved_even w w2 M). apply (new_even ar sz dims x0 x1 _ w Ew); [exact Hvalid|exact V3|lia]. }
    destruct (output_lockstep ar show tolerant (clap_getBool args "-vtk") "stencil2d.vtk" (fun rk => msg ++ root rk o) (fun rk => root rk e ++ outData_text show rk (L rk)) w2 vtk dims x0 x1 warning files HR2 HE2
      (fun f Hf => proj2 (HC2 f Hf)) HW Evtk Esv) as (w3 & HU & HO).
    apply (HO (fun _ => K2)). clear HO.
    pose proof (upto_moved _ _ HU HE2) as M3. pose proof (ranked_const _ _ (moved_const _ _ M3) HR2) as HR3.
    assert (HL3 : List.length w3 = Z.to_nat sz) by (rewrite <- HL2; symmetry; apply (Forall2_len _ _ _ M3)).
    apply (delete_lockstep w3 (fun f => exit_proc _ _ _) _ (moved_alike _ _ M3 HA2)).
    apply (exit_lockstep w3 sz _ _ _ _ HR3 HL3). intros f Hf. rewrite !append_assoc. reflexivity.
  Qed.
End Main.
