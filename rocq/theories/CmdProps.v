(** * Properties C17-C25: CmdLineArgParser

    [run_history atof hist] (CmdProof.v) is the state of a parser on which a program has performed the
    calls [hist] (registrations, parses, ...), starting from the constructor. *)
From Coq Require Import DecimalString DecimalZ FinFun.
From Verif Require Import Cpp CppProof OMap CmdModel CmdSpec CmdProof.
Local Open Scope Z_scope.
Local Open Scope string_scope.

(** The program of the examples: the options of upwind.cxx:143-148 plus a double and a string. *)
Definition ex_hist : list (action Z) :=
  [ APurpose "Purpose: benchmark finite difference operations.";
    ASetInt "-numCells" 128 "Number of cells along each axis";
    ASetInt "-numSteps" 10 "Number of time steps";
    ASetBool "-vtk" false "Write output to VTK file";
    ASetDouble "-courant" 7 "Courant number";
    ASetString "-file" "out.vtk" "File name" ].
Definition ex_atof (s : string) : Z := Z.of_nat (String.length s).

Section Props.
  Context {D : Type}.
  Variables (atof : string -> D) (negmax : D).
  Implicit Types p : clap D.

  (** ** C17 *)
  Theorem C17_accepts_iff_registered :
    forall hist p argv b p',
      run_history atof hist = Ok p -> clap_parse atof p argv = Ok (b, p') ->
      (b = true <-> forall a, In a (tl argv) -> looks_like_option a -> registered_any hist a).
  Proof.
    intros hist p argv b p' Hr H. apply run_history_spec in Hr as (Hwf & Hn & _).
    assert (G : clap_validate p (tl argv) = Ok b).
    { unfold clap_parse in H. apply bind_ok in H as (exec & He & H). apply bind_ok in H as (v & Hv & H).
      assert (E : v = b).
      { destruct v; cbn [negb] in H; [|inversion H; reflexivity].
        do 4 (apply bind_ok in H as (? & _ & H)). inversion H; reflexivity. }
      subst v. rewrite <- Hv. clear. induction (tl argv) as [|a t IH]; [reflexivity|].
      cbn [clap_validate]. rewrite IH. reflexivity. }
    rewrite (validate_spec p _ b Hwf G).
    split; intros K a Ha Ho; destruct (K a Ha Ho) as (k & Hk); exists k; apply Hn; exact Hk.
  Qed.

  (** parse() is defined when the arguments are 7-bit and no argument following an int option is a number
      outside the int range. *)
  Theorem C17_defined :
    forall hist p argv,
      run_history atof hist = Ok p -> argv <> [] ->
      (forall a, In a (tl argv) -> ascii7 a) ->
      (forall l1 o v l2, tl argv = (l1 ++ o :: v :: l2)%list -> registered hist KInt o -> c_atoi v <> Undef NumRange) ->
      exists b p', clap_parse atof p argv = Ok (b, p').
  Proof.
    intros hist p argv Hr Hne H7 Hi. apply run_history_spec in Hr as (Hwf & Hn & _). unfold clap_parse.
    destruct argv as [|exec args]; [congruence|]. change (vget (exec :: args) 0) with (Ok exec). cbn [bind tl] in *.
    match goal with |- context [clap_validate ?q args] => destruct (validate_ok q args H7) as (b & ->) end.
    cbn [bind]. destruct b; cbn [negb]; [|eexists; eexists; reflexivity].
    cbn [cl_double cl_int cl_string cl_bool].
    destruct (map_update_ok (clap_scan (fun s => Ok (atof s)) args) (cl_double p)) as (m1 & ->).
    { intros k v _. apply scan_ok. intros; eexists; reflexivity. }
    cbn [bind]. destruct (map_update_ok (clap_scan c_atoi args) (cl_int p)) as (m2 & ->).
    { intros k v Hin. apply scan_ok. intros l1 a l2 E.
      assert (Hk : registered hist KInt k) by (apply Hn; simpl; apply in_map_iff; exists (k, v); auto).
      specialize (Hi l1 k a l2 E Hk). unfold c_atoi in *. cbv zeta in *. destruct (int_range _); [eexists; reflexivity|congruence]. }
    cbn [bind]. destruct (map_update_ok (clap_scan (fun s => Ok s) args) (cl_string p)) as (m3 & ->).
    { intros k v _. apply scan_ok. intros; eexists; reflexivity. }
    cbn [bind]. destruct (map_update_ok (clap_flip args) (cl_bool p)) as (m4 & ->).
    { intros k v _. rewrite clap_flip_eq. eexists; reflexivity. }
    eexists; eexists; reflexivity.
  Qed.

  (** ** C18 *)
  Theorem C18_rejected_changes_nothing :
    forall p argv p',
      clap_parse atof p argv = Ok (false, p') ->
      forall name,
        clap_getDouble negmax p' name = clap_getDouble negmax p name /\
        clap_getInt p' name = clap_getInt p name /\
        clap_getString p' name = clap_getString p name /\
        clap_getBool p' name = clap_getBool p name.
  Proof.
    intros p argv p' H name. apply parse_false in H as (E1 & E2 & E3 & E4 & _).
    unfold clap_getDouble, clap_getInt, clap_getString, clap_getBool. rewrite E1, E2, E3, E4. auto.
  Qed.

  (** ** C19 *)
  Lemma registered_find hist p k n :
    run_history atof hist = Ok p -> registered hist k n ->
    match k with
    | KDouble => exists v, sfind n (cl_double p) = Some v
    | KInt => exists v, sfind n (cl_int p) = Some v
    | KString => exists v, sfind n (cl_string p) = Some v
    | KBool => exists v, sfind n (cl_bool p) = Some v
    end.
  Proof.
    intros Hr H. apply run_history_spec in Hr as (Hwf & Hn & _). apply Hn in H.
    destruct k; simpl in H; apply sset_of_In in H; auto; apply Hwf.
  Qed.

  Theorem C19_last_value_wins :
    forall hist p argv p',
      run_history atof hist = Ok p -> clap_parse atof p argv = Ok (true, p') ->
      forall name v, last_value name (tl argv) v ->
        (registered hist KDouble name -> clap_getDouble negmax p' name = atof v) /\
        (registered hist KInt name -> c_atoi v = Ok (clap_getInt p' name)) /\
        (registered hist KString name -> clap_getString p' name = v).
  Proof.
    intros hist p argv p' Hr H name v Hv. apply lastv_Some in Hv.
    apply parse_true in H as (_ & _ & _ & Fd & Fi & Fs & _).
    specialize (Fd name). specialize (Fi name). specialize (Fs name).
    unfold clap_getDouble, clap_getInt, clap_getString. rewrite Hv in *.
    split; [|split]; intros Hreg; destruct (registered_find _ _ _ _ Hr Hreg) as (w & E); rewrite E in *.
    - rewrite Fd. reflexivity.
    - destruct Fi as (v' & -> & E'). exact E'.
    - rewrite Fs. reflexivity.
  Qed.

  Theorem C19_no_value_keeps_previous :
    forall p argv p',
      clap_parse atof p argv = Ok (true, p') ->
      forall name, no_value name (tl argv) ->
        clap_getDouble negmax p' name = clap_getDouble negmax p name /\
        clap_getInt p' name = clap_getInt p name /\
        clap_getString p' name = clap_getString p name.
  Proof.
    intros p argv p' H name Hv. apply lastv_None in Hv.
    apply parse_true in H as (_ & _ & _ & Fd & Fi & Fs & _).
    specialize (Fd name). specialize (Fi name). specialize (Fs name).
    unfold clap_getDouble, clap_getInt, clap_getString. rewrite Hv in *.
    split; [|split].
    - destruct (sfind name (cl_double p)); rewrite Fd; reflexivity.
    - destruct (sfind name (cl_int p)); [destruct Fi as (v' & -> & E'); exact E'|rewrite Fi; reflexivity].
    - destruct (sfind name (cl_string p)); rewrite Fs; reflexivity.
  Qed.

  (** Exactly one of the two cases applies. *)
  Theorem C19_cases : forall name args, (exists v, last_value name args v) \/ no_value name args.
  Proof.
    intros name args. destruct (lastv name args) as [v|] eqn:E.
    - left. exists v. apply lastv_Some. exact E.
    - right. apply lastv_None. exact E.
  Qed.

  (** ** C20 *)
  Theorem C20_flag_parity :
    forall hist p argv p',
      run_history atof hist = Ok p -> clap_parse atof p argv = Ok (true, p') ->
      forall name, registered hist KBool name ->
        clap_getBool p' name = xorb (clap_getBool p name) (Nat.odd (count_occ string_dec (tl argv) name)).
  Proof.
    intros hist p argv p' Hr H name Hreg. apply parse_true in H as (_ & _ & _ & _ & _ & _ & Fb).
    specialize (Fb name). unfold clap_getBool. destruct (registered_find _ _ _ _ Hr Hreg) as (w & E). rewrite E in *.
    rewrite Fb. reflexivity.
  Qed.

  (** ** C21 *)
  Theorem C21_unmentioned_unchanged :
    forall p argv b p',
      clap_parse atof p argv = Ok (b, p') ->
      forall name, ~ In name (tl argv) ->
        clap_getDouble negmax p' name = clap_getDouble negmax p name /\
        clap_getInt p' name = clap_getInt p name /\
        clap_getString p' name = clap_getString p name /\
        clap_getBool p' name = clap_getBool p name.
  Proof.
    intros p argv [|] p' H name Hno.
    - assert (Hv : no_value name (tl argv)).
      { intros l1 v l2 E. apply Hno. rewrite E, in_app_iff. right; left; reflexivity. }
      destruct (C19_no_value_keeps_previous p argv p' H name Hv) as (E1 & E2 & E3).
      repeat (split; [assumption|]). apply parse_true in H as (_ & _ & _ & _ & _ & _ & Fb). specialize (Fb name).
      unfold clap_getBool. apply (count_occ_not_In string_dec) in Hno. rewrite Hno in Fb.
      destruct (sfind name (cl_bool p)) as [v|]; rewrite Fb; [|reflexivity]. apply xorb_false_r.
    - apply (C18_rejected_changes_nothing p argv p' H name).
  Qed.

  (** A stray argument can be removed from the command line without any effect. *)
  Theorem C21_stray_ignored :
    forall hist p exec l1 s l2,
      run_history atof hist = Ok p ->
      ascii7 s -> ~ looks_like_option s -> ~ registered_any hist s ->
      (forall o k, last (map Some l1) None = Some o -> registered hist k o -> k = KBool) ->
      clap_parse atof p (exec :: l1 ++ s :: l2) = clap_parse atof p (exec :: l1 ++ l2).
  Proof.
    intros hist p exec l1 s l2 Hr H7 Ho Hs Hl. apply run_history_spec in Hr as (Hwf & Hn & _).
    unfold clap_parse. change (vget (exec :: l1 ++ s :: l2)%list 0) with (Ok exec). change (vget (exec :: l1 ++ l2)%list 0) with (Ok exec).
    cbn [bind tl].
    match goal with |- context [clap_validate ?q0 (l1 ++ l2)%list] => set (q := q0) end.
    assert (HV : clap_validate q (l1 ++ s :: l2)%list = clap_validate q (l1 ++ l2)%list).
    { induction l1 as [|a l1 IH]; cbn [app clap_validate].
      - destruct (clap_isOptionName_ok s H7) as (b & E). pose proof E as E'. apply clap_isOptionName_spec in E'.
        rewrite E. destruct b; [exfalso; apply Ho, E'; reflexivity|]. reflexivity.
      - rewrite IH; [reflexivity|]. intros o k E. apply (Hl o k). destruct l1; [discriminate|exact E]. }
    rewrite HV. destruct (clap_validate q (l1 ++ l2)%list) as [[|]|]; cbn [bind negb]; try reflexivity.
    assert (Hkey : forall k key, In key (names p k) -> k <> KBool -> key <> s /\ last l1 s <> key).
    { intros k key Hk Hkb. apply Hn in Hk. split; [intros ->; apply Hs; exists k; exact Hk|].
      intros E. destruct l1 as [|a l1] using rev_ind; [simpl in E; subst key; apply Hs; exists k; exact Hk|]. clear IHl1.
      rewrite last_last in E. subst a. apply Hkb. apply (Hl key k); [|exact Hk].
      rewrite map_app. cbn [map]. rewrite last_last. reflexivity. }
    assert (HU : forall V (conv : string -> res V) k (m : list (string * V)), map fst m = names p k -> k <> KBool ->
       map_update (clap_scan conv (l1 ++ s :: l2)) m = map_update (clap_scan conv (l1 ++ l2)) m).
    { intros V conv k m Em Hk. apply map_update_ext. intros key v Hin.
      assert (Hin' : In key (names p k)) by (rewrite <- Em; apply in_map_iff; exists (key, v); auto).
      destruct (Hkey k key Hin' Hk). apply scan_flag_irrelevant; assumption. }
    cbn [cl_double cl_int cl_string cl_bool].
    unfold q; cbn [cl_double cl_int cl_string cl_bool].
    rewrite (HU _ _ KDouble (cl_double p) eq_refl) by discriminate.
    rewrite (HU _ _ KInt (cl_int p) eq_refl) by discriminate.
    rewrite (HU _ _ KString (cl_string p) eq_refl) by discriminate.
    assert (HB : map_update (clap_flip (l1 ++ s :: l2)) (cl_bool p) = map_update (clap_flip (l1 ++ l2)) (cl_bool p)).
    { apply map_update_ext. intros key v Hin. rewrite !clap_flip_eq. do 2 f_equal. f_equal.
      rewrite !count_occ_app. cbn [count_occ]. destruct (string_dec s key) as [<-|]; [|reflexivity].
      exfalso. apply Hs. exists KBool. apply Hn. simpl. apply in_map_iff. exists (s, v); auto. }
    rewrite HB. reflexivity.
  Qed.

  (** ** C22 *)
  Theorem C22_unknown_gives_sentinel :
    forall hist p name,
      run_history atof hist = Ok p ->
      (~ registered hist KDouble name -> clap_getDouble negmax p name = negmax) /\
      (~ registered hist KInt name -> clap_getInt p name = - (2 ^ 31 - 1)) /\
      (~ registered hist KString name -> clap_getString p name = "") /\
      (~ registered hist KBool name -> clap_getBool p name = false).
  Proof.
    intros hist p name Hr. apply run_history_spec in Hr as (Hwf & Hn & _).
    unfold clap_getDouble, clap_getInt, clap_getString, clap_getBool.
    split; [|split; [|split]]; intros H.
    - rewrite (proj2 (sfind_None name _ (wf_d _ Hwf))); [reflexivity|]. intros Hin. apply H, (Hn KDouble), Hin.
    - rewrite (proj2 (sfind_None name _ (wf_i _ Hwf))); [reflexivity|]. intros Hin. apply H, (Hn KInt), Hin.
    - rewrite (proj2 (sfind_None name _ (wf_s _ Hwf))); [reflexivity|]. intros Hin. apply H, (Hn KString), Hin.
    - rewrite (proj2 (sfind_None name _ (wf_b _ Hwf))); [reflexivity|]. intros Hin. apply H, (Hn KBool), Hin.
  Qed.

  (** A registered option has its default value until a parse. *)
  Theorem C22_default_until_parse :
    forall hist p name,
      run_history atof hist = Ok p ->
      (forall v h p', run_history atof (hist ++ [ASetDouble name v h]) = Ok p' -> clap_getDouble negmax p' name = v) /\
      (forall v h p', run_history atof (hist ++ [ASetInt name v h]) = Ok p' -> clap_getInt p' name = v) /\
      (forall v h p', run_history atof (hist ++ [ASetString name v h]) = Ok p' -> clap_getString p' name = v) /\
      (forall v h p', run_history atof (hist ++ [ASetBool name v h]) = Ok p' -> clap_getBool p' name = v).
  Proof.
    intros hist p name _. split; [|split; [|split]]; intros v h p' H;
      apply run_history_snoc in H as (q & Hq & H); inversion H; subst p';
      unfold clap_getDouble, clap_getInt, clap_getString, clap_getBool; cbn; rewrite sfind_set, String.eqb_refl; reflexivity.
  Qed.

  (** ** C23 *)
  Theorem C23_negative_number_accepted :
    forall hist p argv b p' c t,
      run_history atof hist = Ok p -> is_digit c ->
      (forall a, In a (tl argv) -> a <> String "-" (String c t) -> looks_like_option a -> registered_any hist a) ->
      clap_parse atof p argv = Ok (b, p') -> b = true.
  Proof.
    intros hist p argv b p' c t Hr Hc Ho H. apply (C17_accepts_iff_registered hist p argv b p' Hr H).
    intros a Ha Hl. apply Ho; auto. intros ->. destruct Hl as (c' & t' & E & Hd). inversion E; subst. contradiction.
  Qed.

  Theorem C23_negative_number_is_a_value :
    forall hist p exec name c t,
      run_history atof hist = Ok p -> is_digit c -> ascii7 name -> ascii7 (String "-" (String c t)) ->
      registered hist KDouble name -> ~ registered hist KInt name ->
      exists p', clap_parse atof p [exec; name; String "-" (String c t)] = Ok (true, p') /\
        clap_getDouble negmax p' name = atof (String "-" (String c t)).
  Proof.
    intros hist p exec name c t Hr Hc H7 H7' Hreg Hni.
    destruct (C17_defined hist p [exec; name; String "-" (String c t)] Hr ltac:(discriminate)) as (b & p' & H).
    { intros a [<-|[<-|[]]]; assumption. }
    { intros [|x [|y l1]] o v l2 E Ho; inversion E; subst; try contradiction. destruct l1; discriminate. }
    assert (b = true) as ->.
    { apply (C23_negative_number_accepted hist p _ b p' c t Hr Hc) in H; [exact H|].
      intros a [<-|[<-|[]]] Hne Ho; [exists KDouble; exact Hreg|congruence]. }
    exists p'. split; [exact H|].
    apply (C19_last_value_wins hist p _ p' Hr H name (String "-" (String c t))); [|exact Hreg].
    exists [], []. split; [reflexivity|]. intros [|x [|y m1]] w m2 E; discriminate.
  Qed.

  Theorem C23_no_leading_digit_rejected :
    forall hist p exec name t b p',
      run_history atof hist = Ok p ->
      ~ registered_any hist (String "-" (String "." t)) ->
      clap_parse atof p [exec; name; String "-" (String "." t)] = Ok (b, p') -> b = false.
  Proof.
    intros hist p exec name t b p' Hr Hno H. destruct b; [|reflexivity]. exfalso. apply Hno.
    apply (proj1 (C17_accepts_iff_registered hist p _ true p' Hr H) eq_refl); [right; left; reflexivity|].
    exists "."%char, t. split; [reflexivity|]. unfold is_digit. vm_compute. intros [H1 _]. apply H1. reflexivity.
  Qed.

  (** ** C24 *)
  Definition decimal (z : Z) : string := NilEmpty.string_of_int (Z.to_int z).

  Lemma atoi_digits_acc d acc :
    atoi_digits (Zpos acc) (NilEmpty.string_of_uint d) = Zpos (Pos.of_uint_acc d acc).
  Proof.
    revert acc; induction d; intros acc; [reflexivity|..];
      cbn [NilEmpty.string_of_uint atoi_digits Pos.of_uint_acc];
      match goal with |- context [digit_val ?c] => let v := eval vm_compute in (digit_val c) in change (digit_val c) with v end;
      cbv iota; rewrite <- IHd; f_equal; lia.
  Qed.

  Lemma atoi_digits_uint d : atoi_digits 0 (NilEmpty.string_of_uint d) = Z.of_uint d.
  Proof.
    unfold Z.of_uint. induction d; [reflexivity|..]; cbn [NilEmpty.string_of_uint atoi_digits Pos.of_uint];
      match goal with |- context [digit_val ?c] => let v := eval vm_compute in (digit_val c) in change (digit_val c) with v end;
      cbv iota; try apply atoi_digits_acc. exact IHd.
  Qed.

  Lemma c_atoi_decimal z : c_atoi (decimal z) = if int_range z then Ok z else Undef NumRange.
  Proof.
    unfold c_atoi, decimal. pose proof (DecimalZ.of_to z) as E. destruct (Z.to_int z) as [d|d].
    - cbn [NilEmpty.string_of_int]. unfold Z.of_int in E. rewrite <- E.
      rewrite <- (atoi_digits_uint d). destruct d; reflexivity.
    - cbn [NilEmpty.string_of_int skip_spaces]. change (c_isspace "-") with false. cbv iota.
      unfold Z.of_int in E. rewrite <- E, <- (atoi_digits_uint d). reflexivity.
  Qed.

  Theorem C24_int_read_exactly :
    forall hist p argv p' name z,
      run_history atof hist = Ok p -> clap_parse atof p argv = Ok (true, p') ->
      registered hist KInt name -> last_value name (tl argv) (decimal z) ->
      - 2 ^ 31 <= z < 2 ^ 31 /\ clap_getInt p' name = z.
  Proof.
    intros hist p argv p' name z Hr H Hreg Hv.
    destruct (C19_last_value_wins hist p argv p' Hr H name _ Hv) as (_ & G & _). specialize (G Hreg).
    rewrite c_atoi_decimal in G. destruct (int_range z) eqn:E; [|discriminate].
    apply int_range_spec in E. split; [exact E|]. congruence.
  Qed.

  Theorem C24_int_accepted :
    forall hist p exec name z,
      run_history atof hist = Ok p -> registered hist KInt name -> ascii7 name ->
      - 2 ^ 31 <= z < 2 ^ 31 ->
      exists p', clap_parse atof p [exec; name; decimal z] = Ok (true, p') /\ clap_getInt p' name = z.
  Proof.
    intros hist p exec name z Hr Hreg H7 Hz.
    assert (Hz' : int_range z = true) by (apply int_range_spec; exact Hz).
    assert (Hchars : forall d n c, String.get n (NilEmpty.string_of_uint d) = Some c -> is_digit c).
    { induction d; intros n c E; [destruct n; discriminate|..]; (destruct n as [|n]; [|exact (IHd n c E)]);
        inversion E; unfold is_digit; vm_compute; split; discriminate. }
    assert (H7z : ascii7 (decimal z)).
    { unfold ascii7, decimal. destruct (Z.to_int z) as [d|d]; cbn [NilEmpty.string_of_int]; intros n c E.
      - apply Hchars in E. unfold is_digit in E. lia.
      - destruct n as [|n]; [inversion E; reflexivity|]. apply Hchars in E. unfold is_digit in E. lia. }
    assert (Hno : ~ looks_like_option (decimal z)).
    { intros (c & t & E & Hd). unfold decimal in E. pose proof (DecimalZ.of_to z) as Ez. destruct (Z.to_int z) as [d|d]; cbn [NilEmpty.string_of_int] in E.
      - destruct d; discriminate.
      - apply Hd. apply (Hchars d 0%nat). inversion E as [E']. rewrite E'. reflexivity. }
    destruct (C17_defined hist p [exec; name; decimal z] Hr ltac:(discriminate)) as (b & p' & H).
    { intros a [<-|[<-|[]]]; assumption. }
    { intros [|x [|y l1]] o v l2 E Ho; inversion E; subst.
      - rewrite c_atoi_decimal, Hz'. discriminate.
      - destruct l1; discriminate. }
    assert (b = true) as ->.
    { apply (C17_accepts_iff_registered hist p _ b p' Hr H). intros a [<-|[<-|[]]] Ho; [exists KInt; exact Hreg|contradiction]. }
    exists p'. split; [exact H|]. apply (C24_int_read_exactly hist p _ p' name z Hr H Hreg).
    exists [], []. split; [reflexivity|]. intros [|x [|y m1]] w m2 E; discriminate.
  Qed.

  Lemma scan_undef_only_numrange key args v u : clap_scan c_atoi args key v = Undef u -> u = NumRange.
  Proof.
    rewrite clap_scan_unfold. intros H.
    assert (G : forall v f, for_each args (scan_step c_atoi key) (v, f) = Undef u -> u = NumRange).
    { clear H v. induction args as [|a t IH]; intros v f H; [discriminate|]. cbn [for_each] in H.
      destruct (scan_step c_atoi key a (v, f)) as [[v1 f1]|u'] eqn:E; cbn [bind] in H; [eauto|].
      inversion H; subst u'. unfold scan_step in E. destruct f; cbn [bind] in E; [|discriminate].
      unfold c_atoi in E. cbv zeta in E. destruct (int_range _); cbn [bind] in E; [discriminate|]. inversion E. reflexivity. }
    destruct (for_each _ _ _) as [[v1 f1]|u'] eqn:E in H; cbn [bind] in H; [discriminate|].
    inversion H; subst u'. eapply G; exact E.
  Qed.

  Lemma scan_hits_undef key l1 w l2 v :
    c_atoi w = Undef NumRange -> clap_scan c_atoi (l1 ++ key :: w :: l2) key v = Undef NumRange.
  Proof.
    intros Hw. destruct (clap_scan c_atoi (l1 ++ key :: w :: l2) key v) as [r|u] eqn:E.
    - exfalso. rewrite clap_scan_unfold in E. apply bind_ok in E as ([v1 f1] & E & _). revert v E. clear r.
      assert (G : forall v f r, for_each (l1 ++ key :: w :: l2) (scan_step c_atoi key) (v, f) <> Ok r).
      { induction l1 as [|a l1 IH]; intros v f r E.
        - cbn [app for_each] in E. apply bind_ok in E as ([v2 f2] & E1 & E). unfold scan_step in E1.
          apply bind_ok in E1 as ([v3 f3] & _ & E1). rewrite String.eqb_refl in E1. inversion E1; subst.
          cbn [scan_step] in E. rewrite Hw in E. discriminate.
        - cbn [app for_each] in E. apply bind_ok in E as ([v2 f2] & _ & E). eapply IH; exact E. }
      intros v E. eapply G; exact E.
    - apply scan_undef_only_numrange in E. congruence.
  Qed.

  Theorem C24_out_of_range_undefined :
    forall hist p exec l1 name z l2,
      run_history atof hist = Ok p -> registered hist KInt name ->
      (forall a, In a (l1 ++ name :: decimal z :: l2) -> ascii7 a) ->
      (forall a, In a (l1 ++ name :: decimal z :: l2) -> looks_like_option a -> registered_any hist a) ->
      ~ (- 2 ^ 31 <= z < 2 ^ 31) ->
      clap_parse atof p (exec :: l1 ++ name :: decimal z :: l2) = Undef NumRange.
  Proof.
    intros hist p exec l1 name z l2 Hr Hreg H7 Ho Hz.
    pose proof Hr as Hr'. apply run_history_spec in Hr' as (Hwf & Hn & _).
    assert (Hz' : c_atoi (decimal z) = Undef NumRange).
    { rewrite c_atoi_decimal. destruct (int_range z) eqn:E; [|reflexivity]. apply int_range_spec in E. contradiction. }
    set (args := (l1 ++ name :: decimal z :: l2)%list) in *.
    unfold clap_parse. change (vget (exec :: args)%list 0) with (Ok exec). cbn [bind tl].
    assert (HV : clap_validate p args = Ok true).
    { destruct (validate_ok p args H7) as (b & E). rewrite E. f_equal. apply (validate_spec p args b Hwf E).
      intros a Ha Hl. destruct (Ho a Ha Hl) as (k & Hk). exists k. apply Hn. exact Hk. }
    match goal with |- context [clap_validate ?q args] => assert (HV' : clap_validate q args = Ok true) end.
    { rewrite <- HV. clear. induction args as [|a t IH]; [reflexivity|]. cbn [clap_validate]. rewrite IH. reflexivity. }
    rewrite HV'. cbn [bind negb cl_double cl_int].
    destruct (map_update_ok (clap_scan (fun s => Ok (atof s)) args) (cl_double p)) as (m1 & ->).
    { intros k v _. apply scan_ok. intros; eexists; reflexivity. }
    cbn [bind].
    assert (HI : map_update (clap_scan c_atoi args) (cl_int p) = Undef NumRange).
    { apply Hn in Hreg. simpl in Hreg. clear HV'. unfold map_update. induction (cl_int p) as [|[k v] m IH]; [destruct Hreg|].
      cbn [mapM fst snd]. destruct (clap_scan c_atoi args k v) as [r|u] eqn:E; cbn [bind].
      - destruct Hreg as [Ek|Hreg].
        + simpl in Ek; subst k. unfold args in E. rewrite scan_hits_undef in E by exact Hz'. discriminate.
        + rewrite IH by exact Hreg. reflexivity.
      - apply scan_undef_only_numrange in E. congruence. }
    rewrite HI. reflexivity.
  Qed.

  (** ** C25 *)
  Definition line_id (l : help_line D) : kind * string :=
    match l with
    | HDouble n _ _ => (KDouble, n) | HInt n _ _ => (KInt, n)
    | HString n _ _ => (KString, n) | HBool n _ _ => (KBool, n)
    end.

  (** The line printed for an option: last help text given, current value. *)
  Definition line_for (hist : list (action D)) p (l : help_line D) : Prop :=
    match l with
    | HDouble n h v => registered hist KDouble n /\ last_help hist KDouble n h /\ v = clap_getDouble negmax p n
    | HInt n h v => registered hist KInt n /\ last_help hist KInt n h /\ v = clap_getInt p n
    | HString n h v => registered hist KString n /\ last_help hist KString n h /\ v = clap_getString p n
    | HBool n h v => registered hist KBool n /\ last_help hist KBool n h /\ v = clap_getBool p n
    end.

  Lemma help_part {V} (mk : string -> string -> V -> help_line D) (m : list (string * V)) (hm : list (string * string)) :
    ssorted m -> map fst m = map fst hm -> ssorted hm ->
    exists ls, mapM (fun kv => h <- omap_at String.compare (fst kv) hm ;; Ok (mk (fst kv) h (snd kv))) m = Ok ls /\
      (forall l, In l ls <-> exists n h v, l = mk n h v /\ sfind n m = Some v /\ sfind n hm = Some h) /\
      (forall (f : help_line D -> kind * string) k, (forall n h v, f (mk n h v) = (k, n)) -> map f ls = map (fun n => (k, n)) (map fst m)).
  Proof.
    intros Hs Ek Hh.
    assert (G : forall m', incl m' m -> exists ls,
       mapM (fun kv => h <- omap_at String.compare (fst kv) hm ;; Ok (mk (fst kv) h (snd kv))) m' = Ok ls /\
       (forall l, In l ls <-> exists n h v, l = mk n h v /\ In (n, v) m' /\ sfind n hm = Some h) /\
       (forall (f : help_line D -> kind * string) k, (forall n h v, f (mk n h v) = (k, n)) -> map f ls = map (fun n => (k, n)) (map fst m'))).
    { induction m' as [|[n v] m' IH]; intros Hi.
      - exists []. split; [reflexivity|]. split; [|reflexivity]. intros l. split; [intros []|intros (n & h & v & _ & [] & _)].
      - destruct IH as (ls & E & Hl & Hm); [intros x Hx; apply Hi; right; exact Hx|].
        assert (Hin : In n (map fst hm)).
        { rewrite <- Ek. apply in_map_iff. exists (n, v). split; [reflexivity|]. apply Hi. left; reflexivity. }
        apply sset_of_In in Hin as (h & Hf); [|exact Hh].
        exists (mk n h v :: ls). cbn [mapM fst snd]. unfold omap_at at 1. rewrite Hf. cbn [bind]. rewrite E. cbn [bind].
        split; [reflexivity|]. split.
        + intros l. simpl. rewrite Hl. split.
          * intros [<-|(n' & h' & v' & El & Hin & Hf')]; [exists n, h, v; auto|exists n', h', v'; auto].
          * intros (n' & h' & v' & El & [Ein|Hin] & Hf'); [|right; exists n', h', v'; auto].
            left. inversion Ein; subst. congruence.
        + intros f k Hfk. cbn [map fst]. rewrite Hfk. f_equal. apply Hm. exact Hfk. }
    destruct (G m (incl_refl m)) as (ls & E & Hl & Hm). exists ls. split; [exact E|]. split; [|exact Hm].
    intros l. rewrite Hl. split; intros (n & h & v & El & Hin & Hf); exists n, h, v; (split; [exact El|split; [|exact Hf]]); apply (sfind_In n v m Hs); exact Hin.
  Qed.

  Theorem C25_help_complete :
    forall hist p, run_history atof hist = Ok p ->
      exists pur exec lines foot, clap_help p = Ok (pur, exec, lines, foot) /\
        NoDup (map line_id lines) /\
        (forall l, In l lines <-> line_for hist p l) /\
        (forall k name, registered hist k name -> In (k, name) (map line_id lines)).
  Proof.
    intros hist p Hr. apply run_history_spec in Hr as (Hwf & Hn & Hh).
    pose proof (wf_helps p KDouble Hwf) as H1. pose proof (wf_helps p KInt Hwf) as H2.
    pose proof (wf_helps p KString Hwf) as H3. pose proof (wf_helps p KBool Hwf) as H4.
    pose proof (wf_names p Hwf) as Hk.
    destruct (help_part HDouble (cl_double p) (cl_doubleHelp p) (wf_d _ Hwf) (Hk KDouble) H1) as (ds & Ed & Ld & Md).
    destruct (help_part HInt (cl_int p) (cl_intHelp p) (wf_i _ Hwf) (Hk KInt) H2) as (is & Ei & Li & Mi).
    destruct (help_part HString (cl_string p) (cl_stringHelp p) (wf_s _ Hwf) (Hk KString) H3) as (ss & Es & Ls & Ms).
    destruct (help_part HBool (cl_bool p) (cl_boolHelp p) (wf_b _ Hwf) (Hk KBool) H4) as (bs & Eb & Lb & Mb).
    unfold clap_help. rewrite Ed. cbn [bind]. rewrite Ei. cbn [bind]. rewrite Es. cbn [bind]. rewrite Eb. cbn [bind].
    eexists. eexists. eexists. eexists. split; [reflexivity|].
    assert (Eids : map line_id (ds ++ is ++ ss ++ bs) =
       (map (fun n => (KDouble, n)) (names p KDouble) ++ map (fun n => (KInt, n)) (names p KInt) ++
        map (fun n => (KString, n)) (names p KString) ++ map (fun n => (KBool, n)) (names p KBool))%list).
    { rewrite !map_app. rewrite (Md line_id KDouble), (Mi line_id KInt), (Ms line_id KString), (Mb line_id KBool) by reflexivity. reflexivity. }
    assert (Hids : forall k n, In (k, n) (map line_id (ds ++ is ++ ss ++ bs)) <-> In n (names p k)).
    { intros k n. rewrite Eids, !in_app_iff, !in_map_iff. split.
      - intros [(x & E & Hx)|[(x & E & Hx)|[(x & E & Hx)|(x & E & Hx)]]]; inversion E; subst; exact Hx.
      - intros Hx. destruct k; [left|right; left|right; right; left|right; right; right]; exists n; auto. }
    split; [|split].
    - rewrite Eids.
      assert (ND : forall k, NoDup (map (fun n => (k, n)) (names p k))).
      { intros k. apply Injective_map_NoDup; [intros x y E; inversion E; reflexivity|].
        destruct k; simpl; apply osorted_NoDup with (cmp := String.compare); auto using str_eq; apply Hwf. }
      assert (Dj : forall (k : kind) (l : list string) (l' : list (kind * string)), NoDup (map (fun n => (k, n)) l) -> NoDup l' ->
                 (forall n, ~ In (k, n) l') -> NoDup (map (fun n => (k, n)) l ++ l')%list).
      { intros k l l' N1 N2 Hd. induction l as [|x l IH]; simpl; [exact N2|]. inversion N1; subst. constructor; auto.
        rewrite in_app_iff. intros [?|Hx]; [contradiction|apply (Hd x Hx)]. }
      apply Dj; [apply ND| |].
      + apply Dj; [apply ND| |].
        * apply Dj; [apply ND|apply ND|]. intros n. rewrite in_map_iff. intros (x & E & _). discriminate.
        * intros n. rewrite in_app_iff, !in_map_iff. intros [(x & E & _)|(x & E & _)]; discriminate.
      + intros n. rewrite !in_app_iff, !in_map_iff. intros [(x & E & _)|[(x & E & _)|(x & E & _)]]; discriminate.
    - intros l. rewrite !in_app_iff, Ld, Li, Ls, Lb.
      unfold clap_getDouble, clap_getInt, clap_getString, clap_getBool.
      assert (F : forall V (m : list (string * V)) n d, ssorted m -> In n (map fst m) ->
                 sfind n m = Some (match sfind n m with Some v => v | None => d end)).
      { intros V m n d Hs Hin. apply sset_of_In in Hin as (v & E); [|exact Hs].
        rewrite E. reflexivity. }
      split.
      + intros [(n & h & v & -> & Hv & Hf)|[(n & h & v & -> & Hv & Hf)|[(n & h & v & -> & Hv & Hf)|(n & h & v & -> & Hv & Hf)]]]; cbn [line_for];
          unfold clap_getDouble, clap_getInt, clap_getString, clap_getBool; rewrite Hv;
          (split; [|split; [|reflexivity]]).
        * apply Hn. simpl. apply sfind_In in Hv; [|apply Hwf]. apply in_map_iff. exists (n, v); auto.
        * apply Hh. exact Hf.
        * apply Hn. simpl. apply sfind_In in Hv; [|apply Hwf]. apply in_map_iff. exists (n, v); auto.
        * apply Hh. exact Hf.
        * apply Hn. simpl. apply sfind_In in Hv; [|apply Hwf]. apply in_map_iff. exists (n, v); auto.
        * apply Hh. exact Hf.
        * apply Hn. simpl. apply sfind_In in Hv; [|apply Hwf]. apply in_map_iff. exists (n, v); auto.
        * apply Hh. exact Hf.
      + destruct l as [n h v|n h v|n h v|n h v]; cbn [line_for]; intros (Hr & Hl & ->); apply Hn in Hr; apply Hh in Hl.
        * left. exists n, h, (clap_getDouble negmax p n). split; [reflexivity|]. split; [apply F; [apply Hwf|exact Hr]|exact Hl].
        * right; left. exists n, h, (clap_getInt p n). split; [reflexivity|]. split; [apply F; [apply Hwf|exact Hr]|exact Hl].
        * right; right; left. exists n, h, (clap_getString p n). split; [reflexivity|]. split; [apply F; [apply Hwf|exact Hr]|exact Hl].
        * right; right; right. exists n, h, (clap_getBool p n). split; [reflexivity|]. split; [apply F; [apply Hwf|exact Hr]|exact Hl].
    - intros k name Hr. apply Hids, Hn, Hr.
  Qed.
End Props.

Print Assumptions C17_accepts_iff_registered.
Print Assumptions C17_defined.
Print Assumptions C18_rejected_changes_nothing.
Print Assumptions C19_last_value_wins.
Print Assumptions C19_no_value_keeps_previous.
Print Assumptions C19_cases.
Print Assumptions C20_flag_parity.
Print Assumptions C21_unmentioned_unchanged.
Print Assumptions C21_stray_ignored.
Print Assumptions C22_unknown_gives_sentinel.
Print Assumptions C22_default_until_parse.
Print Assumptions C23_negative_number_accepted.
Print Assumptions C23_negative_number_is_a_value.
Print Assumptions C23_no_leading_digit_rejected.
Print Assumptions C24_int_read_exactly.
Print Assumptions C24_int_accepted.
Print Assumptions C24_out_of_range_undefined.
Print Assumptions C25_help_complete.

(** ** Examples *)

(** Registered options accepted, an unregistered one rejected; values, last occurrence, parity. *)
Example C17_C24_example :
  (p <- run_history ex_atof ex_hist ;;
   ' (b, p') <- clap_parse ex_atof p ["upwind"; "-numCells"; "64"; "7"; "-vtk"; "-numCells"; "-32"; "-vtk"; "-vtk"; "-numSteps"] ;;
   Ok (b, clap_getInt p' "-numCells", clap_getInt p' "-numSteps", clap_getBool p' "-vtk", clap_getBool p' "-h"))
  = Ok (true, -32, 10, true, false) /\
  (p <- run_history ex_atof ex_hist ;;
   ' (b, p') <- clap_parse ex_atof p ["upwind"; "-numCells"; "64"; "-foo"] ;; Ok (b, clap_getInt p' "-numCells")) = Ok (false, 128).
Proof. split; vm_compute; reflexivity. Qed.

(** The ctest suite passes positional numbers: they are ignored. *)
Example C21_example :
  (p <- run_history ex_atof ex_hist ;;
   ' (b, p') <- clap_parse ex_atof p ["upwind"; "16"; "3"] ;; Ok (b, clap_getInt p' "-numCells", clap_getInt p' "-numSteps"))
  = Ok (true, 128, 10).
Proof. vm_compute. reflexivity. Qed.

Example C22_example :
  (p <- run_history ex_atof ex_hist ;; Ok (clap_getInt p "-vtk", clap_getString p "-name", clap_getBool p "-numCells"))
  = Ok (-2147483647, "", false).
Proof. vm_compute. reflexivity. Qed.

Example C23_example :
  (p <- run_history ex_atof ex_hist ;;
   ' (b, p') <- clap_parse ex_atof p ["upwind"; "-courant"; "-0.25"] ;; Ok (b, clap_getDouble 0 p' "-courant")) = Ok (true, 5) /\
  (p <- run_history ex_atof ex_hist ;;
   ' (b, p') <- clap_parse ex_atof p ["upwind"; "-courant"; "-.25"] ;; Ok (b, clap_getDouble 0 p' "-courant")) = Ok (false, 7).
Proof. split; vm_compute; reflexivity. Qed.

Example C24_example :
  decimal (-2147483648) = "-2147483648" /\
  (p <- run_history ex_atof ex_hist ;; clap_parse ex_atof p ["upwind"; "-numCells"; "2147483648"]) = Undef NumRange.
Proof. split; vm_compute; reflexivity. Qed.

Example C25_example :
  (p <- run_history ex_atof ex_hist ;; ' (_, _, ls, _) <- clap_help p ;; Ok (map line_id ls))
  = Ok [(KDouble, "-courant"); (KInt, "-numCells"); (KInt, "-numSteps"); (KString, "-file"); (KBool, "-h"); (KBool, "-vtk")].
Proof. vm_compute. reflexivity. Qed.
