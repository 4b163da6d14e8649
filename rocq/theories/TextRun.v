(** * The text of the command line parser: proofs *)
From Coq Require Import ZArith Lia.
From Verif Require Import Cpp CppProof OMap CmdModel CmdSpec CmdProof CmdProps DrvSpec NumModel TextModel TextSpec.
From Coq Require Import List.
Import ListNotations.
Local Open Scope string_scope.
Local Open Scope Z_scope.

Section Run.
  Context {D : Type} (atof : string -> D).

  Lemma map_update_fun {V} (g : string -> V -> res V) (h : string -> V -> V) l : forall l',
    (forall k v r, In (k, v) l -> g k v = Ok r -> r = h k v) -> map_update g l = Ok l' ->
    l' = map (fun kv => (fst kv, h (fst kv) (snd kv))) l.
  Proof.
    unfold map_update. induction l as [|[k v] t IH]; cbn [mapM]; intros l' H E; [injection E as <-; reflexivity|].
    apply bind_ok in E as (y & Ey & E). apply bind_ok in Ey as (r & Er & Ey). apply bind_ok in E as (t' & Et & E).
    injection Ey as <-. injection E as <-. cbn [fst snd map] in *. rewrite (H k v r (or_introl eq_refl) Er).
    rewrite (IH t'); [reflexivity| |exact Et]. intros k' v' r' Hin. apply H. right. exact Hin.
  Qed.

  Definition given (p : clap D) (exec : string) (args : list string) (iv : string -> Z) : clap D :=
    mkClap [] (map (fun kv => (fst kv, iv (fst kv))) (cl_int p)) []
      (map (fun kv => (fst kv, xorb (snd kv) (flag args (fst kv)))) (cl_bool p))
      (cl_doubleHelp p) (cl_intHelp p) (cl_stringHelp p) (cl_boolHelp p) exec (cl_purpose p) (cl_footer p).
  Definition refused (p : clap D) (exec : string) : clap D :=
    mkClap (cl_double p) (cl_int p) (cl_string p) (cl_bool p)
      (cl_doubleHelp p) (cl_intHelp p) (cl_stringHelp p) (cl_boolHelp p) exec (cl_purpose p) (cl_footer p).

  (** The message of parse() *)
  Lemma parse_text_known (p : clap D) options args : clap_wf p -> (forall a, In a options -> exists k, In a (names p k)) ->
    (forall a, In a args -> ascii7 a) -> known options args -> parse_text p args = Ok "".
  Proof.
    intros Hwf Ho. induction args as [|a t IH]; intros H7 Hk; [reflexivity|]. cbn [parse_text].
    destruct (clap_isOptionName_ok a (H7 a (or_introl eq_refl))) as (o & Eo). rewrite Eo. cbn [bind].
    apply clap_isOptionName_spec in Eo.
    assert (E : o && negb (clap_isValidOptName p a) = false).
    { destruct o; [|reflexivity]. rewrite (proj2 (isValidOptName_spec p a Hwf)); [reflexivity|].
      apply Ho, Hk; [left; reflexivity|apply Eo; reflexivity]. }
    rewrite E. apply IH; intros b Hb; [apply H7; right; exact Hb|apply Hk; right; exact Hb].
  Qed.

  Lemma parse_text_unknown (p : clap D) options args a : clap_wf p -> (forall a, In a options <-> exists k, In a (names p k)) ->
    (forall a, In a args -> ascii7 a) -> first_unknown options args a ->
    parse_text p args = Ok (a ++ " is not a valid option." ++ newline).
  Proof.
    intros Hwf Ho H7 (l1 & l2 & -> & Hl & Hn & Hk). induction l1 as [|b t IH]; cbn [app parse_text].
    - destruct (clap_isOptionName_ok a (H7 a (or_introl eq_refl))) as (o & Eo). rewrite Eo. cbn [bind].
      apply clap_isOptionName_spec in Eo. rewrite (proj2 Eo Hl).
      destruct (clap_isValidOptName p a) eqn:E; [|reflexivity]. exfalso. apply Hn, Ho, (isValidOptName_spec p a Hwf), E.
    - destruct (clap_isOptionName_ok b (H7 b (or_introl eq_refl))) as (o & Eo). rewrite Eo. cbn [bind].
      apply clap_isOptionName_spec in Eo.
      assert (E : o && negb (clap_isValidOptName p b) = false).
      { destruct o; [|reflexivity]. rewrite (proj2 (isValidOptName_spec p b Hwf)); [reflexivity|].
        apply Ho, Hk; [left; reflexivity|apply Eo; reflexivity]. }
      rewrite E. apply IH; [intros c Hc; apply H7; right; exact Hc|intros c Hc; apply Hk; right; exact Hc].
  Qed.

  (** The state after parse() *)
  Lemma parse_state (hist : list (action D)) p exec args ints options iv :
    run_history atof hist = Ok p -> cl_double p = [] -> cl_string p = [] -> map fst (cl_int p) = ints ->
    (forall a, In a options <-> exists k, In a (names p k)) -> readable ints args ->
    (forall k v, In (k, v) (cl_int p) -> int_option args k v (iv k)) ->
    (known options args -> parse_text p args = Ok "" /\ clap_parse atof p (exec :: args) = Ok (true, given p exec args iv)) /\
    (forall a, first_unknown options args a ->
      parse_text p args = Ok (a ++ " is not a valid option." ++ newline) /\ clap_parse atof p (exec :: args) = Ok (false, refused p exec)).
  Proof.
    intros Hr Ed Es Ei Ho (H7 & Hrd) Hv. destruct (run_history_spec atof hist p Hr) as (Hwf & Hnm & _).
    destruct (C17_defined atof hist p (exec :: args) Hr ltac:(discriminate) H7) as (b & p' & Hp).
    { intros l1 o v l2 E Hreg. apply (Hrd l1 o v l2 E). rewrite <- Ei. apply (Hnm KInt), Hreg. }
    pose proof Hp as Hq. unfold clap_parse in Hq. change (vget (exec :: args) 0) with (Ok exec) in Hq. cbn [bind tl] in Hq.
    fold (refused p exec) in Hq. apply bind_ok in Hq as (w & Ew & Hq).
    assert (Hwf' : clap_wf (refused p exec)) by (destruct Hwf; constructor; assumption).
    apply (validate_spec _ _ _ Hwf') in Ew. split.
    - intros Hk. split; [exact (parse_text_known p options args Hwf (fun a => proj1 (Ho a)) H7 Hk)|].
      assert (w = true) as -> by (apply Ew; intros a Ha Hl; apply (proj1 (Ho a)), Hk; assumption). cbn [negb] in Hq.
      unfold refused in Hq; cbn [cl_double cl_int cl_string cl_bool cl_doubleHelp cl_intHelp cl_stringHelp cl_boolHelp cl_execName cl_purpose cl_footer] in Hq.
      rewrite Ed, Es in Hq. apply bind_ok in Hq as (ds & E1 & Hq). apply bind_ok in Hq as (is & E2 & Hq).
      apply bind_ok in Hq as (ss & E3 & Hq). apply bind_ok in Hq as (bs & E4 & Hq). injection E1 as <-. injection E3 as <-.
      rewrite Hp. injection Hq as <- <-. apply f_equal. apply f_equal. unfold given. f_equal.
      + apply (map_update_fun _ (fun k _ => iv k)) in E2; [exact E2|]. intros k v r Hin Er. apply clap_scan_spec in Er.
        destruct (Hv k v Hin) as [(s & Hs & Es')|(Hno & ->)].
        * apply lastv_Some in Hs. rewrite Hs in Er. congruence.
        * apply lastv_None in Hno. rewrite Hno in Er. exact Er.
      + apply (map_update_fun _ (fun k v => xorb v (flag args k))) in E4; [exact E4|]. intros k v r _ Er. rewrite clap_flip_eq in Er. injection Er as <-. reflexivity.
    - intros a Ha. split; [exact (parse_text_unknown p options args a Hwf Ho H7 Ha)|].
      destruct w; [|cbn [negb] in Hq; rewrite Hp; injection Hq as <- <-; reflexivity]. exfalso.
      destruct Ha as (l1 & l2 & -> & Hl & Hn & _). apply Hn, (proj2 (Ho a)). apply (proj1 Ew eq_refl); [apply in_elt|exact Hl].
  Qed.
End Run.

  (** A command line is accepted or has a first unknown option. *)
  Lemma known_or_first options args : (forall a, In a args -> ascii7 a) ->
    known options args \/ exists a, first_unknown options args a.
  Proof.
    induction args as [|a t IH]; intros H7; [left; intros a []|].
    assert (Hd : (looks_like_option a /\ ~ In a options) \/ ~ (looks_like_option a /\ ~ In a options)).
    { destruct (clap_isOptionName_ok a (H7 a (or_introl eq_refl))) as (o & Eo). apply clap_isOptionName_spec in Eo.
      destruct o; [|right; intros [H _]; apply Eo in H; discriminate].
      destruct (in_dec string_dec a options); [right; tauto|left; split; [apply Eo; reflexivity|assumption]]. }
    destruct Hd as [[Hl Hn]|Hd].
    - right. exists a, [], t. split; [reflexivity|]. split; [exact Hl|]. split; [exact Hn|]. intros b [].
    - assert (Ha : looks_like_option a -> In a options).
      { intros Hl. destruct (in_dec string_dec a options); [assumption|exfalso; tauto]. }
      destruct IH as [Hk|(b & l1 & l2 & -> & Hl & Hn & Hk)]; [intros b Hb; apply H7; right; exact Hb| |].
      + left. intros b [<-|Hb]; [exact Ha|apply Hk, Hb].
      + right. exists b, (a :: l1), l2. split; [reflexivity|]. split; [exact Hl|]. split; [exact Hn|].
        intros c [<-|Hc]; [exact Ha|apply Hk, Hc].
  Qed.
