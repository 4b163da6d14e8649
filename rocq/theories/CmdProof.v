(** * Proofs about the command line parser *)
From Coq Require Import Sorted.
From Verif Require Import Cpp CppProof OMap CmdModel CmdSpec.
Local Open Scope Z_scope.

(** ** String order *)
Lemma ascii_cmp_refl a : Ascii.compare a a = Eq.
Proof. unfold Ascii.compare. apply N.compare_refl. Qed.

Lemma ascii_cmp_trans a b c : Ascii.compare a b = Lt -> Ascii.compare b c = Lt -> Ascii.compare a c = Lt.
Proof. unfold Ascii.compare. rewrite !N.compare_lt_iff. apply N.lt_trans. Qed.

Lemma str_refl s : String.compare s s = Eq.
Proof. induction s as [|c s IH]; simpl; [reflexivity|]. rewrite ascii_cmp_refl. exact IH. Qed.

Lemma str_eq a b : String.compare a b = Eq <-> a = b.
Proof. split; [apply String.compare_eq_iff|intros ->; apply str_refl]. Qed.

Lemma str_antisym a b : String.compare b a = CompOpp (String.compare a b).
Proof. apply String.compare_antisym. Qed.

Lemma str_trans a b c : String.compare a b = Lt -> String.compare b c = Lt -> String.compare a c = Lt.
Proof.
  revert b c; induction a as [|x a IH]; intros [|y b] [|z c]; simpl; intros H1 H2; try discriminate; auto.
  destruct (Ascii.compare x y) eqn:E1; try discriminate; destruct (Ascii.compare y z) eqn:E2; try discriminate.
  - apply Ascii.compare_eq_iff in E1, E2; subst. rewrite ascii_cmp_refl. eapply IH; eauto.
  - apply Ascii.compare_eq_iff in E1; subst. rewrite E2. reflexivity.
  - apply Ascii.compare_eq_iff in E2; subst. rewrite E1. reflexivity.
  - rewrite (ascii_cmp_trans _ _ _ E1 E2). reflexivity.
Qed.

Notation sfind := (omap_find String.compare).
Notation ssorted := (osorted String.compare).

Lemma sfind_set {V} k k' (v : V) m :
  sfind k' (omap_set String.compare k v m) = if String.eqb k k' then Some v else sfind k' m.
Proof.
  destruct (String.eqb_spec k k') as [->|Hne].
  - apply find_set_same; apply str_eq.
  - apply find_set_other; auto; [apply str_eq|apply str_trans].
Qed.

Lemma sfind_In {V} k (v : V) m : ssorted m -> (sfind k m = Some v <-> In (k, v) m).
Proof. apply omap_find_In; [apply str_eq|apply str_trans]. Qed.

Lemma sfind_None {V} k (m : list (string * V)) : ssorted m -> (sfind k m = None <-> ~ In k (map fst m)).
Proof. apply omap_find_None; [apply str_eq|apply str_trans]. Qed.

Lemma ssorted_set {V} k (v : V) m : ssorted m -> ssorted (omap_set String.compare k v m).
Proof. apply osorted_set; [apply str_eq|apply str_antisym|apply str_trans]. Qed.

Lemma sset_of_In {V} k (m : list (string * V)) : ssorted m -> In k (map fst m) -> exists v, sfind k m = Some v.
Proof. intros Hs H. apply set_of_In; auto; [apply str_eq|exact str_trans]. Qed.

Lemma set_keys_eq {V W} k (v : V) (w : W) m m' :
  map fst m = map fst m' ->
  map fst (omap_set String.compare k v m) = map fst (omap_set String.compare k w m').
Proof.
  revert m'; induction m as [|[k1 v1] m IH]; intros [|[k2 w2] m'] E; simpl in *; try discriminate; auto.
  inversion E; subst. destruct (String.compare k k2); simpl; f_equal; auto.
Qed.

Lemma skeys_set {V} k (v : V) m x : In x (map fst (omap_set String.compare k v m)) <-> x = k \/ In x (map fst m).
Proof. apply keys_set. apply str_eq. Qed.

(** ** Updating the values of a map in place *)
Lemma map_update_spec {V} (f : string -> V -> res V) m m' :
  map_update f m = Ok m' ->
  map fst m' = map fst m /\
  forall k, match sfind k m with
            | None => sfind k m' = None
            | Some v => exists v', f k v = Ok v' /\ sfind k m' = Some v'
            end.
Proof.
  unfold map_update. revert m'; induction m as [|[k0 v0] m IH]; intros m' H.
  - inversion H. split; auto. simpl. intros k. reflexivity.
  - cbn [mapM fst snd] in H. apply bind_ok in H as (b & H1 & H). apply bind_ok in H1 as (v1 & H1 & E); inversion E; subst b; clear E.
    apply bind_ok in H as (r & Hr & H). inversion H; subst m'; clear H.
    destruct (IH r Hr) as [Hk Hf]. split; [simpl; f_equal; exact Hk|].
    intros k. cbn [omap_find]. destruct (String.compare k k0) eqn:E.
    + apply str_eq in E; subst k. eauto.
    + reflexivity.
    + apply Hf.
Qed.

Lemma map_update_ok {V} (f : string -> V -> res V) m :
  (forall k v, In (k, v) m -> exists v', f k v = Ok v') -> exists m', map_update f m = Ok m'.
Proof.
  unfold map_update. induction m as [|[k0 v0] m IH]; intros H; [eexists; reflexivity|].
  cbn [mapM fst snd]. destruct (H k0 v0 ltac:(left; reflexivity)) as (v1 & ->).
  destruct IH as (m1 & E); [intros k v Hin; apply H; right; exact Hin|]. cbn [bind]. rewrite E. eexists; reflexivity.
Qed.

(** Same results for scans that agree. *)
Lemma map_update_ext {V} (f g : string -> V -> res V) m :
  (forall k v, In (k, v) m -> f k v = g k v) -> map_update f m = map_update g m.
Proof.
  unfold map_update. induction m as [|[k0 v0] m IH]; intros H; [reflexivity|].
  cbn [mapM fst snd]. rewrite (H k0 v0) by (left; reflexivity). rewrite IH; auto. intros k v Hin. apply H. right; exact Hin.
Qed.

(** ** The value picked by a scan *)
Fixpoint lastv (key : string) (args : list string) : option string :=
  match args with
  | [] => None
  | a :: t => match lastv key t with
              | Some v => Some v
              | None => if String.eqb key a then hd_error t else None
              end
  end.

Lemma lastv_None key args : lastv key args = None <-> no_value key args.
Proof.
  split.
  - induction args as [|a t IH]; simpl; intros H l1 v l2 E.
    + destruct l1; discriminate.
    + destruct (lastv key t) eqn:Et; [discriminate|]. destruct l1 as [|b l1]; simpl in E; inversion E; subst.
      * rewrite String.eqb_refl in H. discriminate.
      * eapply IH; [reflexivity|reflexivity].
  - induction args as [|a t IH]; simpl; intros H; [reflexivity|].
    rewrite IH.
    + destruct (String.eqb_spec key a) as [->|]; [|reflexivity]. destruct t as [|v t]; [reflexivity|].
      exfalso. apply (H [] v t). reflexivity.
    + intros l1 v l2 ->. apply (H (a :: l1) v l2). reflexivity.
Qed.

Lemma lastv_Some key args v : lastv key args = Some v <-> last_value key args v.
Proof.
  split.
  - induction args as [|a t IH]; simpl; [discriminate|]. destruct (lastv key t) eqn:Et.
    + intros H. destruct (IH H) as (l1 & l2 & -> & Hl). exists (a :: l1), l2. split; [reflexivity|exact Hl].
    + destruct (String.eqb_spec key a) as [->|]; [|discriminate]. destruct t as [|v' t]; [discriminate|].
      simpl. intros H; inversion H; subst v'. exists [], t. split; [reflexivity|].
      intros m1 w m2 E. apply lastv_None in Et. apply (Et m1 w m2 E).
  - intros (l1 & l2 & -> & Hl). assert (Hn : lastv key (v :: l2) = None) by (apply lastv_None; exact Hl).
    induction l1 as [|a l1 IH].
    + cbn [app lastv] in *. rewrite Hn. rewrite String.eqb_refl. reflexivity.
    + cbn [app lastv] in *. rewrite IH. reflexivity.
Qed.

Definition scan_step {V} (conv : string -> res V) (optKey : string) :=
  fun arg (s : V * bool) =>
    let (v, isArgVal) := s in
    ' (v, isArgVal) <- (if isArgVal then w <- conv arg ;; Ok (w, false) else Ok (v, isArgVal)) ;;
    Ok (v, if String.eqb optKey arg then true else isArgVal).

Lemma clap_scan_unfold {V} (conv : string -> res V) args key v0 :
  clap_scan conv args key v0 = (' (v, _) <- for_each args (scan_step conv key) (v0, false) ;; Ok v).
Proof. reflexivity. Qed.

Lemma scan_from {V} (conv : string -> res V) key args v f r g :
  for_each args (scan_step conv key) (v, f) = Ok (r, g) ->
  match lastv key args with
  | Some w => conv w = Ok r
  | None => if f then match args with a :: _ => conv a = Ok r | [] => r = v end else r = v
  end.
Proof.
  revert v f; induction args as [|a t IH]; intros v f H.
  - inversion H. destruct g; reflexivity.
  - cbn [for_each] in H. apply bind_ok in H as ([v1 f1] & H1 & H). specialize (IH _ _ H). cbn [lastv].
    unfold scan_step in H1. destruct f.
    + apply bind_ok in H1 as ([v2 f2] & H2 & H1). apply bind_ok in H2 as (w & Hw & E); inversion E; subst v2 f2; clear E.
      inversion H1; subst v1 f1; clear H1.
      destruct (lastv key t) as [w'|]; [exact IH|].
      destruct (String.eqb_spec key a) as [->|Hne].
      * destruct t as [|b t]; simpl; [rewrite IH; exact Hw|exact IH].
      * subst r. exact Hw.
    + cbn [bind] in H1. inversion H1; subst v1 f1; clear H1.
      destruct (lastv key t) as [w'|]; [exact IH|].
      destruct (String.eqb_spec key a) as [->|Hne]; [|exact IH].
      destruct t as [|b t]; simpl; exact IH.
Qed.

Lemma scan_ok_from {V} (conv : string -> res V) key args v f :
  (f = true -> forall a t, args = a :: t -> exists w, conv a = Ok w) ->
  (forall l1 a l2, args = (l1 ++ key :: a :: l2)%list -> exists w, conv a = Ok w) ->
  exists r g, for_each args (scan_step conv key) (v, f) = Ok (r, g).
Proof.
  revert v f; induction args as [|a t IH]; intros v f Hf H; [eexists; eexists; reflexivity|].
  assert (G : forall v', exists r g, for_each t (scan_step conv key) (v', if String.eqb key a then true else false) = Ok (r, g)).
  { intros v'. apply IH.
    - destruct (String.eqb_spec key a) as [<-|]; [|discriminate]. intros _ b t' ->. apply (H [] b t'). reflexivity.
    - intros l1 b l2 ->. apply (H (a :: l1) b l2). reflexivity. }
  cbn [for_each]. unfold scan_step at 1. destruct f.
  - destruct (Hf eq_refl a t eq_refl) as (w & ->). cbn [bind]. apply G.
  - cbn [bind]. apply G.
Qed.

Lemma scan_ok {V} (conv : string -> res V) key args v :
  (forall l1 a l2, args = (l1 ++ key :: a :: l2)%list -> exists w, conv a = Ok w) ->
  exists r, clap_scan conv args key v = Ok r.
Proof.
  intros H. rewrite clap_scan_unfold. destruct (scan_ok_from conv key args v false) as (r & g & ->); [discriminate|exact H|].
  exists r. reflexivity.
Qed.

Lemma clap_scan_spec {V} (conv : string -> res V) args key v0 r :
  clap_scan conv args key v0 = Ok r ->
  match lastv key args with Some w => conv w = Ok r | None => r = v0 end.
Proof.
  rewrite clap_scan_unfold. intros H. apply bind_ok in H as ([v g] & H & E). inversion E; subst v.
  apply scan_from in H. exact H.
Qed.

(** An argument that is not the key and does not follow the key can be dropped. *)
Lemma scan_flag_irrelevant {V} (conv : string -> res V) key l1 s l2 v :
  key <> s -> last l1 s <> key ->
  clap_scan conv (l1 ++ s :: l2) key v = clap_scan conv (l1 ++ l2) key v.
Proof.
  intros Hs Hl. rewrite !clap_scan_unfold. f_equal.
  assert (G : forall v f, (l1 = [] -> f = false) ->
     for_each (l1 ++ s :: l2) (scan_step conv key) (v, f) = for_each (l1 ++ l2) (scan_step conv key) (v, f)).
  { clear v. induction l1 as [|a l1 IH]; intros v f Hf.
    - rewrite Hf by reflexivity. cbn [app for_each]. unfold scan_step at 1. cbn [bind].
      destruct (String.eqb_spec key s); [congruence|]. reflexivity.
    - cbn [app for_each].
      assert (Hl' : last l1 s <> key).
      { destruct l1 as [|b l1]; [simpl; congruence|exact Hl]. }
      destruct (scan_step conv key a (v, f)) as [[v1 f1]|] eqn:E; [|reflexivity].
      cbn [bind]. apply IH; [exact Hl'|]. intros ->. unfold scan_step in E. simpl in Hl.
      apply bind_ok in E as ([v2 f2] & E2 & E). destruct (String.eqb_spec key a); [congruence|].
      inversion E; subst f1. destruct f; [apply bind_ok in E2 as (w & _ & E2)|]; inversion E2; reflexivity. }
  apply G. reflexivity.
Qed.

Lemma clap_flip_eq args key v :
  clap_flip args key v = Ok (xorb v (Nat.odd (count_occ string_dec args key))).
Proof.
  unfold clap_flip. revert v; induction args as [|a t IH]; intros v.
  - simpl. rewrite xorb_false_r. reflexivity.
  - cbn [for_each bind count_occ]. rewrite IH. f_equal.
    destruct (String.eqb_spec a key) as [->|Hne]; destruct (string_dec _ _); try congruence.
    rewrite Nat.odd_succ, <- Nat.negb_odd. destruct v, (Nat.odd _); reflexivity.
Qed.

(** ** Option recognition *)
Lemma c_isdigit_spec c b : c_isdigit c = Ok b -> (b = true <-> is_digit c).
Proof.
  unfold c_isdigit, is_digit. intros H.
  destruct ((128 <=? _) && _); [discriminate|]. inversion H. rewrite andb_true_iff, !Z.leb_le. lia.
Qed.

Lemma clap_isOptionName_cases arg :
  clap_isOptionName arg = match arg with
    | String c0 (String c _) => if Ascii.eqb c0 "-" then d <- c_isdigit c ;; Ok (negb d) else Ok false
    | _ => Ok false
    end.
Proof.
  destruct arg as [|c0 [|c t]]; try reflexivity.
  - destruct c0 as [[|] [|] [|] [|] [|] [|] [|] [|]]; reflexivity.
  - destruct c0 as [[|] [|] [|] [|] [|] [|] [|] [|]]; reflexivity.
Qed.

Lemma clap_isOptionName_spec arg b : clap_isOptionName arg = Ok b -> (b = true <-> looks_like_option arg).
Proof.
  rewrite clap_isOptionName_cases. destruct arg as [|c0 [|c t]].
  - intros H; inversion H. split; [discriminate|]. intros (c & t & E & _). discriminate.
  - intros H; inversion H. split; [discriminate|]. intros (c & t & E & _). discriminate.
  - destruct (Ascii.eqb_spec c0 "-") as [->|Hne].
    + intros H. apply bind_ok in H as (d & Hd & H). inversion H; subst b. apply c_isdigit_spec in Hd.
      destruct d; simpl.
      * split; [discriminate|]. intros (c' & t' & E & Hn). inversion E; subst. exfalso. apply Hn, Hd. reflexivity.
      * split; [|reflexivity]. intros _. exists c, t. split; [reflexivity|]. intros Hc. apply Hd in Hc. discriminate.
    + intros H; inversion H. split; [discriminate|]. intros (c' & t' & E & _). inversion E. congruence.
Qed.

Lemma clap_isOptionName_ok arg : ascii7 arg -> exists b, clap_isOptionName arg = Ok b.
Proof.
  intros H7. rewrite clap_isOptionName_cases. destruct arg as [|c0 [|c t]]; try (eexists; reflexivity).
  destruct (Ascii.eqb c0 "-"); [|eexists; reflexivity].
  specialize (H7 1%nat c eq_refl). unfold c_isdigit.
  destruct (Z.leb_spec 128 (Z.of_N (N_of_ascii c))); [lia|]. cbn [andb bind]. eexists; reflexivity.
Qed.

Section ParseProofs.
  Context {D : Type} (atof : string -> D).
  Implicit Types p : clap D.

  (** Names of a kind held by a parser. *)
  Definition names p (k : kind) : list string :=
    match k with
    | KDouble => map fst (cl_double p) | KInt => map fst (cl_int p)
    | KString => map fst (cl_string p) | KBool => map fst (cl_bool p)
    end.
  Definition helps p (k : kind) : list (string * string) :=
    match k with
    | KDouble => cl_doubleHelp p | KInt => cl_intHelp p
    | KString => cl_stringHelp p | KBool => cl_boolHelp p
    end.

  Record clap_wf p : Prop := {
    wf_d : ssorted (cl_double p); wf_i : ssorted (cl_int p);
    wf_s : ssorted (cl_string p); wf_b : ssorted (cl_bool p);
    wf_names : forall k, names p k = map fst (helps p k)
  }.

  Lemma wf_helps p k : clap_wf p -> ssorted (helps p k).
  Proof.
    intros [Hd Hi Hs Hb Hn]. specialize (Hn k).
    destruct k; simpl in *; (eapply osorted_keys; [exact Hn|assumption]).
  Qed.

  Lemma isValidOptName_spec p arg :
    clap_wf p -> (clap_isValidOptName p arg = true <-> exists k, In arg (names p k)).
  Proof using Type.
    intros [Hd Hi Hs Hb _]. unfold clap_isValidOptName.
    pose proof (sfind_None arg _ Hd) as Nd. pose proof (sfind_None arg _ Hi) as Ni.
    pose proof (sfind_None arg _ Hs) as Ns. pose proof (sfind_None arg _ Hb) as Nb.
    destruct (sfind arg (cl_double p)) as [d|] eqn:Ed.
    { split; auto. intros _. exists KDouble. apply sfind_In in Ed; auto. apply in_map_iff. exists (arg, d); auto. }
    destruct (sfind arg (cl_int p)) as [d|] eqn:Ei.
    { split; auto. intros _. exists KInt. apply sfind_In in Ei; auto. apply in_map_iff. exists (arg, d); auto. }
    destruct (sfind arg (cl_string p)) as [d|] eqn:Es.
    { split; auto. intros _. exists KString. apply sfind_In in Es; auto. apply in_map_iff. exists (arg, d); auto. }
    destruct (sfind arg (cl_bool p)) as [d|] eqn:Eb.
    { split; auto. intros _. exists KBool. apply sfind_In in Eb; auto. apply in_map_iff. exists (arg, d); auto. }
    split; [discriminate|]. intros [[| | |] H]; simpl in H; exfalso;
      [apply (proj1 Nd eq_refl H)|apply (proj1 Ni eq_refl H)|apply (proj1 Ns eq_refl H)|apply (proj1 Nb eq_refl H)].
  Qed.

  Lemma validate_spec p args b :
    clap_wf p -> clap_validate p args = Ok b ->
    (b = true <-> forall a, In a args -> looks_like_option a -> exists k, In a (names p k)).
  Proof using Type.
    intros Hwf. induction args as [|a t IH]; cbn [clap_validate]; intros H.
    - inversion H. split; auto. intros _ a [].
    - apply bind_ok in H as (o & Ho & H). apply clap_isOptionName_spec in Ho.
      pose proof (isValidOptName_spec p a Hwf) as Hv.
      destruct o, (clap_isValidOptName p a); cbn [andb negb] in H.
      + rewrite IH by exact H. split.
        * intros G x [<-|Hx] Hx'; [apply Hv; reflexivity|auto].
        * intros G x Hx. apply G. right; exact Hx.
      + inversion H. split; [discriminate|]. intros G. apply Hv. apply G; [left; reflexivity|]. apply Ho. reflexivity.
      + rewrite IH by exact H. split.
        * intros G x [<-|Hx] Hx'; [apply Hv; reflexivity|auto].
        * intros G x Hx. apply G. right; exact Hx.
      + rewrite IH by exact H. split.
        * intros G x [<-|Hx] Hx'; [apply Ho in Hx'; discriminate|auto].
        * intros G x Hx. apply G. right; exact Hx.
  Qed.

  Lemma validate_ok p args : (forall a, In a args -> ascii7 a) -> exists b, clap_validate p args = Ok b.
  Proof.
    induction args as [|a t IH]; cbn [clap_validate]; intros H; [eexists; reflexivity|].
    destruct (clap_isOptionName_ok a) as (o & ->); [apply H; left; reflexivity|]. cbn [bind].
    destruct (_ && _); [eexists; reflexivity|]. apply IH. intros x Hx. apply H. right; exact Hx.
  Qed.

  (** What a successful parse does. *)
  Lemma parse_true p argv p' :
    clap_parse atof p argv = Ok (true, p') ->
    argv <> [] /\
    (forall k, names p' k = names p k) /\ (forall k, helps p' k = helps p k) /\
    (forall n, match sfind n (cl_double p) with
               | None => sfind n (cl_double p') = None
               | Some v => sfind n (cl_double p') = Some (match lastv n (tl argv) with Some w => atof w | None => v end)
               end) /\
    (forall n, match sfind n (cl_int p) with
               | None => sfind n (cl_int p') = None
               | Some v => exists v', sfind n (cl_int p') = Some v' /\
                    match lastv n (tl argv) with Some w => c_atoi w = Ok v' | None => v' = v end
               end) /\
    (forall n, match sfind n (cl_string p) with
               | None => sfind n (cl_string p') = None
               | Some v => sfind n (cl_string p') = Some (match lastv n (tl argv) with Some w => w | None => v end)
               end) /\
    (forall n, match sfind n (cl_bool p) with
               | None => sfind n (cl_bool p') = None
               | Some v => sfind n (cl_bool p') = Some (xorb v (Nat.odd (count_occ string_dec (tl argv) n)))
               end).
  Proof.
    unfold clap_parse. intros H. apply bind_ok in H as (exec & He & H).
    apply bind_ok in H as ([|] & Hv & H); cbn [negb] in H; [|discriminate].
    cbn [cl_double cl_int cl_string cl_bool cl_doubleHelp cl_intHelp cl_stringHelp cl_boolHelp cl_execName cl_purpose cl_footer] in H.
    apply bind_ok in H as (ds & Hd & H). apply bind_ok in H as (is & Hi & H).
    apply bind_ok in H as (ss & Hs & H). apply bind_ok in H as (bs & Hb & H).
    inversion H; subst p'; clear H.
    apply map_update_spec in Hd as [Kd Fd]. apply map_update_spec in Hi as [Ki Fi].
    apply map_update_spec in Hs as [Ks Fs]. apply map_update_spec in Hb as [Kb Fb].
    cbn [cl_double cl_int cl_string cl_bool].
    split. { intros ->. vm_compute in He. discriminate. }
    split; [intros [| | |]; simpl; assumption|]. split; [intros [| | |]; reflexivity|].
    split; [|split; [|split]].
    - intros n. specialize (Fd n). destruct (sfind n (cl_double p)) as [v|]; [|exact Fd].
      destruct Fd as (v' & E & ->). apply clap_scan_spec in E. f_equal.
      destruct (lastv n (tl argv)); [inversion E; reflexivity|exact E].
    - intros n. specialize (Fi n). destruct (sfind n (cl_int p)) as [v|]; [|exact Fi].
      destruct Fi as (v' & E & E'). apply clap_scan_spec in E. exists v'. split; [exact E'|]. exact E.
    - intros n. specialize (Fs n). destruct (sfind n (cl_string p)) as [v|]; [|exact Fs].
      destruct Fs as (v' & E & ->). apply clap_scan_spec in E. f_equal.
      destruct (lastv n (tl argv)); [inversion E; reflexivity|exact E].
    - intros n. specialize (Fb n). destruct (sfind n (cl_bool p)) as [v|]; [|exact Fb].
      destruct Fb as (v' & E & ->). rewrite clap_flip_eq in E. inversion E. reflexivity.
  Qed.

  Lemma parse_false p argv p' :
    clap_parse atof p argv = Ok (false, p') ->
    cl_double p' = cl_double p /\ cl_int p' = cl_int p /\ cl_string p' = cl_string p /\ cl_bool p' = cl_bool p /\
    (forall k, names p' k = names p k) /\ (forall k, helps p' k = helps p k).
  Proof.
    unfold clap_parse. intros H. apply bind_ok in H as (exec & He & H).
    apply bind_ok in H as ([|] & Hv & H); cbn [negb] in H.
    - apply bind_ok in H as (ds & Hd & H). apply bind_ok in H as (is & Hi & H).
      apply bind_ok in H as (ss & Hs & H). apply bind_ok in H as (bs & Hb & H). discriminate.
    - inversion H; subst p'. simpl. repeat split; auto; intros [| | |]; reflexivity.
  Qed.

  Lemma parse_names p argv b p' :
    clap_parse atof p argv = Ok (b, p') ->
    (forall k, names p' k = names p k) /\ (forall k, helps p' k = helps p k).
  Proof.
    destruct b; intros H.
    - apply parse_true in H. tauto.
    - apply parse_false in H. tauto.
  Qed.

  Lemma wf_by_names p p' :
    clap_wf p -> (forall k, names p' k = names p k) -> (forall k, helps p' k = helps p k) -> clap_wf p'.
  Proof.
    intros [Hd Hi Hs Hb Hn] N H. constructor.
    - eapply osorted_keys; [symmetry; apply (N KDouble)|exact Hd].
    - eapply osorted_keys; [symmetry; apply (N KInt)|exact Hi].
    - eapply osorted_keys; [symmetry; apply (N KString)|exact Hs].
    - eapply osorted_keys; [symmetry; apply (N KBool)|exact Hb].
    - intros k. rewrite N, H. apply Hn.
  Qed.

  (** ** Histories *)
  Definition act p (a : action D) : res (clap D) :=
    match a with
    | ASetDouble n v h => Ok (clap_setDouble p n v h)
    | ASetInt n v h => Ok (clap_setInt p n v h)
    | ASetString n v h => Ok (clap_setString p n v h)
    | ASetBool n v h => Ok (clap_setBool p n v h)
    | APurpose s => Ok (clap_setPurpose p s)
    | AFootnote s => Ok (clap_addFootnote p s)
    | AParse argv => ' (_, p') <- clap_parse atof p argv ;; Ok p'
    end.

  Definition run_history (hist : list (action D)) : res (clap D) := for_each hist (fun a p => act p a) clap_new.

  Definition kind_eqb (k k' : kind) : bool :=
    match k, k' with
    | KDouble, KDouble | KInt, KInt | KString, KString | KBool, KBool => true
    | _, _ => false
    end.
  Lemma kind_eqb_spec k k' : kind_eqb k k' = true <-> k = k'.
  Proof. destruct k, k'; simpl; split; congruence. Qed.

  Lemma act_spec p a p' :
    clap_wf p -> act p a = Ok p' ->
    clap_wf p' /\
    (forall k n, In n (names p' k) <-> In n (names p k) \/ exists h, registers a = Some (k, n, h)) /\
    (forall k n, sfind n (helps p' k) =
       match registers a with
       | Some (k', n', h) => if kind_eqb k' k && String.eqb n' n then Some h else sfind n (helps p k)
       | None => sfind n (helps p k)
       end).
  Proof.
    intros Hwf H. assert (Hwf' := Hwf). destruct Hwf' as [Hd Hi Hs Hb Hn]. destruct a; cbn [act] in H.
    1-6: inversion H; subst p'; clear H.
    - split.
      { constructor; cbn; auto using ssorted_set. intros [| | |]; cbn; try apply (Hn KInt) || apply (Hn KString) || apply (Hn KBool).
        apply set_keys_eq. apply (Hn KDouble). }
      cbn [registers]. split.
      + intros [| | |] n; cbn; try (split; [tauto|intros [?|[? E]]; [assumption|discriminate]]).
        rewrite skeys_set. split; [intros [->|?]; eauto|intros [?|[? E]]; [auto|inversion E; auto]].
      + intros [| | |] n; cbn [kind_eqb andb]; cbn; try reflexivity. rewrite sfind_set. reflexivity.
    - split.
      { constructor; cbn; auto using ssorted_set. intros [| | |]; cbn; try apply (Hn KDouble) || apply (Hn KString) || apply (Hn KBool).
        apply set_keys_eq. apply (Hn KInt). }
      cbn [registers]. split.
      + intros [| | |] n; cbn; try (split; [tauto|intros [?|[? E]]; [assumption|discriminate]]).
        rewrite skeys_set. split; [intros [->|?]; eauto|intros [?|[? E]]; [auto|inversion E; auto]].
      + intros [| | |] n; cbn [kind_eqb andb]; cbn; try reflexivity. rewrite sfind_set. reflexivity.
    - split.
      { constructor; cbn; auto using ssorted_set. intros [| | |]; cbn; try apply (Hn KInt) || apply (Hn KDouble) || apply (Hn KBool).
        apply set_keys_eq. apply (Hn KString). }
      cbn [registers]. split.
      + intros [| | |] n; cbn; try (split; [tauto|intros [?|[? E]]; [assumption|discriminate]]).
        rewrite skeys_set. split; [intros [->|?]; eauto|intros [?|[? E]]; [auto|inversion E; auto]].
      + intros [| | |] n; cbn [kind_eqb andb]; cbn; try reflexivity. rewrite sfind_set. reflexivity.
    - split.
      { constructor; cbn; auto using ssorted_set. intros [| | |]; cbn; try apply (Hn KInt) || apply (Hn KString) || apply (Hn KDouble).
        apply set_keys_eq. apply (Hn KBool). }
      cbn [registers]. split.
      + intros [| | |] n; cbn; try (split; [tauto|intros [?|[? E]]; [assumption|discriminate]]).
        rewrite skeys_set. split; [intros [->|?]; eauto|intros [?|[? E]]; [auto|inversion E; auto]].
      + intros [| | |] n; cbn [kind_eqb andb]; cbn; try reflexivity. rewrite sfind_set. reflexivity.
    - split; [apply (wf_by_names p); auto; intros [| | |]; reflexivity|].
      cbn [registers]. split; [|intros [| | |]; reflexivity].
      intros [| | |] n; cbn; (split; [tauto|intros [?|[? E]]; [assumption|discriminate]]).
    - split; [apply (wf_by_names p); auto; intros [| | |]; reflexivity|].
      cbn [registers]. split; [|intros [| | |]; reflexivity].
      intros [| | |] n; cbn; (split; [tauto|intros [?|[? E]]; [assumption|discriminate]]).
    - apply bind_ok in H as ([b q] & Hp & E). inversion E; subst q; clear E.
      apply parse_names in Hp as [N Hh].
      split; [apply (wf_by_names p); auto|]. cbn [registers]. split.
      + intros k n. rewrite N. split; [tauto|intros [?|[? E]]; [assumption|discriminate]].
      + intros k n. rewrite Hh. reflexivity.
  Qed.

  Lemma clap_new_wf : clap_wf (@clap_new D).
  Proof.
    constructor; cbn; try constructor; try constructor. intros [| | |]; reflexivity.
  Qed.

  (** The state reached by a history. *)
  Lemma run_app h1 h2 p : for_each (h1 ++ h2) (fun a p => act p a) p = (q <- for_each h1 (fun a p => act p a) p ;; for_each h2 (fun a p => act p a) q).
  Proof.
    revert p; induction h1 as [|a t IH]; intros p; [reflexivity|]. cbn [app for_each].
    destruct (act p a); [|reflexivity]. cbn [bind]. apply IH.
  Qed.

  Lemma run_history_snoc hist a p :
    run_history (hist ++ [a]) = Ok p -> exists q, run_history hist = Ok q /\ act q a = Ok p.
  Proof.
    unfold run_history. rewrite run_app. intros H. apply bind_ok in H as (q & Hq & H). exists q. split; [exact Hq|].
    cbn [for_each] in H. apply bind_ok in H as (r & Hr & H). inversion H; subst. exact Hr.
  Qed.

  Lemma run_history_spec hist : forall p,
    run_history hist = Ok p ->
    clap_wf p /\
    (forall k n, In n (names p k) <-> registered hist k n) /\
    (forall k n h, sfind n (helps p k) = Some h <-> last_help hist k n h).
  Proof.
    induction hist as [|a hist IH] using rev_ind; intros p H.
    - inversion H; subst p. split; [apply clap_new_wf|]. split.
      + intros k n. split.
        * intros Hin. destruct k; cbn in Hin; try contradiction. destruct Hin as [<-|[]]. left. auto.
        * intros [[-> ->]|(a & h & [] & _)]. left. reflexivity.
      + intros k n h. split.
        * intros Hf. right. destruct k; cbn [helps clap_new] in Hf; try discriminate.
          change (sfind n [("-h"%string, "Print help."%string)] = Some h) in Hf. cbn [omap_find] in Hf.
          destruct (String.compare n "-h") eqn:E; try discriminate. apply str_eq in E. inversion Hf. auto.
        * intros [(h1 & a & h2 & E & _)|(-> & -> & -> & _)]; [destruct h1; discriminate|]. reflexivity.
    - apply run_history_snoc in H as (q & Hq & Ha). destruct (IH q Hq) as (Hwf & Hn & Hh).
      destruct (act_spec q a p Hwf Ha) as (Hwf' & Hn' & Hh'). split; [exact Hwf'|]. split.
      + intros k n. rewrite Hn', Hn. unfold registered. split.
        * intros [[?|(b & h & Hb & E)]|(h & E)]; [left; assumption| |].
          -- right. exists b, h. rewrite in_app_iff. auto.
          -- right. exists a, h. rewrite in_app_iff. simpl. auto.
        * intros [?|(b & h & Hb & E)]; [left; left; assumption|]. rewrite in_app_iff in Hb. destruct Hb as [Hb|[<-|[]]].
          -- left. right. eauto.
          -- right. eauto.
      + intros k n h. rewrite Hh'.
        assert (Hstep : match registers a with
             | Some (k', n', h') => kind_eqb k' k && String.eqb n' n = false
             | None => True end -> (last_help (hist ++ [a]) k n h <-> last_help hist k n h)).
        { intros Hno.
          assert (Hnr : forall h', registers a <> Some (k, n, h')).
          { intros h' E. rewrite E in Hno. rewrite String.eqb_refl in Hno.
            rewrite (proj2 (kind_eqb_spec k k) eq_refl) in Hno. discriminate. }
          unfold last_help. split.
          - intros [(h1 & b & h2 & E & Er & Hl)|(E1 & E2 & E3 & Hl)].
            + left. destruct h2 as [|c h2] using rev_ind.
              * apply app_inj_tail in E as [_ E]. subst b. exfalso. apply (Hnr h). exact Er.
              * clear IHh2. rewrite app_comm_cons, app_assoc in E. apply app_inj_tail in E as [-> E]. subst c.
                exists h1, b, h2. split; [reflexivity|]. split; [exact Er|]. intros a' h' Hin. apply Hl. rewrite in_app_iff. auto.
            + right. repeat (split; [assumption|]). intros a' h' Hin. apply Hl. rewrite in_app_iff. auto.
          - intros [(h1 & b & h2 & E & Er & Hl)|(E1 & E2 & E3 & Hl)].
            + left. exists h1, b, (h2 ++ [a])%list. subst hist. rewrite <- app_assoc. split; [reflexivity|].
              split; [exact Er|]. intros a' h'. rewrite in_app_iff. intros [Hin|[<-|[]]]; [apply Hl; exact Hin|apply Hnr].
            + right. repeat (split; [assumption|]). intros a' h'. rewrite in_app_iff. intros [Hin|[<-|[]]]; [apply Hl; exact Hin|apply Hnr]. }
        destruct (registers a) as [[[k' n'] h']|] eqn:Er; [|rewrite Hh; symmetry; apply Hstep; exact I].
        destruct (kind_eqb k' k && String.eqb n' n) eqn:E.
        * apply andb_true_iff in E as [E1 E2]. apply kind_eqb_spec in E1. apply String.eqb_eq in E2. subst k' n'.
          split.
          -- intros E; inversion E; subst h'. left. exists hist, a, []. split; [reflexivity|]. split; [exact Er|]. intros a' h' [].
          -- intros [(h1 & b & h2 & E & Er' & Hl)|(E1 & E2 & E3 & Hl)].
             ++ destruct h2 as [|c h2] using rev_ind.
                ** apply app_inj_tail in E as [_ E]. subst b. congruence.
                ** clear IHh2. rewrite app_comm_cons, app_assoc in E. apply app_inj_tail in E as [-> E]. subst c.
                   exfalso. apply (Hl a h'); [rewrite in_app_iff; simpl; auto|exact Er].
             ++ exfalso. apply (Hl a h'); [rewrite in_app_iff; simpl; auto|exact Er].
        * rewrite Hh. symmetry. apply Hstep. reflexivity.
  Qed.
End ParseProofs.
