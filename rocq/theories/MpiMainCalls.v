(** * The collective calls of the MPI programs *)
From Coq Require Import List String Permutation.
From Verif Require Import Cpp CppProof OMap MaiModel CdModel CmdModel FilterModel FilterSpec FilterProof FilterRank FilterWorld FilterProg FilterProps LapModel LapProof LapProps UpMpiModel UpMpiProof VtkModel
  NumModel TextModel MpiTextModel MpiSchedModel MpiSchedSpec MpiSchedFilter MpiMainModel MpiMainProof LeakProps MpiMainSpec.
Import ListNotations.
Local Open Scope Z_scope.
Local Arguments Z.of_nat : simpl never.

(** ** Processes that end in order *)
Section Closing.
  Context {St El V R : Type} (expose : St -> list Z -> res (list El)).
  Notation process := (proc St El V R).

  (** With [n] windows, the process ends MPI when it has none left, and then returns. *)
  Fixpoint closing (n : nat) (p : process) : Prop :=
    match p with
    | Ret _ => False
    | Stop _ => True
    | FenceOpen _ _ k | Get _ _ _ _ k => closing n k
    | FenceClose _ _ k => forall d, closing n (k d)
    | Coll a _ _ k =>
        match a with
        | Init => False
        | WinCreate => forall g, closing (S n) (k g)
        | WinFree _ => match n with O => False | S n => forall g, closing n (k g) end
        | Reduce _ | Gather => forall g, closing n (k g)
        | Finalize => n = O /\ forall g, exists x, k g = Ret x
        end
    end.
  Definition starting (p : process) : Prop := exists v s k, p = Coll Init v s k /\ forall g, closing 0 (k g).

  Lemma windows_left_app l1 : forall n m l2, windows_left n l1 = Some m -> windows_left n (l1 ++ l2) = windows_left m l2.
  Proof using Type.
    induction l1 as [|a l1 IH]; intros n m l2 H; cbn [windows_left app] in *; [inversion H; reflexivity|].
    destruct a; try discriminate; try (apply IH; exact H). destruct n; [discriminate|]. apply IH, H.
  Qed.

  (** The state of a rank that has made the calls it should have made. *)
  Definition in_order (x : rank St El V R) : Prop :=
    (colls x = [] /\ starting (pr x)) \/
    (exists mid n, map fst (colls x) = Init :: mid /\ windows_left 0 mid = Some n /\ closing n (pr x)) \/
    (orderly (map fst (colls x)) /\ exists r, pr x = Ret r).

  Lemma upd_nth_in {A} (l : list A) i a x : In x (upd l i a) -> x = a \/ In x l.
  Proof using Type.
    revert i. induction l as [|b l IH]; intros [|i] H; cbn [upd] in H; [destruct H|destruct H|destruct H as [H|H]; [left; congruence|right; right; exact H]|].
    destruct H as [H|H]; [right; left; exact H|]. apply IH in H. destruct H; [left|right; right]; assumption.
  Qed.

  Lemma turn_in_order ev c c' : (forall x, In x c -> in_order x) -> turn expose ev c = Some (Ok c') -> forall x, In x c' -> in_order x.
  Proof using Type.
    intros H E. destruct ev as [r|r i]; cbn [turn] in E.
    - destruct (nth_error c r) as [x|] eqn:Ex; [|discriminate]. pose proof (H x (nth_error_In _ _ Ex)) as Hx.
      destruct (pr x) as [v|u|w s k|w t n s k|w s k|a v s k] eqn:Ep; [discriminate|discriminate| | | |].
      + inversion E; subst c'. intros y Hy. apply upd_nth_in in Hy as [->|Hy]; [|apply H, Hy].
        destruct Hx as [(_ & v & s' & k' & E' & _)|[(mid & n & A & B & C)|(_ & v & E')]]; try (rewrite Ep in E'; discriminate).
        right. left. exists mid, n. cbn [colls pr]. rewrite Ep in C. auto.
      + destruct (pend x); [discriminate|]. destruct (negb _); [discriminate|]. inversion E; subst c'. intros y Hy. apply upd_nth_in in Hy as [->|Hy]; [|apply H, Hy].
        destruct Hx as [(_ & v & s' & k' & E' & _)|[(mid & m & A & B & C)|(_ & v & E')]]; try (rewrite Ep in E'; discriminate).
        right. left. exists mid, m. cbn [colls pr]. rewrite Ep in C. auto.
      + destruct (may_close c r w x); [|discriminate]. inversion E; subst c'. intros y Hy. apply upd_nth_in in Hy as [->|Hy]; [|apply H, Hy].
        destruct Hx as [(_ & v & s' & k' & E' & _)|[(mid & m & A & B & C)|(_ & v & E')]]; try (rewrite Ep in E'; discriminate).
        right. left. exists mid, m. cbn [colls pr]. rewrite Ep in C. split; [exact A|]. split; [exact B|]. apply C.
      + assert (HK : forall g, in_order (mkRank (k g) (opens x) (closes x) (pend x) (colls x ++ [(a, v)]))).
        { intros g. destruct Hx as [(E0 & v' & s' & k' & E' & HC)|[(mid & m & A & B & C)|(_ & v' & E')]]; [| |rewrite Ep in E'; discriminate].
          - rewrite Ep in E'. inversion E'; subst. right. left. exists [], 0%nat. cbn [colls pr]. rewrite E0. split; [reflexivity|]. split; [reflexivity|]. apply HC.
          - rewrite Ep in C. unfold in_order. cbn [colls pr]. rewrite map_app, A. cbn [map fst app]. cbn [closing] in C.
            assert (HM : forall m', windows_left m [a] = Some m' -> closing m' (k g) -> exists mid' n, Init :: mid ++ [a] = Init :: mid' /\ windows_left 0 mid' = Some n /\ closing n (k g)).
            { intros m' E1 C1. exists (mid ++ [a]), m'. split; [reflexivity|]. split; [rewrite (windows_left_app _ _ _ _ B); exact E1|exact C1]. }
            destruct a as [| |w'|o| |].
            + contradiction.
            + right. left. apply (HM (S m)); [reflexivity|apply C].
            + destruct m as [|m]; [contradiction|]. right. left. apply (HM m); [reflexivity|apply C].
            + right. left. apply (HM m); [reflexivity|apply C].
            + right. left. apply (HM m); [reflexivity|apply C].
            + right. right. destruct C as (-> & C). split; [exists mid; split; [reflexivity|exact B]|apply C]. }
        cbv zeta in E. destruct (negb (forallb (agrees a) _)); [discriminate|]. destruct (receives a && (r =? 0)%nat).
        * destruct (forallb sent _); [|discriminate]. destruct (forallb _ _); [|discriminate]. inversion E; subst c'.
          intros y Hy. apply upd_nth_in in Hy as [->|Hy]; [apply HK|apply H, Hy].
        * inversion E; subst c'. intros y Hy. apply upd_nth_in in Hy as [->|Hy]; [apply HK|apply H, Hy].
    - destruct (nth_error c r) as [x|] eqn:Ex; [|discriminate]. pose proof (H x (nth_error_In _ _ Ex)) as Hx.
      destruct (pend x) as [[[w t] buf]|]; [|discriminate]. destruct (nth_error buf i) as [[v|]|]; [discriminate| |discriminate].
      destruct (nth_error c (Z.to_nat t)) as [y|]; [|discriminate]. destruct (_ <=? _)%nat; [|discriminate].
      inversion E as [E']. apply bind_ok in E' as (s & _ & E'). apply bind_ok in E' as (data & _ & E'). destruct (nth_error data i); [|discriminate].
      inversion E'. intros z Hz. apply upd_nth_in in Hz as [->|Hz]; [exact Hx|apply H, Hz].
  Qed.

  Lemma run_in_order sched : forall c c', (forall x, In x c -> in_order x) -> MpiSchedModel.run expose sched c = Some (Ok c') -> forall x, In x c' -> in_order x.
  Proof using Type.
    induction sched as [|ev sched IH]; intros c c' H E; cbn [MpiSchedModel.run] in E; [inversion E; subst; exact H|].
    destruct (turn expose ev c) as [[c1|u]|] eqn:Et; [|discriminate|discriminate]. apply (IH c1 c'); [|exact E]. apply (turn_in_order ev c); assumption.
  Qed.

  Lemma starting_orderly ps sched c x r : (forall p, In p ps -> starting p) -> MpiSchedModel.run expose sched (start ps) = Some (Ok c) ->
    In x c -> pr x = Ret r -> orderly (map fst (colls x)).
  Proof using Type.
    intros H E Hx Er. assert (HI : in_order x).
    { apply (run_in_order sched (start ps) c); [|exact E|exact Hx]. intros y Hy. apply in_map_iff in Hy as (p & <- & Hp). left. split; [reflexivity|]. apply H, Hp. }
    destruct HI as [(_ & v & s & k & E' & _)|[(mid & n & _ & _ & C)|(H' & _)]]; [rewrite Er in E'; discriminate|rewrite Er in C; destruct C|exact H'].
  Qed.

  Lemma priv_closing {A} n (r : res A) (k : A -> process) : (forall a, r = Ok a -> closing n (k a)) -> closing n (priv r k).
  Proof using Type. destruct r; intros H; [apply H; reflexivity|exact I]. Qed.
End Closing.

(** ** Stencils whose moving displacements have different sides *)
Definition tame {D} (nd : nat) (st : list (list Z * D)) : Prop :=
  (forall off v, In (off, v) st -> List.length off = nd) /\ NoDup (map side_of (moving st)).

Lemma side_nth off j : nth j (side_of off) 0 = - Z.sgn (nth j off 0).
Proof. exact (map_nth (fun o => - Z.sgn o) off 0 j). Qed.

Lemma axis_tame {D} dims (st : list (list Z * D)) : axis_stencil dims st -> tame (List.length dims) st.
Proof.
  intros (Hm & Ho). split; [intros off v Hi; destruct (Ho off v Hi) as ((HL & _) & _); exact HL|].
  assert (HI : forall off, In off (moving st) -> unit_offset (List.length dims) off).
  { intros off Hi. unfold moving in Hi. apply filter_In in Hi as (Hi & _). apply in_map_iff in Hi as ((o & v) & <- & Hi). exact (proj1 (Ho o v Hi)). }
  assert (ND : NoDup (moving st)) by (apply NoDup_filter, (osorted_NoDup lexcmp lexcmp_eq), Hm). revert HI ND. generalize (moving st). clear. intros l HI ND.
  induction ND as [|o l Hn _ IH]; cbn [map]; constructor; [|apply IH; intros off H; apply HI; right; exact H].
  intros Hi. apply in_map_iff in Hi as (o' & E & Hi). apply Hn.
  assert (HS : forall a b n, unit_offset n a -> unit_offset n b -> side_of a = side_of b -> a = b).
  { clear. intros a b n (La & Ha) (Lb & Hb) E. apply (nth_ext' 0); [congruence|]. intros j Hj.
    apply (f_equal (fun l => nth j l 0)) in E. rewrite !side_nth in E.
    specialize (Ha j ltac:(lia)). specialize (Hb j ltac:(lia)). lia. }
  rewrite (HS o o' (List.length dims)); [exact Hi|apply HI; left; reflexivity|apply HI; right; exact Hi|symmetry; exact E].
Qed.

Section Programs.
  Context {D : Type} (ar : arith D) (show : D -> string) (reduce : nat -> list D -> D) (rtime : redop -> list D -> D) (wall : Z -> D)
    (atof : string -> D) (tolerant : bool).
  Notation process := (proc (filter D) (option D) D TextModel.run).
  Notation closing := (closing (St := filter D) (El := option D) (V := D) (R := TextModel.run)).
  Implicit Types f : filter D.

  (** ** applyFilter *)
  Lemma fetch_closing n f rk side (k : list (option D) -> filter D -> process) :
    (forall d f', shape f' = shape f -> closing n (k d f')) -> closing n (fetch_proc f rk side k).
  Proof using Type.
    intros H. apply priv_closing. intros [[m src] dst] _. cbn [MpiMainCalls.closing]. intros d. apply H. reflexivity.
  Qed.

  Lemma branch_closing n f it (k : filter D -> process) : (forall f', shape f' = shape f -> closing n (k f')) -> closing n (branch_proc ar f it k).
  Proof using Type.
    intros H. destruct it as [offset val]. apply priv_closing. intros [[[side rk] wit] f1] E.
    apply bind_ok in E as (s & _ & E). apply bind_ok in E as ((rk1 & c) & _ & E). apply bind_ok in E as ((wi & f2) & E2 & E). inversion E; subst.
    apply windowIter_keeps in E2 as (HS & _). change (shape (set_dcmp f c)) with (shape f) in HS.
    destruct (omap_find lexcmp side (f_winIds f1)).
    - apply fetch_closing. intros d f' H'. apply priv_closing. intros f'' E''. apply accumulate_keeps in E'' as (HS' & _). apply H. congruence.
    - apply priv_closing. intros f'' E''. apply accumulate_keeps in E'' as (HS' & _). apply H. congruence.
  Qed.

  Lemma branches_closing n st : forall f (k : filter D -> process), (forall f', shape f' = shape f -> closing n (k f')) -> closing n (branches_proc ar st f k).
  Proof using Type.
    induction st as [|it st IH]; intros f k H; cbn [branches_proc]; [apply H; reflexivity|]. apply branch_closing. intros f' HS. apply IH. intros f'' HS'. apply H. congruence.
  Qed.

  Lemma apply_closing n f (k : filter D -> process) : (forall f', shape f' = shape f -> closing n (k f')) -> closing n (apply_proc ar f k).
  Proof using Type.
    intros H. apply priv_closing. intros f' E. apply zeroOut_keeps in E as (HS & _). apply branches_closing. intros f'' HS'. apply H. congruence.
  Qed.

  Lemma program_closing n l : (forall i, In i l -> keeps_shape i) -> forall f (k : filter D -> process),
    (forall f', shape f' = shape f -> closing n (k f')) -> closing n (program ar l k f).
  Proof using Type.
    induction l as [|i l IH]; intros Hl f k H; cbn [program]; [apply H; reflexivity|]. specialize (IH (fun i Hi => Hl i (or_intror Hi))). destruct i as [|g].
    - apply apply_closing. intros f' HS. apply IH. intros f'' HS'. apply H. congruence.
    - apply priv_closing. intros f' E. pose proof (Hl (ILocal g) (or_introl eq_refl) f f' E) as HS. apply IH. intros f'' HS'. apply H. congruence.
  Qed.

  (** ** Constructor and destructor *)
  Lemma windows_closing st : forall n f (k : filter D -> process), (forall off v, In (off, v) st -> List.length off = Z.to_nat (f_ndims f)) -> 0 <= f_ndims f < two31 ->
    (forall f', for_each st ctor_step f = Ok f' -> closing (n + List.length (moving st)) (k f')) -> closing n (windows_proc st f k).
  Proof using Type.
    induction st as [|[off v] st IH]; intros n f k HL Hd H; cbn [windows_proc fst].
    { specialize (H f eq_refl). unfold moving in H. cbn [map List.filter List.length] in H. rewrite Nat.add_0_r in H. exact H. }
    assert (HZ : (filter_getNumberOfNonZeroElements off =? 0) = is_zero off).
    { destruct (nonzero_dec off) as [H0|H0]; [exact H0|]. unfold vlen in H0. rewrite (HL off v (or_introl eq_refl)) in H0. lia. }
    cbn [for_each] in H. unfold ctor_step at 1 in H. cbn [fst] in H. unfold moving in H. cbn [map fst List.filter] in H. fold (moving st) in H. rewrite HZ in *.
    destruct (is_zero off); cbn [negb] in H.
    - apply IH; [intros o w Hi; apply (HL o w); right; exact Hi|exact Hd|]. cbn [bind] in H. exact H.
    - apply priv_closing. intros f1 E1. cbn [MpiMainCalls.closing]. intros _.
      assert (Hn : f_ndims f1 = f_ndims f).
      { apply bind_ok in E1 as (side & _ & E1). apply bind_ok in E1 as (g & _ & E1). apply newWindow_alike in E1 as (A & _). unfold const in A. cbn [set_ghosts f_ndims] in A. congruence. }
      apply IH; [intros o w Hi; rewrite Hn; apply (HL o w); right; exact Hi|rewrite Hn; exact Hd|]. intros f' E'.
      replace (S n + List.length (moving st))%nat with (n + List.length (off :: moving st))%nat by (cbn [List.length]; lia). apply H.
      apply bind_ok in E1 as (side & Es & E1). apply bind_ok in E1 as (g & Eg & E1). rewrite Es. cbn [bind]. rewrite Eg. cbn [bind]. rewrite E1. cbn [bind]. exact E'.
  Qed.

  (** A filter that has the windows it knows of. *)
  Definition knows f : Prop := osorted lexcmp (f_winIds f).

  Lemma new_closing rk sz dims x0 x1 st (k : filter D -> process) : tame (List.length dims) st -> vlen dims < two31 ->
    (forall f, knows f -> f_rk f = rk -> closing (List.length (f_winIds f)) (k f)) -> closing 0 (new_proc ar rk sz dims x0 x1 st k).
  Proof using Type.
    intros (HL & HN) Hd H. apply priv_closing. intros [valid dcmp] Eb. destruct valid; cbn [negb].
    2:{ apply (H (mkFilter rk sz (vlen dims) dims x0 x1 false dcmp [] [] None [] [] [] [] [] [] [] [])); [constructor|reflexivity]. }
    apply priv_closing. intros f0 E0.
    apply bind_ok in E0 as ((lo & c1) & E1 & E0). apply bind_ok in E0 as ((hi & c2) & E2 & E0). apply bind_ok in E0 as (mit & E3 & E0). inversion E0; subst f0. clear E0.
    match goal with |- closing _ (windows_proc _ ?f _) => set (f0 := f) end.
    apply windows_closing.
    - intros off v Hi. unfold f0. cbn [f_ndims]. unfold vlen. rewrite Nat2Z.id. apply (HL off v Hi).
    - unfold f0. cbn [f_ndims]. unfold vlen in *. lia.
    - intros f' E. cbn [plus].
      assert (EN : filter_new ar rk sz dims x0 x1 st = Ok f').
      { unfold filter_new. rewrite Eb. cbn [bind negb]. rewrite E1. cbn [bind]. rewrite E2. cbn [bind]. rewrite E3. cbn [bind]. exact E. }
      destruct (new_alike ar _ _ _ _ _ _ _ _ _ EN EN) as ((v & c & Ec & HC) & HO & _). rewrite Eb in Ec. inversion Ec; subst v c.
      assert (Hv : f_valid f' = true) by (unfold const in HC; congruence). assert (Hr : f_rk f' = rk) by (unfold const in HC; congruence).
      destruct (new_built ar _ _ _ _ _ _ _ HL Hd EN Hv) as ((B1 & _) & _).
      replace (List.length (moving st)) with (List.length (f_winIds f')); [apply H; [apply HO|exact Hr]|].
      rewrite <- (map_length fst), <- (map_length side_of (moving st)). apply Permutation_length. apply NoDup_Permutation; [|exact HN|exact B1].
      apply (osorted_NoDup lexcmp lexcmp_eq). apply HO.
  Qed.

  Lemma free_closing wins : forall n f (k : process), knows f -> incl wins (f_winIds f) -> closing n k -> closing (List.length wins + n) (free_proc wins f k).
  Proof using Type.
    induction wins as [|[s [[i1 i2] i3]] wins IH]; intros n f k Hk Hi HC; cbn [free_proc fst List.length plus]; [exact HC|].
    assert (EF : omap_find lexcmp s (f_winIds f) = Some (i1, i2, i3)) by (apply FilterRank.lfind_In; [exact Hk|apply Hi; left; reflexivity]).
    rewrite EF. apply priv_closing. intros f1 E1. apply bind_ok in E1 as (l1 & _ & E1). apply bind_ok in E1 as (l2 & _ & E1). inversion E1; subst f1. clear E1.
    cbn [set_ids f_winIds]. rewrite EF. cbn [MpiMainCalls.closing]. intros _. apply priv_closing. intros live _. apply IH; [exact Hk| |exact HC].
    intros x Hx. apply Hi. right. exact Hx.
  Qed.

  Lemma delete_closing f (k : process) : knows f -> closing 0 k -> closing (List.length (f_winIds f)) (delete_proc f k).
  Proof using Type. intros Hk HC. unfold delete_proc. rewrite <- (Nat.add_0_r (List.length _)). apply free_closing; [exact Hk|apply incl_refl|exact HC]. Qed.

  (** ** The other functions *)
  Lemma reduce_closing n o v red f (k : D -> process) : (forall x, closing n (k x)) -> closing n (reduce_proc ar o v red f k).
  Proof using Type. intros H. cbn [reduce_proc MpiMainCalls.closing]. intros g. apply H. Qed.

  Lemma checksum_closing n i input f (k : D -> filter D -> process) : (forall x f', shape f' = shape f -> closing n (k x f')) -> closing n (checksum_proc ar reduce i input f k).
  Proof using Type.
    intros H. apply priv_closing. intros [s f'] E. apply reduce_closing. intros x. apply H. apply (localSum_shape ar input). rewrite E. reflexivity.
  Qed.

  Lemma times_closing n f (k : D * D * D -> process) : (forall x, closing n (k x)) -> closing n (times_proc ar rtime wall f k).
  Proof using Type. intros H. apply reduce_closing. intros x. apply reduce_closing. intros y. apply reduce_closing. intros z. apply H. Qed.

  Lemma saveVTK_root_shape data f v f' : filter_saveVTK_root ar data f = Ok (v, f') -> shape f' = shape f.
  Proof using Type.
    unfold filter_saveVTK_root. intros E. apply bind_ok in E as (n & _ & E). apply bind_ok in E as (g & _ & E). apply bind_ok in E as (m & _ & E).
    apply bind_ok in E as (((c & mit) & fld) & _ & E). inversion E. reflexivity.
  Qed.
  Lemma shape_wins f f' : shape f' = shape f -> f_winIds f' = f_winIds f.
  Proof using Type. unfold shape. congruence. Qed.

  Lemma gather_closing n f (k : option (list D) -> filter D -> process) : (forall x f', shape f' = shape f -> closing n (k x f')) -> closing n (gather_proc ar tolerant f k).
  Proof using Type.
    intros H. apply priv_closing. intros ntot _. cbv zeta. apply priv_closing. intros _ _. cbn [MpiMainCalls.closing]. intros g. destruct (f_rk f =? 0).
    - apply priv_closing. intros [fld f'] E. apply H. destruct (_ <? _) in E; [discriminate|]. apply (saveVTK_root_shape _ _ _ _ E).
    - apply H. reflexivity.
  Qed.

  Lemma save_closing n name f (k : string -> list (string * string) -> filter D -> process) :
    (forall w files f', shape f' = shape f -> closing n (k w files f')) -> closing n (save_proc ar show tolerant name f k).
  Proof using Type.
    intros H. apply gather_closing. intros [fld|] f' HS; [|apply H, HS]. apply priv_closing. intros [w files] _. apply H, HS.
  Qed.

  Lemma output_closing n b name out err f (k : string -> string -> list (string * string) -> filter D -> process) :
    (forall o e files f', shape f' = shape f -> closing n (k o e files f')) -> closing n (output_proc ar show tolerant b name out err f k).
  Proof using Type. intros H. unfold output_proc. destruct b; [|apply H; reflexivity]. apply save_closing. intros w files f' HS. apply H, HS. Qed.

  Lemma exit_closing out err files : closing 0 (exit_proc out err files).
  Proof using Type. split; [reflexivity|]. intros _. eexists. reflexivity. Qed.

  Lemma refuse_closing rk msg success args : closing 0 (refuse_proc show rk msg success args).
  Proof using Type. apply priv_closing. intros h _. apply exit_closing. Qed.

  Lemma steps_closing m n : forall i out f (k : string -> filter D -> process), (forall o f', shape f' = shape f -> closing m (k o f')) ->
    closing m (steps_proc ar show reduce n i out f k).
  Proof using Type.
    induction n as [|n IH]; intros i out f k H; cbn [steps_proc]; [apply H; reflexivity|].
    apply apply_closing. intros f1 H1. apply checksum_closing. intros s f2 H2. apply checksum_closing. intros s' f3 H3. apply priv_closing. intros f4 E.
    apply copyOutToIn_shape in E. apply IH. intros o f5 H5. apply H. congruence.
  Qed.

  Lemma finish_closing f f' out err files : knows f -> shape f' = shape f -> closing (List.length (f_winIds f)) (delete_proc f' (exit_proc out err files)).
  Proof using Type.
    intros Hk HS. apply shape_wins in HS. rewrite <- HS. apply delete_closing; [|apply exit_closing]. unfold knows. rewrite HS. exact Hk.
  Qed.

  (** ** The programs *)
  Lemma lap_starting dsin m_pi sz argv rk : starting (lap_proc ar show reduce rtime wall atof tolerant dsin m_pi sz argv rk).
  Proof using Type.
    eexists _, _, _. split; [reflexivity|]. intros g. cbv beta. apply priv_closing. intros msg _. apply priv_closing. intros [success args] _. cbv zeta.
    destruct (success && _); [|apply refuse_closing]. set (nd := u64 (clap_getInt args "-numDims")). set (nc := u64 (clap_getInt args "-numCells")).
    apply priv_closing. intros st Est. destruct (Z.leb_spec two31 nd) as [Hd|Hd]; [discriminate|].
    assert (Hnd : 0 <= nd) by (unfold nd, u64; apply Z.mod_pos_bound; unfold two64; lia).
    apply priv_closing. intros [[valid out] err] _. apply new_closing.
    - apply axis_tame. rewrite <- (Z2Nat.id nd Hnd), lap_stencil_eq in Est. injection Est as <-.
      pose proof (lap_axis ar (repeat nc (Z.to_nat nd))) as H. rewrite repeat_length in H. exact H.
    - unfold vlen. rewrite repeat_length. lia.
    - intros f Hk _. destruct (filter_isDecompValid f); [|apply finish_closing; [exact Hk|reflexivity]]. apply program_closing.
      { intros i [<-|Hi]; [cbn [keeps_shape]; apply setInData_shape|]. apply in_concat in Hi as (l & Hl & Hi). apply repeat_spec in Hl. subst l.
        destruct Hi as [<-|[<-|[]]]; [exact I|]. cbn [keeps_shape]. apply copyOutToIn_shape. }
      intros f1 H1. apply times_closing. intros times. apply output_closing. intros o e files f2 H2. apply checksum_closing. intros s f3 H3.
      apply checksum_closing. intros s' f4 H4. apply finish_closing; [exact Hk|congruence].
  Qed.

  Lemma um_starting sz argv rk : starting (um_proc ar show reduce rtime wall atof tolerant sz argv rk).
  Proof using Type.
    eexists _, _, _. split; [reflexivity|]. intros g. cbv beta. apply priv_closing. intros msg _. apply priv_closing. intros [success args] _. cbv zeta.
    destruct (success && _); [|apply refuse_closing]. set (nc := u64 (clap_getInt args "-numCells")).
    apply priv_closing. intros st Est. change (repeat (a_dec ar 10 1) 3) with [a_dec ar 10 1; a_dec ar 10 1; a_dec ar 10 1] in Est.
    set (one := a_dec ar 10 1) in Est. destruct (um_axes_eq ar one one one one one one nc) as (dt & _ & Eax). rewrite Eax in Est. cbn [bind] in Est.
    rewrite um_stencil_eq in Est. injection Est as <-.
    apply priv_closing. intros [[valid out] err] _. apply new_closing.
    - apply axis_tame, um_axis.
    - reflexivity.
    - intros f Hk _. destruct (filter_isDecompValid f); [|apply finish_closing; [exact Hk|reflexivity]].
      apply priv_closing. intros f0 E0. apply setInDataByIndices_shape in E0. apply steps_closing. intros o1 f1 H1.
      apply times_closing. intros times. apply output_closing. intros o e files f2 H2. apply checksum_closing. intros s f3 H3.
      apply finish_closing; [exact Hk|congruence].
  Qed.

  Lemma st2_starting sz argv rk : starting (st2_proc ar show atof tolerant sz argv rk).
  Proof using Type.
    eexists _, _, _. split; [reflexivity|]. intros g. cbv beta. apply priv_closing. intros msg _. apply priv_closing. intros [success args] _. cbv zeta.
    destruct (success && _); [|apply refuse_closing]. set (nc := u64 (clap_getInt args "-numCells")).
    apply priv_closing. intros [[valid out] err] _. apply new_closing.
    - change (List.length (repeat nc 2)) with 2%nat. split; [intros off v [E|[E|[E|[]]]]; inversion E; reflexivity|].
      cbn. repeat (constructor; [simpl; intros H; repeat (destruct H as [H|H]; [discriminate H|]); exact H|]). constructor.
    - reflexivity.
    - intros f Hk _. apply program_closing.
      { intros i Hi. destruct (filter_isDecompValid f); [|destruct Hi]. destruct Hi as [<-|[<-|[]]]; [cbn [keeps_shape]; apply setInDataByIndices_shape|exact I]. }
      intros f1 H1. apply priv_closing. intros [lines f2] E2. assert (H2 : shape f2 = shape f1) by (apply (print_shape false); rewrite E2; reflexivity).
      apply output_closing. intros o e files f3 H3. apply finish_closing; [exact Hk|congruence].
  Qed.
End Programs.
