(** * Property C73: what the destructor of class Filter releases, for every stencil *)
From Coq Require Import Permutation.
From Verif Require Import Cpp CppProof OMap MaiModel CdModel FilterModel FilterSpec FilterProof FilterRank FilterWorld FilterProg FilterProps
  MpiSchedModel MpiSchedSpec MpiSchedFilter MpiMainProof.
Local Open Scope Z_scope.
Local Arguments Z.of_nat : simpl never.

(** ** Vocabulary *)

(** The displacements that make the constructor allocate: three resources (two buffers, one window) each. *)
Definition moving {D} (st : list (list Z * D)) : list (list Z) := List.filter (fun off => negb (is_zero off)) (map fst st).
(** The side of the neighbour's box where a displacement arrives. *)
Definition side_of (off : list Z) : list Z := map (fun o => - Z.sgn o) off.
(** The number of different sides. *)
Definition sides {D} (st : list (list Z * D)) : nat := length (nodup (list_eq_dec Z.eq_dec) (map side_of (moving st))).

(** ** Proof *)
Lemma is_zero_nonzero off : negb (is_zero off) = nonzero off.
Proof.
  unfold is_zero, nonzero. induction off as [|x off IH]; [reflexivity|]. cbn [forallb existsb]. rewrite negb_andb, IH, (Z.eqb_sym 0 x). reflexivity.
Qed.

Lemma skipn_cons {A} k : forall (l : list A) x t, skipn k l = x :: t -> nth_error l k = Some x /\ skipn (S k) l = t.
Proof.
  induction k as [|k IH]; intros [|y l] x t H; cbn [skipn] in H; try discriminate; [inversion H; split; reflexivity|]. apply IH in H. exact H.
Qed.

Section Leak.
  Context {D : Type} (ar : arith D).
  Implicit Types f : filter D.

  Lemma getSide_sign f off s : length off = Z.to_nat (f_ndims f) -> filter_getSideFromOffset f off = Ok s -> s = side_of off.
  Proof using Type.
    unfold filter_getSideFromOffset, tabulate. intros <- E.
    assert (H : forall l k s, skipn k off = l -> tab_from k (length l) (fun i => o <- vget off i ;;
        (if negb (o =? 0) then n <- int_op (- o) ;; a <- int_op (Z.abs o) ;; sdiv n a else Ok 0)) = Ok s -> s = side_of l).
    { clear. induction l as [|o l IH]; intros k s Hk E; cbn [length tab_from] in E; [inversion E; reflexivity|].
      destruct (skipn_cons k off o l Hk) as (Hn & Hk').
      assert (Hl : (k < length off)%nat) by (apply nth_error_Some; congruence).
      rewrite (vget_nat off k 0 Hl) in E. cbn [bind] in E. rewrite (nth_error_nth _ _ 0 Hn) in E.
      apply bind_ok in E as (x & Ex & E). apply bind_ok in E as (t & Et & E). inversion E; subst s. unfold side_of. cbn [map]. f_equal.
      - destruct (Z.eqb_spec o 0) as [->|Ho]; cbn [negb] in Ex; [inversion Ex; reflexivity|].
        apply bind_ok in Ex as (n & E1 & Ex). apply bind_ok in Ex as (a & E2 & Ex). unfold int_op in *.
        destruct (int_range (- o)); inversion E1; subst n. destruct (int_range (Z.abs o)); inversion E2; subst a. unfold sdiv, int_op in Ex.
        destruct (Z.eqb_spec (Z.abs o) 0); [lia|]. destruct (int_range _); inversion Ex.
        destruct (Z.lt_ge_cases o 0); [rewrite Z.sgn_neg, Z.abs_neq, Z.quot_same by lia; reflexivity|].
        rewrite Z.sgn_pos, Z.abs_eq, Z.quot_opp_l, Z.quot_same by lia. reflexivity.
      - apply (IH (S k)); [exact Hk'|exact Et]. }
    exact (H off 0%nat s eq_refl E).
  Qed.

  (** The constructor: windows keyed by the sides met, three resources for every moving displacement. *)
  Definition built (offs : list (list Z)) f : Prop :=
    (forall s, In s (map fst (f_winIds f)) <-> In s (map side_of offs)) /\ length (f_allocs f) = (3 * length offs)%nat /\ NoDup (f_allocs f).

  Lemma nonzero_dec off : (filter_getNumberOfNonZeroElements off =? 0) = is_zero off \/ two31 <= vlen off.
  Proof using Type. destruct (numNonZero_eq off) as [H|H]; [left; rewrite H, <- is_zero_nonzero, negb_involutive; reflexivity|right; exact H]. Qed.

  Lemma ctor_built st : forall offs f f', (forall off w, In (off, w) st -> length off = Z.to_nat (f_ndims f)) -> 0 <= f_ndims f < two31 ->
    owned f -> built offs f -> for_each st ctor_step f = Ok f' -> built (offs ++ moving st) f' /\ owned f'.
  Proof using Type.
    induction st as [|[off v] st IH]; intros offs f f' HL Hd HO HB E; cbn [for_each] in E.
    { inversion E; subst. unfold moving. cbn [map List.filter]. rewrite app_nil_r. split; assumption. }
    apply bind_ok in E as (f1 & E1 & E). destruct (ctor_step_own _ _ _ HO E1) as (HO1 & HC1).
    assert (Hn : f_ndims f1 = f_ndims f) by (unfold const in HC1; congruence).
    assert (HZ : (filter_getNumberOfNonZeroElements off =? 0) = is_zero off).
    { destruct (nonzero_dec off) as [H|H]; [exact H|]. unfold vlen in H. rewrite (HL off v (or_introl eq_refl)) in H. lia. }
    assert (HL1 : forall off w, In (off, w) st -> length off = Z.to_nat (f_ndims f1)) by (intros o w Hi; rewrite Hn; apply (HL o w); right; exact Hi).
    unfold ctor_step in E1. cbn [fst] in E1. rewrite HZ in E1. unfold moving. cbn [map fst List.filter]. destruct (is_zero off) eqn:Ez; cbn [negb].
    - inversion E1; subst f1. apply (IH offs f f' HL1 Hd HO HB E).
    - apply bind_ok in E1 as (side & Es & E1). apply bind_ok in E1 as (n & _ & E1). apply newWindow_alike in E1 as (_ & _ & A3 & A4). cbn [set_ghosts f_winIds f_allocs] in A3, A4.
      apply getSide_sign in Es; [|apply (HL off v); left; reflexivity]. subst side.
      replace (offs ++ off :: List.filter (fun off => negb (is_zero off)) (map fst st)) with ((offs ++ [off]) ++ moving st) by (rewrite <- app_assoc; reflexivity).
      apply (IH (offs ++ [off]) f1 f' HL1 ltac:(lia) HO1); [|exact E]. destruct HB as (B1 & B2 & B3). split; [|split].
      + intros s. rewrite A3, (keys_insert lexcmp lexcmp_eq), map_app, in_app_iff, B1. cbn [map In]. intuition congruence.
      + rewrite A4, !app_length, B2. cbn [length]. lia.
      + rewrite A4. destruct HO as (_ & _ & _ & HO). set (m := vlen (f_allocs f)) in *.
        assert (N : forall x, m <= x -> ~ In x (f_allocs f)) by (intros x Hx Hi; specialize (HO x Hi); lia).
        apply (Permutation_NoDup (l := m :: (m + 1) :: (m + 2) :: f_allocs f)).
        * change (m :: (m + 1) :: (m + 2) :: f_allocs f) with ([m; m + 1; m + 2] ++ f_allocs f). apply Permutation_app_comm.
        * constructor; [intros [H|[H|H]]; [lia|lia|exact (N m ltac:(lia) H)]|]. constructor; [intros [H|H]; [lia|exact (N (m + 1) ltac:(lia) H)]|].
          constructor; [exact (N (m + 2) ltac:(lia))|exact B3].
  Qed.

  Lemma new_built rk sz dims x0 x1 st f : (forall off w, In (off, w) st -> length off = length dims) -> vlen dims < two31 ->
    filter_new ar rk sz dims x0 x1 st = Ok f -> f_valid f = true -> built (moving st) f /\ owned f.
  Proof using Type.
    intros HL Hd E Hv. unfold filter_new in E. apply bind_ok in E as ((valid & c) & _ & E). destruct valid; cbn [negb] in E; [|inversion E; subst; discriminate].
    apply bind_ok in E as ((lo & c1) & _ & E). apply bind_ok in E as ((hi & c2) & _ & E). apply bind_ok in E as (mit & _ & E).
    revert E. match goal with |- for_each _ _ ?s = _ -> _ => set (f0 := s) end. intros E.
    apply (ctor_built st [] f0 f); [|unfold f0; cbn [f_ndims]; unfold vlen in *; lia| |split; [reflexivity|split; [reflexivity|constructor]]|exact E].
    - intros off w Hi. unfold f0. cbn [f_ndims]. unfold vlen. rewrite Nat2Z.id. apply (HL off w Hi).
    - unfold owned, f0. cbn [f_winIds f_allocs]. split; [constructor|]. split; [constructor|]. split; intros x [].
  Qed.

  Lemma remove_length i l : NoDup l -> In i l -> length l = S (length (remove Z.eq_dec i l)).
  Proof using Type.
    intros Hn. induction l as [|x l IH]; intros Hi; [destruct Hi|]. inversion Hn as [|? ? Hx Hn']; subst. cbn [remove]. destruct (Z.eq_dec i x) as [->|Hne].
    - rewrite notin_remove by exact Hx. reflexivity.
    - destruct Hi as [->|Hi]; [contradiction|]. cbn [length]. rewrite (IH Hn' Hi). reflexivity.
  Qed.
  Lemma remove_incl i l : incl (remove Z.eq_dec i l) l.
  Proof using Type. intros x Hx. apply in_remove in Hx. tauto. Qed.

  Lemma delete_rest f : owned f -> NoDup (f_allocs f) -> exists live, filter_delete f = Ok live /\ incl live (f_allocs f) /\ NoDup live /\
    (length live + 3 * length (f_winIds f) = length (f_allocs f))%nat.
  Proof using Type.
    intros (Hs & Hnd & Hi & _) Ha. unfold filter_delete. set (m := f_winIds f) in *.
    match goal with |- context [for_each m ?b _] => set (body := b) end.
    assert (H : forall l live, incl l m -> NoDup (flat_map ids3 l) -> incl (flat_map ids3 l) live -> NoDup live ->
      exists live', for_each l body live = Ok live' /\ incl live' live /\ NoDup live' /\ (length live' + 3 * length l = length live)%nat).
    { induction l as [|[s [[i1 i2] i3]] l IH]; intros live Hl Hn Hin Hlv.
      - exists live. cbn [for_each length]. split; [reflexivity|]. split; [apply incl_refl|]. split; [exact Hlv|lia].
      - cbn [flat_map ids3 snd app] in Hn, Hin. inversion Hn as [|? ? N1 Hn1]; subst. inversion Hn1 as [|? ? N2 Hn2]; subst. inversion Hn2 as [|? ? N3 Hn3]; subst. cbn [In] in N1, N2.
        assert (EF : omap_find lexcmp s m = Some (i1, i2, i3)) by (apply lfind_In; [exact Hs|apply Hl; left; reflexivity]).
        set (a1 := remove Z.eq_dec i1 live). set (a2 := remove Z.eq_dec i2 a1). set (a3 := remove Z.eq_dec i3 a2).
        assert (I1 : In i1 live) by (apply Hin; left; reflexivity).
        assert (I2 : In i2 a1) by (apply in_in_remove; [intros E; apply N1; left; congruence|apply Hin; right; left; reflexivity]).
        assert (I3 : In i3 a2).
        { apply in_in_remove; [intros E; apply N2; left; congruence|]. apply in_in_remove; [intros E; apply N1; right; left; congruence|]. apply Hin. right. right. left. reflexivity. }
        assert (D1 : NoDup a1) by (apply remove_NoDup, Hlv). assert (D2 : NoDup a2) by (apply remove_NoDup, D1). assert (D3 : NoDup a3) by (apply remove_NoDup, D2).
        destruct (IH a3) as (live' & E & C1 & C2 & C3).
        + intros x Hx. apply Hl. right. exact Hx.
        + exact Hn3.
        + intros x Hx. apply in_in_remove; [intros ->; contradiction|]. apply in_in_remove; [intros ->; apply N2; right; exact Hx|].
          apply in_in_remove; [intros ->; apply N1; right; right; exact Hx|]. apply Hin. right. right. right. exact Hx.
        + exact D3.
        + exists live'. cbn [for_each]. unfold body at 1. cbn [fst]. rewrite EF, (MpiMainProof.release_ok live i1 I1). cbn [bind]. fold a1.
          rewrite (MpiMainProof.release_ok a1 i2 I2). cbn [bind]. fold a2. rewrite (MpiMainProof.release_ok a2 i3 I3). cbn [bind]. fold a3.
          split; [exact E|]. split; [intros x Hx; apply (remove_incl i1), (remove_incl i2), (remove_incl i3), C1, Hx|]. split; [exact C2|].
          pose proof (remove_length i1 live Hlv I1) as L1. pose proof (remove_length i2 a1 D1 I2) as L2. pose proof (remove_length i3 a2 D2 I3) as L3.
          fold a1 in L1. fold a2 in L2. fold a3 in L3. cbn [length]. lia. }
    destruct (H m (f_allocs f) (incl_refl _) Hnd Hi Ha) as (live & E & A & B & C). exists live. auto.
  Qed.

  Lemma run_shape ops : forall w w', FilterProg.run ar ops w = Ok w' -> Forall2 (fun f f' => shape f' = shape f) w w'.
  Proof using Type.
    induction ops as [|o ops IH]; intros w w' E; unfold FilterProg.run in E; cbn [for_each] in E.
    { inversion E; subst. clear. induction w' as [|f w IH]; constructor; [reflexivity|exact IH]. }
    apply bind_ok in E as (w1 & E1 & E). specialize (IH w1 w' E).
    assert (H1 : Forall2 (fun f f' => shape f' = shape f) w w1).
    { assert (HA : o = Apply \/ exists g, (forall f f', g f = Ok f' -> shape f' = shape f) /\ run_op ar o w = mapM g w).
      { destruct o; [right|right|left; reflexivity|right|right|right].
        - exists (fun f => filter_setInData ar f u). split; [apply setInData_shape|reflexivity].
        - exists (fun f => filter_setInDataByIndices f G). split; [apply setInDataByIndices_shape|reflexivity].
        - exists (@filter_copyOutToIn D). split; [apply copyOutToIn_shape|reflexivity].
        - exists (fun f => ' (_, f) <- filter_localSum ar f input ;; Ok f). split; [apply localSum_shape|reflexivity].
        - exists (fun f => ' (_, f) <- filter_print f input ;; Ok f). split; [apply print_shape|reflexivity]. }
      destruct HA as [->|(g & Hg & Eg)].
      - apply apply_moved in E1. revert E1. apply Forall2_imp. intros f f' _ (H & _). exact H.
      - rewrite Eg in E1. apply mapM_Forall2 in E1. revert E1. apply Forall2_imp. intros f f' _. apply Hg. }
    clear E E1. revert w' IH. induction H1 as [|f f1 w w1 Hf _ IHw]; intros w' H; inversion H as [|? f2 ? w2 H2 H3]; subst; constructor; [congruence|apply IHw, H3].
  Qed.
End Leak.

(** ** C73 *)

(** Whatever the stencil and whatever has been done with the filter: the destructor releases nothing twice, and what it
    leaves behind are three resources for every moving displacement but one per side. *)
Theorem C73_leak :
  forall D (ar : arith D) sz dims xmins xmaxs st ops w0 w f,
    vlen dims < 2 ^ 31 -> (forall off v, In (off, v) st -> length off = length dims) ->
    world_new ar sz dims xmins xmaxs st = Ok w0 -> FilterProg.run ar ops w0 = Ok w -> In f w -> f_valid f = true ->
    NoDup (f_allocs f) /\ length (f_allocs f) = (3 * length (moving st))%nat /\
    exists live, filter_delete f = Ok live /\ incl live (f_allocs f) /\ NoDup live /\
      length live = (3 * (length (moving st) - sides st))%nat.
Proof.
  intros D ar sz dims x0 x1 st ops w0 w f Hd HL E0 E Hf Hv.
  destruct (Forall2_in_r _ _ _ f (run_shape ar ops w0 w E) Hf) as (f0 & Hf0 & HS).
  apply In_nth_error in Hf0 as (i & Hi). assert (Hi' : In f0 w0) by (apply (nth_error_In _ _ Hi)).
  destruct (tab_in _ _ _ _ _ E0 Hi') as (j & Ej). assert (Ev : f_valid f0 = true) by (unfold shape, const in HS; congruence).
  destruct (new_built ar _ _ _ _ _ _ _ HL Hd Ej Ev) as ((B1 & B2 & B3) & HO).
  assert (EA : f_allocs f = f_allocs f0) by (unfold shape in HS; congruence). assert (EW : f_winIds f = f_winIds f0) by (unfold shape in HS; congruence).
  rewrite EA. split; [exact B3|]. split; [exact B2|].
  destruct (delete_rest f (owned_shape _ _ HS HO)) as (live & E1 & A1 & A2 & A3); [rewrite EA; exact B3|].
  exists live. split; [exact E1|]. split; [rewrite <- EA; exact A1|]. split; [exact A2|].
  assert (EL : length (f_winIds f) = sides st).
  { rewrite EW, <- (map_length fst). unfold sides. apply Permutation_length. apply NoDup_Permutation.
    - apply (osorted_NoDup lexcmp lexcmp_eq). apply HO.
    - apply NoDup_nodup.
    - intros s. rewrite nodup_In. apply B1. }
  rewrite EA, B2, EL in A3. lia.
Qed.
Print Assumptions C73_leak.

(** Nothing is left exactly when no two moving displacements share a side. *)
Theorem C73_no_leak_iff :
  forall D (ar : arith D) sz dims xmins xmaxs st ops w0 w f,
    vlen dims < 2 ^ 31 -> (forall off v, In (off, v) st -> length off = length dims) ->
    world_new ar sz dims xmins xmaxs st = Ok w0 -> FilterProg.run ar ops w0 = Ok w -> In f w -> f_valid f = true ->
    (filter_delete f = Ok [] <-> NoDup (map side_of (moving st))).
Proof.
  intros D ar sz dims x0 x1 st ops w0 w f Hd HL E0 E Hf Hv.
  destruct (C73_leak D ar sz dims x0 x1 st ops w0 w f Hd HL E0 E Hf Hv) as (_ & _ & live & E1 & _ & _ & A).
  assert (HS : forall l : list (list Z), (length (nodup (list_eq_dec Z.eq_dec) l) <= length l)%nat /\ (length (nodup (list_eq_dec Z.eq_dec) l) = length l <-> NoDup l)).
  { clear. induction l as [|a l (IH1 & IH2)]; [split; [cbn; lia|split; [constructor|reflexivity]]|]. cbn [nodup]. destruct (in_dec (list_eq_dec Z.eq_dec) a l) as [Hi|Hi]; cbn [length].
    - split; [lia|]. split; [lia|]. intros H. inversion H; contradiction.
    - split; [lia|]. split; [intros H; constructor; [exact Hi|apply IH2; lia]|]. intros H. inversion H as [|? ? H1 H2]; subst. rewrite (proj2 IH2 H2). reflexivity. }
  destruct (HS (map side_of (moving st))) as (H1 & H2). unfold sides in A. rewrite map_length in *. rewrite E1, <- H2. split.
  - intros Hl. inversion Hl; subst live. cbn [length] in A. lia.
  - intros Hl. rewrite Hl, Nat.sub_diag in A. destruct live; [reflexivity|discriminate].
Qed.
Print Assumptions C73_no_leak_iff.

(** ** Examples *)

(** Displacements by 1, 2 and 3 to the right share a side: two of the three windows leak, with their buffers.  The opposite
    displacement and a diagonal one have sides of their own. *)
Definition ex73_st : list (list Z * Z) := [([-1; 0], 1); ([0; 0], 1); ([1; 0], 1); ([1; 1], 1); ([2; 0], 1); ([3; 0], 1)].
Example C73_example :
  match world_new arZ 4 [8; 8] [0; 0] [1; 1] ex73_st with
  | Ok w0 => match FilterProg.run arZ [SetByIndices (fun g => nth 0 g 0)] w0 with
             | Ok [f; _; _; _] => f_valid f = true /\ length (moving ex73_st) = 5%nat /\ sides ex73_st = 3%nat /\ length (f_allocs f) = 15%nat /\
                            filter_delete f = Ok [9; 10; 11; 12; 13; 14]
             | _ => False
             end
  | _ => False
  end.
Proof. vm_compute. repeat split. Qed.
