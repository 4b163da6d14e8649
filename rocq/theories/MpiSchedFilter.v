(** * The ranks of a program using class Filter: their exchanges are those of the lock-step execution *)
From Coq Require Import Permutation.
From Verif Require Import Cpp CppProof OMap MaiModel MaiProof CdModel FilterModel FilterSpec FilterRank MpiSchedModel MpiSchedSpec.
Local Open Scope Z_scope.
Local Arguments Z.of_nat : simpl never.

Lemma Forall2_len {A B} (P : A -> B -> Prop) l l' : Forall2 P l l' -> length l = length l'.
Proof. induction 1; simpl; congruence. Qed.

Section Frame.
  Context {D R : Type} (ar : arith D).
  Notation process := (proc (filter D) (option D) D R).
  Implicit Types f g : filter D.

  (** The members that no function changes after construction. *)
  Definition const f := (f_rk f, f_sz f, f_ndims f, f_globalDims f, f_xmins f, f_xmaxs f, f_valid f).
  Definition shape f := (const f, f_stencil f, f_winIds f, f_allocs f).
  (** The source buffers. *)
  Definition srcs f (s : list Z) : option (list (option D)) := option_map fst (omap_find lexcmp s (f_winData f)).

  Lemma for_each_keeps {A X} (P : filter D -> X) (body : A -> filter D -> res (filter D)) l :
    (forall a f f', body a f = Ok f' -> P f' = P f) -> forall f f', for_each l body f = Ok f' -> P f' = P f.
  Proof using Type.
    intros H. induction l as [|a l IH]; intros f f' E; cbn [for_each] in E; [inversion E; reflexivity|].
    apply bind_ok in E as (f1 & E1 & E2). rewrite (IH f1 f' E2). apply (H a f f1 E1).
  Qed.

  Lemma publish_shape data f f' : filter_publish data f = Ok f' -> shape f' = shape f.
  Proof using Type.
    unfold filter_publish. intros E. apply bind_ok in E as (mit & _ & E). revert E. apply (for_each_keeps shape).
    clear. intros s f f' E. apply bind_ok in E as ((src & dst) & _ & E). apply bind_ok in E as (wit & _ & E).
    apply bind_ok in E as ((wit' & src') & _ & E). inversion E. reflexivity.
  Qed.
  Lemma setInData_shape u f f' : filter_setInData ar f u = Ok f' -> shape f' = shape f.
  Proof using Type.
    unfold filter_setInData. intros E. apply bind_ok in E as (mit & _ & E). apply bind_ok in E as ((mit' & v) & _ & E).
    apply publish_shape in E. exact E.
  Qed.
  Lemma setInDataByIndices_shape u f f' : filter_setInDataByIndices f u = Ok f' -> shape f' = shape f.
  Proof using Type.
    unfold filter_setInDataByIndices. intros E. apply bind_ok in E as (mit & _ & E). apply bind_ok in E as ((mit' & v) & _ & E).
    apply publish_shape in E. exact E.
  Qed.
  Lemma copyOutToIn_shape f f' : filter_copyOutToIn f = Ok f' -> shape f' = shape f.
  Proof using Type.
    unfold filter_copyOutToIn. intros E. apply bind_ok in E as (mit & _ & E). apply bind_ok in E as (v & _ & E).
    apply publish_shape in E. exact E.
  Qed.
  Lemma localSum_shape i f f' : (' (_, f) <- filter_localSum ar f i ;; Ok f) = Ok f' -> shape f' = shape f.
  Proof using Type.
    intros E. apply bind_ok in E as ((s & f1) & E1 & E). inversion E; subst. unfold filter_localSum in E1.
    apply bind_ok in E1 as (mit & _ & E1). apply bind_ok in E1 as ((mit' & v) & _ & E1). inversion E1. reflexivity.
  Qed.
  Lemma print_shape i f f' : (' (_, f) <- filter_print f i ;; Ok f) = Ok f' -> shape f' = shape f.
  Proof using Type.
    intros E. apply bind_ok in E as ((s & f1) & E1 & E). inversion E; subst. unfold filter_print in E1.
    apply bind_ok in E1 as (mit & _ & E1). apply bind_ok in E1 as ((mit' & v) & _ & E1). inversion E1. reflexivity.
  Qed.

  (** The private computations of the functions below: they change neither the shape nor the source buffers. *)
  Lemma zeroOut_keeps f f' : filter_zeroOut ar f = Ok f' -> shape f' = shape f /\ (forall s, srcs f' s = srcs f s).
  Proof using Type.
    unfold filter_zeroOut. intros E. apply bind_ok in E as (mit & _ & E). apply bind_ok in E as ((mit' & v) & _ & E). inversion E. split; reflexivity.
  Qed.
  Lemma accumulate_keeps f wit dst off v f' : filter_accumulate ar f wit dst off v = Ok f' -> shape f' = shape f /\ f_winData f' = f_winData f.
  Proof using Type.
    unfold filter_accumulate. intros E. apply bind_ok in E as (mit & _ & E). apply bind_ok in E as ((mit' & w) & _ & E). inversion E. split; reflexivity.
  Qed.
  Lemma windowIter_keeps f rk side m f' : filter_getWindowIter f rk side = Ok (m, f') -> shape f' = shape f /\ f_winData f' = f_winData f.
  Proof using Type.
    unfold filter_getWindowIter. intros E. apply bind_ok in E as ((sLo & c) & _ & E). apply bind_ok in E as ((sHi & c') & _ & E).
    apply bind_ok in E as ((a & b) & _ & E). apply bind_ok in E as (m' & _ & E). inversion E. split; reflexivity.
  Qed.

  (** ** One branch *)
  Section Branch.
    Context (remote : Z -> list Z -> res (list (option D))) (offset : list Z) (val : D) (side : list Z).

    (** What a rank does in a branch for which there is a window. *)
    Lemma branch_fetch f f' (ids : Z * Z * Z) :
      filter_getSideFromOffset f offset = Ok side -> omap_find lexcmp side (f_winIds f) = Some ids ->
      filter_branch ar remote f (offset, val) = Ok f' ->
      exists f1 t n d kk, (f_winData f1 = f_winData f /\ shape f1 = shape f) /\ 0 <= t < f_sz f /\ remote t side = Ok d /\ 0 <= n <= vlen d /\
        (forall k : filter D -> process,
           branch_proc ar f (offset, val) k = FenceOpen side f1 (Get side t n f1 (FenceClose side f1 (kk k))) /\
           kk k (firstn (Z.to_nat n) d) = k f') /\
        shape f' = shape f /\ (forall s, srcs f' s = srcs f s).
    Proof using Type.
      intros Hs Hid E. unfold filter_branch in E. unfold branch_proc. rewrite Hs in *. cbn [bind] in E |- *.
      apply bind_ok in E as ((t & c) & Et & E). rewrite Et. cbn [bind].
      apply bind_ok in E as ((wit & f1) & Ew & E). rewrite Ew. cbn [bind priv].
      destruct (windowIter_keeps _ _ _ _ _ Ew) as (Hsh & Hwd). change (f_winData (set_dcmp f c)) with (f_winData f) in Hwd.
      assert (Hid1 : omap_find lexcmp side (f_winIds f1) = Some ids).
      { assert (f_winIds f1 = f_winIds f) as -> by (unfold shape, const in Hsh; simpl in Hsh; congruence). exact Hid. }
      rewrite Hid1 in *. apply bind_ok in E as ((dd & f2) & E1 & E2). apply bind_ok in E1 as ((d0 & f3) & E1 & E3). inversion E3; subst dd f3. clear E3.
      unfold filter_fetch in E1. unfold fetch_proc.
      apply bind_ok in E1 as (wi & Ewi & E1). rewrite Ewi. cbn [bind].
      apply bind_ok in E1 as (ids' & Ei & E1). rewrite Ei. cbn [bind].
      apply bind_ok in E1 as ((src & dst) & Ed & E1). rewrite Ed. cbn [bind].
      set (n := i32 (mai_getNumberOfTerms wi)) in *.
      destruct (Z.ltb_spec n 0) as [|Hn]; [discriminate|].
      destruct ((0 <=? t) && (t <? f_sz f1)) eqn:Er; [|discriminate]. cbn [negb] in E1.
      apply bind_ok in E1 as (data & Er2 & E1).
      destruct (Z.ltb_spec (vlen data) n) as [|Hn2]; [discriminate|]. destruct (Z.ltb_spec (vlen dst) n) as [|Hn3]; [discriminate|].
      inversion E1; subst d0 f2. clear E1. cbn [priv].
      exists f1, t, n, data, (fun k data => let dst' := data ++ skipn (Z.to_nat n) dst in
         priv (filter_accumulate ar (set_win f1 (omap_set lexcmp side (src, dst') (f_winData f1)) (f_winIter f1)) wit (Some dst') offset val) k).
      split; [split; [exact Hwd|exact Hsh]|]. split.
      { apply andb_true_iff in Er as (A & B). apply Z.leb_le in A. apply Z.ltb_lt in B.
        assert (f_sz f1 = f_sz f) by (unfold shape, const in Hsh; simpl in Hsh; congruence). lia. }
      split; [exact Er2|]. split; [lia|]. split.
      - intros k. split; [reflexivity|]. cbv zeta. rewrite E2. reflexivity.
      - destruct (accumulate_keeps _ _ _ _ _ _ E2) as (A & B). split.
        + rewrite A. simpl. exact Hsh.
        + intros s. unfold srcs. rewrite B. simpl. destruct (list_eq_dec Z.eq_dec side s) as [<-|Hne].
          * rewrite lset_same. unfold omap_at in Ed. rewrite Hwd in Ed. revert Ed. destruct (omap_find lexcmp side (f_winData f)) as [[a b]|]; intros Ed; [|discriminate Ed].
            inversion Ed; subst. reflexivity.
          * rewrite lset_other by exact Hne. rewrite Hwd. reflexivity.
    Qed.

    (** What it does when there is none. *)
    Lemma branch_alone f f' :
      filter_getSideFromOffset f offset = Ok side -> omap_find lexcmp side (f_winIds f) = None ->
      filter_branch ar remote f (offset, val) = Ok f' ->
      (forall k : filter D -> process, branch_proc ar f (offset, val) k = k f') /\
      shape f' = shape f /\ (forall s, srcs f' s = srcs f s).
    Proof using Type.
      intros Hs Hid E. unfold filter_branch in E. unfold branch_proc. rewrite Hs in *. cbn [bind] in E |- *.
      apply bind_ok in E as ((t & c) & Et & E). rewrite Et. cbn [bind].
      apply bind_ok in E as ((wit & f1) & Ew & E). rewrite Ew. cbn [bind priv].
      destruct (windowIter_keeps _ _ _ _ _ Ew) as (Hsh & Hwd). change (f_winData (set_dcmp f c)) with (f_winData f) in Hwd.
      assert (Hid1 : omap_find lexcmp side (f_winIds f1) = None).
      { assert (f_winIds f1 = f_winIds f) as -> by (unfold shape, const in Hsh; simpl in Hsh; congruence). exact Hid. }
      rewrite Hid1 in *. cbn [bind] in E. rewrite E. split; [intros; reflexivity|].
      destruct (accumulate_keeps _ _ _ _ _ _ E) as (A & B). split; [rewrite A; exact Hsh|].
      intros s. unfold srcs. rewrite B, Hwd. reflexivity.
    Qed.
  End Branch.

  (** ** All ranks *)

  (** The buffers and windows of a filter: none belongs to two windows, all are live. *)
  Definition owned f : Prop :=
    osorted lexcmp (f_winIds f) /\ NoDup (flat_map ids3 (f_winIds f)) /\ incl (flat_map ids3 (f_winIds f)) (f_allocs f) /\
    forall x, In x (f_allocs f) -> 0 <= x < vlen (f_allocs f).

  Lemma owned_live f s i1 i2 i3 : owned f -> omap_find lexcmp s (f_winIds f) = Some (i1, i2, i3) -> existsb (Z.eqb i1) (f_allocs f) = true.
  Proof using Type.
    intros (Hs & _ & Hi & _) E. apply lfind_In in E; [|exact Hs]. apply existsb_exists. exists i1. split; [|apply Z.eqb_refl].
    apply Hi. apply in_flat_map. exists (s, (i1, i2, i3)). split; [exact E|left; reflexivity].
  Qed.
  Lemma owned_shape f f' : shape f' = shape f -> owned f -> owned f'.
  Proof using Type. unfold shape, const, owned. intros H. inversion H. auto. Qed.
  Lemma owned_window f f' side n : owned f -> f_winIds f' = omap_insert lexcmp side (n, n + 1, n + 2) (f_winIds f) ->
    n = vlen (f_allocs f) -> f_allocs f' = f_allocs f ++ [n; n + 1; n + 2] -> owned f'.
  Proof using Type.
    intros (H1 & H2 & H3 & H4) E1 E2 E3. unfold owned. rewrite E1, E3. split; [apply lins_sorted, H1|].
    assert (Hlen : vlen (f_allocs f ++ [n; n + 1; n + 2]) = n + 3) by (unfold vlen in *; rewrite app_length; cbn [length]; lia).
    assert (Hlt : forall x, In x (flat_map ids3 (f_winIds f)) -> x < n) by (intros x Hx; apply H3, H4 in Hx; lia).
    assert (Hx : forall x, In x (f_allocs f ++ [n; n + 1; n + 2]) -> 0 <= x < n + 3).
    { intros x Hx. apply in_app_iff in Hx as [Hx|Hx]; [apply H4 in Hx; lia|]. unfold vlen in E2. cbn [In] in Hx. lia. }
    destruct (omap_find lexcmp side (f_winIds f)) as [i|] eqn:Ef.
    - replace (omap_insert lexcmp side (n, n + 1, n + 2) (f_winIds f)) with (f_winIds f).
      + split; [exact H2|]. split; [intros x Hi; apply in_app_iff; left; apply H3; exact Hi|]. rewrite Hlen. exact Hx.
      + clear - Ef H1. revert Ef. generalize (n, n + 1, n + 2). intros p. induction (f_winIds f) as [|[k v] m IH]; cbn [omap_find omap_insert]; [discriminate|].
        inversion H1; subst. destruct (lexcmp side k); [reflexivity|discriminate|]. intros E. f_equal. apply IH; assumption.
    - pose proof (insert_perm side (n, n + 1, n + 2) (f_winIds f) Ef) as HP. apply (Permutation_flat_map ids3) in HP. cbn [flat_map ids3 app] in HP.
      split; [|split].
      + apply (Permutation_NoDup (Permutation_sym HP)). repeat constructor; try exact H2; cbn [In]; intros Hin;
          repeat match goal with H : _ \/ _ |- _ => destruct H | H : In _ _ |- _ => apply Hlt in H end; lia.
      + intros x Hi. apply (Permutation_in _ HP) in Hi. apply in_app_iff. cbn [In] in *. destruct Hi as [?|[?|[?|Hi]]]; [auto|auto|auto|left; apply H3; exact Hi].
      + rewrite Hlen. exact Hx.
  Qed.

  (** The ranks have the same stencil, the same number of dimensions and the same windows, and know how many they are. *)
  Definition alike (w : list (filter D)) : Prop :=
    (forall f, In f w -> f_sz f = vlen w /\ owned f) /\
    (forall f g, In f w -> In g w -> f_stencil f = f_stencil g /\ f_ndims f = f_ndims g /\ map fst (f_winIds f) = map fst (f_winIds g)).

  Lemma alike_shape w w' : Forall2 (fun f f' => shape f' = shape f) w w' -> alike w -> alike w'.
  Proof using Type.
    intros H (H1 & H2).
    assert (Hin : forall f', In f' w' -> exists f, In f w /\ shape f' = shape f).
    { clear - H. induction H as [|f f' w w' Hs _ IH]; intros g Hg; [destruct Hg|]. destruct Hg as [<-|Hg]; [exists f; split; [left; auto|exact Hs]|].
      destruct (IH g Hg) as (g0 & A & B). exists g0. split; [right; auto|auto]. }
    split.
    - intros f' Hf. destruct (Hin f' Hf) as (f & A & B). destruct (H1 f A) as (C1 & C2). unfold vlen in *. rewrite <- (Forall2_len _ _ _ H), <- C1.
      split; [unfold shape, const in B; congruence|]. apply (owned_shape f f' B C2).
    - intros f' g' Hf Hg. destruct (Hin f' Hf) as (f & A & B). destruct (Hin g' Hg) as (g & A' & B'). destruct (H2 f g A A') as (C1 & C2 & C3).
      unfold shape, const in B, B'. inversion B. inversion B'. split; [congruence|]. split; [congruence|].
      assert (f_winIds f' = f_winIds f) as -> by congruence. assert (f_winIds g' = f_winIds g) as -> by congruence. apply C3.
  Qed.

  Lemma remote_srcs w w' : Forall2 (fun f f' => forall s, srcs f' s = srcs f s) w w' ->
    forall rk s, world_remote w' rk s = world_remote w rk s.
  Proof using Type.
    intros H rk s. unfold world_remote, vget. unfold vlen. rewrite <- (Forall2_len _ _ _ H).
    destruct ((0 <=? rk) && (rk <? Z.of_nat (length w))); [|reflexivity].
    assert (Hn : match nth_error w (Z.to_nat rk), nth_error w' (Z.to_nat rk) with
                 | Some f, Some f' => srcs f' s = srcs f s | None, None => True | _, _ => False end).
    { generalize (Z.to_nat rk). clear - H. induction H as [|f f' w w' Hs _ IH]; intros [|i]; simpl; auto. apply IH. }
    destruct (nth_error w (Z.to_nat rk)), (nth_error w' (Z.to_nat rk)); cbn [bind]; try contradiction; [|reflexivity].
    unfold srcs in Hn. unfold omap_at.
    revert Hn. destruct (omap_find lexcmp s (f_winData f)) as [[a b]|], (omap_find lexcmp s (f_winData f0)) as [[a' b']|]; simpl; intros Hn; try discriminate; [|reflexivity].
    inversion Hn. reflexivity.
  Qed.

  Lemma Forall2_imp {A B} (P Q : A -> B -> Prop) l l' : (forall a b, In a l -> P a b -> Q a b) -> Forall2 P l l' -> Forall2 Q l l'.
  Proof using Type. intros H HF. induction HF; constructor; [apply H; [left; auto|auto]|]. apply IHHF. intros a b Ha. apply H. right; auto. Qed.

  Lemma Forall2_nth {A B} (P : A -> B -> Prop) l l' i a : Forall2 P l l' -> nth_error l i = Some a -> exists b, nth_error l' i = Some b /\ P a b.
  Proof using Type.
    intros H. revert i. induction H as [|x y l l' Hxy _ IH]; intros [|i] E; simpl in E; try discriminate.
    - inversion E; subst. exists y. auto.
    - apply (IH i E).
  Qed.

  Lemma map_Forall2 {A B C} (P : A -> B -> Prop) (h : A -> C) (h' : B -> C) l l' :
    (forall a b, P a b -> h a = h' b) -> Forall2 P l l' -> map h l = map h' l'.
  Proof using Type. intros H HF. induction HF; simpl; [reflexivity|]. f_equal; auto. Qed.

  Lemma getSide_shape f g off : f_ndims f = f_ndims g -> filter_getSideFromOffset f off = filter_getSideFromOffset g off.
  Proof using Type. intros H. unfold filter_getSideFromOffset. rewrite H. reflexivity. Qed.

  Lemma find_keys {V} k (m m' : list (list Z * V)) : map fst m = map fst m' -> (omap_find lexcmp k m = None <-> omap_find lexcmp k m' = None).
  Proof using Type.
    revert m'. induction m as [|[a x] m IH]; intros [|[a' x'] m'] H; try discriminate; [reflexivity|]. cbn [map fst] in H. inversion H; subst.
    cbn [omap_find]. destruct (lexcmp k a'); [split; discriminate|reflexivity|]. apply IH. assumption.
  Qed.

  Lemma branch_lockstep offset val (remote : Z -> list Z -> res (list (option D))) w w1 (k : Z -> filter D -> process) ss :
    alike w -> (forall rk s, remote rk s = world_remote w rk s) ->
    Forall2 (fun f f' => filter_branch ar remote f (offset, val) = Ok f') w w1 ->
    (lockstep exposed (map (fun f => k (f_rk f) f) w1) ss -> lockstep exposed (map (fun f => branch_proc ar f (offset, val) (k (f_rk f))) w) ss) /\
    alike w1 /\ (forall rk s, remote rk s = world_remote w1 rk s).
  Proof using Type.
    intros Hal Hrem Hb. destruct w as [|f0 w0].
    { inversion Hb; subst. split; [intros Hk; exact Hk|]. split; [exact Hal|exact Hrem]. }
    assert (Hs : exists side, forall f, In f (f0 :: w0) -> filter_getSideFromOffset f offset = Ok side).
    { inversion Hb as [|a b la lb E0 Hb']; subst. pose proof E0 as E. unfold filter_branch in E. apply bind_ok in E as (side & Es & _).
      exists side. intros f Hf. rewrite <- Es. apply getSide_shape. apply (proj2 Hal); [exact Hf|left; reflexivity]. }
    destruct Hs as (side & Hs). set (w := f0 :: w0) in *.
    destruct (omap_find lexcmp side (f_winIds f0)) as [ids0|] eqn:Eid.
    - (* exchange *)
      assert (Hb2 : Forall2 (fun f f' => exists f1 t n d kk, (f_winData f1 = f_winData f /\ shape f1 = shape f) /\ 0 <= t < vlen w /\ world_remote w t side = Ok d /\ 0 <= n <= vlen d /\
          (forall k : filter D -> process,
           branch_proc ar f (offset, val) k = FenceOpen side f1 (Get side t n f1 (FenceClose side f1 (kk k))) /\
           kk k (firstn (Z.to_nat n) d) = k f') /\ shape f' = shape f /\ (forall s, srcs f' s = srcs f s)) w w1).
      { revert Hb. apply Forall2_imp. intros f f' Hf E.
        destruct (omap_find lexcmp side (f_winIds f)) as [ids|] eqn:Ef.
        2:{ apply (find_keys side _ _ (proj2 (proj2 (proj2 Hal f f0 Hf (or_introl eq_refl))))) in Ef. congruence. }
        destruct (branch_fetch remote offset val side f f' ids (Hs f Hf) Ef E) as (f1 & t & n & d & kk & A1 & A2 & A3 & A4 & A5 & A6 & A7).
        exists f1, t, n, d, kk. rewrite <- (proj1 (proj1 Hal f Hf)), <- Hrem. auto 10. }
      split; [|split].
      + intros Hk. apply (lockstep_round _ side _ (map (fun f => k (f_rk f) f) w1)); [|exact Hk]. split; [rewrite !map_length; symmetry; apply (Forall2_len _ _ _ Hb2)|].
        intros i p Hp. rewrite nth_error_map in Hp. destruct (nth_error w i) as [f|] eqn:Ef; [|discriminate]. inversion Hp; subst p. clear Hp.
        destruct (Forall2_nth _ _ _ _ _ Hb2 Ef) as (f' & Ef' & f1 & t & n & d & kk & A1 & A2 & A3 & A4 & A5 & A6 & _).
        destruct (A5 (k (f_rk f))) as (B1 & B2).
        assert (exists g, nth_error w (Z.to_nat t) = Some g) as (g & Eg).
        { destruct (nth_error w (Z.to_nat t)) eqn:Eg; [eauto|]. apply nth_error_None in Eg. unfold vlen in A2. lia. }
        destruct (Forall2_nth _ _ _ _ _ Hb2 Eg) as (g' & _ & g1 & tg & ng & dg & kg & (C1 & C2) & _ & _ & _ & C5 & _). destruct (C5 (k (f_rk g))) as (C6 & _).
        exists f1, t, n, (kk (k (f_rk f))), (branch_proc ar g (offset, val) (k (f_rk g))), g1, d.
        split; [exact B1|]. split; [lia|]. split; [rewrite nth_error_map, Eg; reflexivity|]. split; [rewrite C6; reflexivity|].
        split.
        { unfold world_remote, vget in A3. replace ((0 <=? t) && (t <? vlen w)) with true in A3 by (symmetry; apply andb_true_iff; split; [apply Z.leb_le|apply Z.ltb_lt]; lia).
          rewrite Eg in A3. cbn [bind] in A3. unfold exposed. rewrite C1. apply bind_ok in A3 as ((src & dst) & A3 & E3). inversion E3; subst src. rewrite A3. cbn [bind].
          assert (f_winIds g1 = f_winIds g) as -> by (unfold shape, const in C2; congruence). assert (f_allocs g1 = f_allocs g) as -> by (unfold shape, const in C2; congruence).
          pose proof (nth_error_In _ _ Eg) as Hg. unfold omap_at. destruct (omap_find lexcmp side (f_winIds g)) as [[[id i2] i3]|] eqn:Eg2.
          - cbn [bind]. rewrite (owned_live g side id i2 i3 (proj2 (proj1 Hal g Hg)) Eg2). reflexivity.
          - apply (find_keys side _ _ (proj2 (proj2 (proj2 Hal g f0 Hg (or_introl eq_refl))))) in Eg2. congruence. }
        split; [exact A4|]. rewrite nth_error_map, Ef'. simpl. f_equal. rewrite B2. f_equal. unfold shape, const in A6. congruence.
      + apply (alike_shape w); [|exact Hal]. revert Hb2. apply Forall2_imp. intros f f' _ (? & ? & ? & ? & ? & _ & _ & _ & _ & _ & H & _). exact H.
      + intros rk s. rewrite Hrem. symmetry. apply remote_srcs. revert Hb2. apply Forall2_imp. intros f f' _ (? & ? & ? & ? & ? & _ & _ & _ & _ & _ & _ & H). exact H.
    - assert (Hb2 : Forall2 (fun f f' => (forall k : filter D -> process, branch_proc ar f (offset, val) k = k f') /\
          shape f' = shape f /\ (forall s, srcs f' s = srcs f s)) w w1).
      { revert Hb. apply Forall2_imp. intros f f' Hf E. apply (branch_alone remote offset val side f f' (Hs f Hf)); [|exact E].
        apply (find_keys side _ _ (proj2 (proj2 (proj2 Hal f f0 Hf (or_introl eq_refl))))). exact Eid. }
      split; [|split].
      + intros Hk. rewrite (map_Forall2 _ (fun f => branch_proc ar f (offset, val) (k (f_rk f))) (fun f => k (f_rk f) f) w w1) with (2 := Hb2); [exact Hk|].
        intros f f' (H & H' & _). rewrite H. f_equal. unfold shape, const in H'. congruence.
      + apply (alike_shape w); [|exact Hal]. revert Hb2. apply Forall2_imp. intros f f' _ (_ & H & _). exact H.
      + intros rk s. rewrite Hrem. symmetry. apply remote_srcs. revert Hb2. apply Forall2_imp. intros f f' _ (_ & _ & H). exact H.
  Qed.

  Lemma branches_lockstep (k : Z -> filter D -> process) (remote : Z -> list Z -> res (list (option D))) ss st : forall w w',
    alike w -> (forall rk s, remote rk s = world_remote w rk s) ->
    Forall2 (fun f f' => for_each st (fun it f => filter_branch ar remote f it) f = Ok f') w w' ->
    (alike w' -> lockstep exposed (map (fun f => k (f_rk f) f) w') ss) ->
    lockstep exposed (map (fun f => branches_proc ar st f (k (f_rk f))) w) ss.
  Proof using Type.
    induction st as [|[off v] st IH]; intros w w' Hal Hrem Hb Hk.
    - cbn [for_each branches_proc] in *. assert (w = w') as ->; [|apply Hk, Hal]. clear - Hb. induction Hb as [|f f' w w' E _ IH]; [reflexivity|]. inversion E. congruence.
    - cbn [for_each branches_proc] in *.
      assert (exists w1, Forall2 (fun f f' => filter_branch ar remote f (off, v) = Ok f') w w1 /\
                         Forall2 (fun f f' => for_each st (fun it f => filter_branch ar remote f it) f = Ok f') w1 w') as (w1 & H1 & H2).
      { clear - Hb. induction Hb as [|f f' w w' E _ (w1 & A & B)]; [exists []; split; constructor|].
        apply bind_ok in E as (f1 & E1 & E2). exists (f1 :: w1). split; constructor; auto. }
      destruct (branch_lockstep off v remote w w1 (fun rk f => branches_proc ar st f (k rk)) ss Hal Hrem H1) as (HB & A & B). apply HB.
      apply (IH w1 w' A B H2 Hk).
  Qed.

  Lemma apply_lockstep (k : Z -> filter D -> process) ss w w' :
    alike w -> world_apply ar w = Ok w' -> (alike w' -> lockstep exposed (map (fun f => k (f_rk f) f) w') ss) ->
    lockstep exposed (map (fun f => apply_proc ar f (k (f_rk f))) w) ss.
  Proof using Type.
    intros Hal E Hk. unfold world_apply in E. apply mapM_Forall2 in E.
    assert (exists w1, Forall2 (fun f f' => filter_zeroOut ar f = Ok f') w w1 /\
                       Forall2 (fun f f' => for_each (f_stencil f) (fun it f => filter_branch ar (world_remote w) f it) f = Ok f') w1 w') as (w1 & H1 & H2).
    { revert E. generalize (world_remote w). intros rem E. clear - E. induction E as [|f f' w w' E _ (w1 & A & B)]; [exists []; split; constructor|].
      unfold filter_applyFilter in E. apply bind_ok in E as (f1 & E1 & E2). exists (f1 :: w1). split; constructor; auto. }
    assert (Hal1 : alike w1).
    { apply (alike_shape w); [|exact Hal]. revert H1. apply Forall2_imp. intros f f' _ H. apply (zeroOut_keeps f f' H). }
    assert (Hrem1 : forall rk s, world_remote w rk s = world_remote w1 rk s).
    { intros rk s. symmetry. apply remote_srcs. revert H1. apply Forall2_imp. intros f f' _ H. apply (zeroOut_keeps f f' H). }
    destruct w1 as [|f0 w0] eqn:Ew1.
    { inversion H1; subst. inversion H2; subst. apply Hk. exact Hal1. }
    rewrite <- Ew1 in *. assert (Hst : forall f, In f w1 -> f_stencil f = f_stencil f0).
    { intros f Hf. apply (proj2 Hal1 f f0 Hf). rewrite Ew1. left; reflexivity. }
    rewrite (map_Forall2 _ (fun f => apply_proc ar f (k (f_rk f))) (fun f => branches_proc ar (f_stencil f) f (k (f_rk f))) w w1) with (2 := H1).
    2:{ intros f f' H. unfold apply_proc. rewrite H. cbn [priv]. do 2 f_equal. apply zeroOut_keeps in H as (H & _). unfold shape, const in H. congruence. }
    rewrite (map_ext_in _ (fun f => branches_proc ar (f_stencil f0) f (k (f_rk f)))).
    2:{ intros f Hf. rewrite (Hst f Hf). reflexivity. }
    apply (branches_lockstep k (world_remote w) ss (f_stencil f0) w1 w' Hal1 Hrem1); [|exact Hk].
    revert H2. apply Forall2_imp. intros f f' Hf H. rewrite (Hst f Hf) in H. exact H.
  Qed.

  (** Programs of applyFilter and of functions of one filter. *)
  Definition world_instr (i : instr (D := D)) (w : list (filter D)) : res (list (filter D)) :=
    match i with IApply => world_apply ar w | ILocal g => mapM g w end.
  Definition keeps_shape (i : instr (D := D)) : Prop :=
    match i with IApply => True | ILocal g => forall f f', g f = Ok f' -> shape f' = shape f end.

  Lemma program_lockstep l (k : Z -> filter D -> process) ss : (forall i, In i l -> keeps_shape i) -> forall w w', alike w -> for_each l world_instr w = Ok w' ->
    (alike w' -> lockstep exposed (map (fun f => k (f_rk f) f) w') ss) -> lockstep exposed (map (fun f => program ar l (k (f_rk f)) f) w) ss.
  Proof using Type.
    induction l as [|i l IH]; intros Hl w w' Hal E Hk; cbn [for_each] in E.
    - inversion E; subst. apply Hk, Hal.
    - apply bind_ok in E as (w1 & E1 & E2). specialize (IH (fun i H => Hl i (or_intror H))). destruct i as [|g]; cbn [world_instr] in E1.
      + apply (apply_lockstep (fun rk => program ar l (k rk)) ss w w1 Hal E1). intros H. apply (IH w1 w' H E2 Hk).
      + apply mapM_Forall2 in E1. cbn [program].
        rewrite (map_Forall2 _ (fun f => priv (g f) (program ar l (k (f_rk f)))) (fun f => program ar l (k (f_rk f)) f) w w1) with (2 := E1).
        2:{ intros f f' H. rewrite H. cbn [priv]. f_equal. f_equal. pose proof (Hl (ILocal g) (or_introl eq_refl) f f' H) as H'. cbn [keeps_shape] in H'. unfold shape, const in H'. congruence. }
        apply (IH w1 w'); [|exact E2|exact Hk]. apply (alike_shape w); [|exact Hal]. revert E1. apply Forall2_imp. intros f f' _ H.
        exact (Hl (ILocal g) (or_introl eq_refl) f f' H).
  Qed.

  Lemma instr_of_shape o : keeps_shape (instr_of ar o).
  Proof using Type.
    destruct o; cbn [instr_of keeps_shape]; eauto using setInData_shape, setInDataByIndices_shape, copyOutToIn_shape, localSum_shape, print_shape.
  Qed.

  (** ** The constructor *)
  Lemma insert_keys {V} k (v v' : V) m m' : map fst m = map fst m' -> map fst (omap_insert lexcmp k v m) = map fst (omap_insert lexcmp k v' m').
  Proof using Type.
    revert m'. induction m as [|[a x] m IH]; intros [|[a' x'] m'] H; try discriminate; [reflexivity|]. cbn [map fst] in H. inversion H; subst.
    cbn [omap_insert]. destruct (lexcmp k a'); cbn [map fst]; [congruence|congruence|]. f_equal. apply IH. assumption.
  Qed.

  Lemma newWindow_alike f side f' : filter_newWindow f side = Ok f' ->
    const f' = const f /\ f_stencil f' = f_stencil f /\
    f_winIds f' = omap_insert lexcmp side (vlen (f_allocs f), vlen (f_allocs f) + 1, vlen (f_allocs f) + 2) (f_winIds f) /\
    f_allocs f' = f_allocs f ++ [vlen (f_allocs f); vlen (f_allocs f) + 1; vlen (f_allocs f) + 2].
  Proof using Type.
    unfold filter_newWindow. intros E. apply bind_ok in E as ((sit & f1) & E1 & E). destruct (windowIter_keeps _ _ _ _ _ E1) as (Hs & _).
    destruct (i32 (mai_getNumberOfTerms sit) <? 0); [discriminate|]. unfold shape, const in *. inversion E. inversion Hs. cbn [f_rk f_sz f_ndims f_globalDims f_xmins f_xmaxs f_valid f_stencil f_winIds f_allocs set_ids set_win].
    repeat split; congruence.
  Qed.

  (** One branch of the constructor. *)
  Definition ctor_step (it : list Z * D) f : res (filter D) :=
    let offset := fst it in
    if filter_getNumberOfNonZeroElements offset =? 0 then Ok f
    else
      side <- filter_getSideFromOffset f offset ;;
      numGhosts <- filter_getNumberOfGhostsFromOffset offset ;;
      let f := set_ghosts f (omap_insert lexcmp side numGhosts (f_winNumGhosts f)) in
      filter_newWindow f side.

  Definition same_ctor f g : Prop :=
    f_stencil f = f_stencil g /\ f_ndims f = f_ndims g /\ map fst (f_winIds f) = map fst (f_winIds g).

  Lemma ctor_step_own it f f1 : owned f -> ctor_step it f = Ok f1 -> owned f1 /\ const f1 = const f.
  Proof using Type.
    intros HO E. unfold ctor_step in E. destruct (filter_getNumberOfNonZeroElements (fst it) =? 0); [inversion E; subst; auto|].
    apply bind_ok in E as (side & Es & E). apply bind_ok in E as (n & En & E). apply newWindow_alike in E as (A1 & A2 & A3 & A4).
    split; [|exact A1]. apply (owned_window f f1 side (vlen (f_allocs f)) HO A3 eq_refl A4).
  Qed.
  Lemma ctor_step_same it f g f1 g1 : same_ctor f g -> ctor_step it f = Ok f1 -> ctor_step it g = Ok g1 -> same_ctor f1 g1.
  Proof using Type.
    intros (B & C & F) Ef1 Eg1. unfold ctor_step in *. destruct (filter_getNumberOfNonZeroElements (fst it) =? 0).
    - inversion Ef1; inversion Eg1; subst. repeat split; assumption.
    - apply bind_ok in Ef1 as (side & Es & Ef1). apply bind_ok in Eg1 as (side' & Es' & Eg1). rewrite (getSide_shape f g (fst it) C) in Es.
      rewrite Es in Es'. inversion Es'; subst side'. apply bind_ok in Ef1 as (n & En & Ef1). apply bind_ok in Eg1 as (n' & En' & Eg1).
      apply newWindow_alike in Ef1 as (A1 & A2 & A3 & _). apply newWindow_alike in Eg1 as (B1 & B2 & B3 & _). unfold const in A1, B1. simpl in *.
      unfold same_ctor. repeat split; try congruence. rewrite A3, B3. apply insert_keys. exact F.
  Qed.

  Lemma new_alike rk rk' sz dims x0 x1 st f g :
    filter_new ar rk sz dims x0 x1 st = Ok f -> filter_new ar rk' sz dims x0 x1 st = Ok g ->
    (exists valid c, cd_build cd_empty sz dims = Ok (valid, c) /\ const f = (rk, sz, vlen dims, dims, x0, x1, valid)) /\ owned f /\ same_ctor f g.
  Proof using Type.
    unfold filter_new. intros Ef Eg. destruct (cd_build cd_empty sz dims) as [[valid dcmp]|]; [|discriminate]. cbn [bind] in *.
    assert (O0 : forall f, f_winIds f = [] -> f_allocs f = [] -> owned f).
    { intros h H1 H2. unfold owned. rewrite H1, H2. split; [constructor|]. split; [constructor|]. split; [intros x []|intros x []]. }
    destruct valid; cbn [negb] in *.
    2:{ inversion Ef; inversion Eg. split; [eauto|]. split; [apply O0; reflexivity|]. repeat split. }
    apply bind_ok in Ef as ((lo & c) & _ & Ef). apply bind_ok in Ef as ((hi & c1) & _ & Ef). apply bind_ok in Ef as (mit & _ & Ef).
    apply bind_ok in Eg as ((lo' & c') & _ & Eg). apply bind_ok in Eg as ((hi' & c1') & _ & Eg). apply bind_ok in Eg as (mit' & _ & Eg).
    revert Ef Eg.
    match goal with |- for_each _ _ ?s = _ -> for_each _ _ ?s' = _ -> _ => set (f0 := s); set (g0 := s') end.
    change (for_each st ctor_step f0 = Ok f -> for_each st ctor_step g0 = Ok g ->
       (exists valid c, Ok (true, dcmp) = Ok (valid, c) /\ const f = (rk, sz, vlen dims, dims, x0, x1, valid)) /\ owned f /\ same_ctor f g).
    assert (H0 : const f0 = (rk, sz, vlen dims, dims, x0, x1, true) /\ owned f0 /\ same_ctor f0 g0).
    { split; [reflexivity|]. split; [apply O0; reflexivity|]. repeat split. }
    clearbody f0 g0. intros Ef Eg.
    assert (H1 : const f = (rk, sz, vlen dims, dims, x0, x1, true) /\ owned f /\ same_ctor f g); [|split; [|apply H1]; exists true, dcmp; split; [reflexivity|apply H1]].
    revert f0 g0 H0 Ef Eg. induction st as [|it st IH]; intros f0 g0 H0 Ef Eg; cbn [for_each] in *; [inversion Ef; inversion Eg; subst; exact H0|].
    apply bind_ok in Ef as (f1 & Ef1 & Ef). apply bind_ok in Eg as (g1 & Eg1 & Eg). apply (IH f1 g1); auto. clear IH Ef Eg.
    destruct H0 as (A1 & A3 & A4). destruct (ctor_step_own it f0 f1 A3 Ef1) as (B1 & B2).
    split; [congruence|]. split; [exact B1|]. apply (ctor_step_same it f0 g0 f1 g1 A4 Ef1 Eg1).
  Qed.

  Lemma tab_in {A} (body : Z -> res A) n : forall k l a, tab_from k n body = Ok l -> In a l -> exists i, body (Z.of_nat i) = Ok a.
  Proof using Type.
    induction n as [|n IH]; intros k l a E H; cbn [tab_from] in E; [inversion E; subst; destruct H|].
    apply bind_ok in E as (x & Ex & E). apply bind_ok in E as (t & Et & E). inversion E; subst. destruct H as [<-|H]; [eauto|eapply IH; eauto].
  Qed.

  Lemma world_new_alike sz dims x0 x1 st w : world_new ar sz dims x0 x1 st = Ok w -> alike w.
  Proof using Type.
    intros E. unfold world_new, tabulate in E. pose proof (tab_from_length _ _ _ _ E) as HL.
    assert (HI : forall f, In f w -> exists i, filter_new ar (Z.of_nat i) sz dims x0 x1 st = Ok f) by (intros f Hf; apply (tab_in _ _ _ _ _ E Hf)).
    split.
    - intros f Hf. destruct (HI f Hf) as (i & Ei). destruct (new_alike _ _ _ _ _ _ _ _ _ Ei Ei) as ((v & c & _ & HC) & HO & _). split; [|exact HO].
      assert (f_sz f = sz) as -> by (unfold const in HC; congruence). unfold vlen. rewrite HL.
      destruct w; [destruct Hf|simpl in HL; lia].
    - intros f g Hf Hg. destruct (HI f Hf) as (i & Ei). destruct (HI g Hg) as (j & Ej).
      destruct (new_alike _ _ _ _ _ _ _ _ _ Ei Ej) as (_ & _ & B & C & F). auto.
  Qed.
End Frame.
