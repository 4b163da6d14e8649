(** * Proofs about the Filter class: all ranks together, and the remaining member functions *)
From Coq Require Import Sorted Permutation.
From Verif Require Import Cpp CppProof OMap MaiModel MaiSpec Radix MaiProof CdModel CdSpec CdProof FilterModel FilterSpec FilterProof FilterRank.
Local Open Scope Z_scope.
Local Arguments prodZ : simpl never.
Local Arguments Z.of_nat : simpl never.

Lemma mapM_exists {A B} (body : A -> res B) (Q : nat -> B -> Prop) w :
  (forall i f, nth_error w i = Some f -> exists f', body f = Ok f' /\ Q i f') ->
  exists w', mapM body w = Ok w' /\ length w' = length w /\
    (forall i f', nth_error w' i = Some f' -> Q i f' /\ exists f, nth_error w i = Some f /\ body f = Ok f').
Proof.
  revert Q. induction w as [|a w IH]; intros Q H; simpl.
  - exists []. split; [reflexivity|]. split; [reflexivity|]. intros [|i] f' Hi; discriminate.
  - destruct (H O a eq_refl) as (b & Eb & Hb). rewrite Eb. cbn [bind].
    destruct (IH (fun i => Q (S i))) as (w' & -> & Hl & Hw); [intros i f Hi; apply (H (S i)); exact Hi|].
    cbn [bind]. exists (b :: w'). split; [reflexivity|]. split; [simpl; congruence|].
    intros [|i] f' Hi; simpl in Hi; [|apply Hw in Hi; exact Hi].
    inversion Hi; subst f'. split; [exact Hb|]. exists a. split; [reflexivity|]. exact Eb.
Qed.

Lemma tabulate_exists {A} (body : Z -> res A) (Q : nat -> A -> Prop) n :
  (forall i, (i < Z.to_nat n)%nat -> exists a, body (Z.of_nat i) = Ok a /\ Q i a) ->
  exists w, tabulate n body = Ok w /\ length w = Z.to_nat n /\ (forall i a, nth_error w i = Some a -> Q i a).
Proof.
  unfold tabulate. generalize (Z.to_nat n). intros m.
  assert (H : forall m k, (forall i, (k <= i < k + m)%nat -> exists a, body (Z.of_nat i) = Ok a /\ Q i a) ->
    exists w, tab_from k m body = Ok w /\ length w = m /\ (forall i a, nth_error w i = Some a -> Q (k + i)%nat a)).
  { clear. induction m as [|m IH]; intros k H; simpl.
    - exists []. split; [reflexivity|]. split; [reflexivity|]. intros [|i] a Hi; discriminate.
    - destruct (H k ltac:(lia)) as (a & -> & Ha). cbn [bind].
      destruct (IH (S k)) as (w & -> & Hl & Hw); [intros i Hi; apply H; lia|]. cbn [bind].
      exists (a :: w). split; [reflexivity|]. split; [simpl; congruence|].
      intros [|i] a' Hi; simpl in Hi.
      + inversion Hi; subst. rewrite Nat.add_0_r. exact Ha.
      + apply Hw in Hi. replace (k + S i)%nat with (S k + i)%nat by lia. exact Hi. }
  intros Hm. destruct (H m O) as (w & E & Hl & Hw); [intros i Hi; apply Hm; lia|]. eauto.
Qed.

Section World.
  Context {D : Type} (ar : arith D) (dims : list Z) (n : Z) (b : list Z).
  Context (st : list (list Z * D)) (xmins xmaxs : list D).
  Hypothesis Hg : grid_ok dims.
  Hypothesis Hn : 1 <= n <= 2 ^ 30.
  Hypothesis Hb : is_decomp n dims b.
  Hypothesis Hmap : is_map st.
  Hypothesis Hoff : forall off w, In (off, w) st -> unit_offset (length dims) off.

  Notation blo := (beg_of dims b).
  Notation bhi := (end_of dims b).
  Notation nd := (length dims).
  Notation cells r := (nested_loops false (blo r) (bhi r)).
  Notation fok := (fok dims n b st xmins xmaxs).
  Notation rank_holds := (rank_holds dims n b st xmins xmaxs).
  Notation S0 := (sides_of st).

  Definition wfok (F : list Z -> D) (w : world) : Prop :=
    length w = Z.to_nat n /\ forall i f, nth_error w i = Some f -> fok (Z.of_nat i) S0 f /\ f_outData f = map F (cells (Z.of_nat i)).
  Definition wholds (G F : list Z -> D) (w : world) : Prop :=
    length w = Z.to_nat n /\ forall i f, nth_error w i = Some f -> rank_holds (Z.of_nat i) G f /\ f_outData f = map F (cells (Z.of_nat i)).

  Lemma wholds_wfok G F w : wholds G F w -> wfok F w.
  Proof using Type. intros (H1 & H2). split; auto. intros i f Hi. destruct (H2 i f Hi) as ((H & _) & H'). auto. Qed.

  Lemma rank_in {A} (w : list A) i f : length w = Z.to_nat n -> nth_error w i = Some f -> 0 <= Z.of_nat i < n.
  Proof using Hn. intros Hl Hi. assert (i < length w)%nat by (apply nth_error_Some; congruence). lia. Qed.

  Lemma world_new_ok :
    cd_build cd_empty n dims = Ok (true, cube_of n dims b 0) ->
    exists w, world_new ar n dims xmins xmaxs st = Ok w /\ wfok (fun _ => a_zero ar) w /\
      forall i f, nth_error w i = Some f -> f_inData f = map (fun _ => a_zero ar) (cells (Z.of_nat i)).
  Proof using Hg Hn Hb Hmap Hoff.
    intros Hbuild. unfold world_new.
    destruct (tabulate_exists (fun rk => filter_new ar rk n dims xmins xmaxs st)
      (fun i f => fok (Z.of_nat i) S0 f /\ f_inData f = map (fun _ => a_zero ar) (cells (Z.of_nat i)) /\
                  f_outData f = map (fun _ => a_zero ar) (cells (Z.of_nat i))) n) as (w & E & Hl & Hw).
    - intros i Hi. apply new_ok; auto. lia.
    - exists w. split; [exact E|]. split.
      + split; [exact Hl|]. intros i f Hi. destruct (Hw i f Hi) as (H1 & H2 & H3). auto.
      + intros i f Hi. apply Hw; auto.
  Qed.

  Lemma world_setByIndices_ok F G w :
    wfok F w -> exists w', world_setInDataByIndices w G = Ok w' /\ wholds G F w'.
  Proof using ar Hg Hn Hb.
    intros (Hl & Hw). unfold world_setInDataByIndices.
    destruct (mapM_exists (fun f => filter_setInDataByIndices f G)
       (fun i f => rank_holds (Z.of_nat i) G f /\ f_outData f = map F (cells (Z.of_nat i))) w) as (w' & E & Hl' & Hw').
    - intros i f Hi. destruct (Hw i f Hi) as (H1 & H2). pose proof (rank_in w i f Hl Hi) as Hr.
      destruct (setInDataByIndices_ok ar dims n b st xmins xmaxs Hg Hn Hb (Z.of_nat i) f G Hr H1) as (f' & E & H & Ho).
      exists f'. split; [exact E|]. split; [exact H|congruence].
    - exists w'. split; [exact E|]. split; [congruence|]. intros i f Hi. apply Hw'; auto.
  Qed.

  Lemma world_set_ok F (u : list D -> D) P w :
    wfok F w ->
    (forall f g, f_ndims f = vlen dims -> f_globalDims f = dims -> f_xmins f = xmins -> f_xmaxs f = xmaxs ->
       in_grid dims g -> filter_getPosition ar f g = Ok (P g)) ->
    exists w', world_setInData ar w u = Ok w' /\ wholds (fun g => u (P g)) F w'.
  Proof using Hg Hn Hb.
    intros (Hl & Hw) HP. unfold world_setInData.
    destruct (mapM_exists (fun f => filter_setInData ar f u)
       (fun i f => rank_holds (Z.of_nat i) (fun g => u (P g)) f /\ f_outData f = map F (cells (Z.of_nat i))) w) as (w' & E & Hl' & Hw').
    - intros i f Hi. destruct (Hw i f Hi) as (H1 & H2). pose proof (rank_in w i f Hl Hi) as Hr.
      destruct (setInData_ok ar dims n b st xmins xmaxs Hg Hn Hb (Z.of_nat i) f u P Hr H1) as (f' & E & H & Ho).
      { intros g Hgb. apply HP; try apply H1. apply (box_grid dims n b Hg Hn Hb (Z.of_nat i)); auto. }
      exists f'. split; [exact E|]. split; [exact H|congruence].
    - exists w'. split; [exact E|]. split; [congruence|]. intros i f Hi. apply Hw'; auto.
  Qed.

  Lemma world_remote_ok G F w : wholds G F w -> remote_ok dims n b st (world_remote w) G.
  Proof using Hg Hn Hb.
    intros (Hl & Hw) r s Hr Hs. unfold world_remote.
    destruct (nth_error w (Z.to_nat r)) as [f|] eqn:E; [|apply nth_error_None in E; lia].
    unfold vget. replace ((0 <=? r) && (r <? vlen w)) with true
      by (symmetry; apply andb_true_iff; split; [apply Z.leb_le; lia|apply Z.ltb_lt; unfold vlen; lia]).
    rewrite E. cbn [bind]. destruct (Hw _ _ E) as ((_ & _ & Hp) & _).
    destruct (Hp s Hs) as (dst & Ed). unfold omap_at. rewrite Ed. cbn [bind].
    rewrite Z2Nat.id by lia. reflexivity.
  Qed.

  Lemma world_apply_ok G F w :
    (forall off w, In (off, w) st -> reaches dims n b off) ->
    wholds G F w -> exists w', world_apply ar w = Ok w' /\ wholds G (code_sum ar dims st G) w'.
  Proof using Hg Hn Hb Hoff.
    intros Hreach HG. pose proof (world_remote_ok G F w HG) as Hrem. destruct HG as (Hl & Hw). unfold world_apply.
    destruct (mapM_exists (filter_applyFilter ar (world_remote w))
       (fun i f => rank_holds (Z.of_nat i) G f /\ f_outData f = map (code_sum ar dims st G) (cells (Z.of_nat i))) w) as (w' & E & Hl' & Hw').
    - intros i f Hi. destruct (Hw i f Hi) as (H1 & H2). pose proof (rank_in w i f Hl Hi) as Hr.
      destruct (applyFilter_ok ar dims n b st xmins xmaxs Hg Hn Hb Hoff Hreach (world_remote w) (Z.of_nat i) f G Hr Hrem H1)
        as (f' & E & H & Ho).
      exists f'. split; [exact E|]. split; [exact H|exact Ho].
    - exists w'. split; [exact E|]. split; [congruence|]. intros i f Hi. apply Hw'; auto.
  Qed.

  Lemma world_copy_ok F w :
    wfok F w -> exists w', world_copyOutToIn w = Ok w' /\ wholds F F w' /\ map f_outData w' = map f_outData w.
  Proof using ar Hg Hn Hb.
    intros (Hl & Hw). unfold world_copyOutToIn.
    destruct (mapM_exists (@filter_copyOutToIn D)
       (fun i f => rank_holds (Z.of_nat i) F f /\ f_outData f = map F (cells (Z.of_nat i))) w) as (w' & E & Hl' & Hw').
    - intros i f Hi. destruct (Hw i f Hi) as (H1 & H2). pose proof (rank_in w i f Hl Hi) as Hr.
      destruct (copyOutToIn_ok ar dims n b st xmins xmaxs Hg Hn Hb (Z.of_nat i) f F Hr H1 H2) as (f' & E & H & Ho).
      exists f'. split; [exact E|]. split; [exact H|congruence].
    - exists w'. split; [exact E|]. split.
      + split; [congruence|]. intros i f Hi. apply Hw'; auto.
      + apply nth_ext with (d := []) (d' := []); [rewrite !map_length; auto|].
        rewrite map_length. intros i Hi.
        destruct (nth_error w' i) as [f'|] eqn:E'; [|apply nth_error_None in E'; lia].
        destruct (Hw' i f' E') as ((_ & H') & f & Ef & _). destruct (Hw i f Ef) as (_ & H).
        rewrite (nth_error_nth (map f_outData w') i [] (map_nth_error f_outData _ _ E')).
        rewrite (nth_error_nth (map f_outData w) i [] (map_nth_error f_outData _ _ Ef)). congruence.
  Qed.

  (** ** Sums, printing, saving, destruction *)

  Lemma localSum_ok r f (input : bool) data :
    fok r S0 f -> data = (if input then f_inData f else f_outData f) ->
    exists k, filter_localSum ar f input = Ok (fold_left (a_add ar) data (a_zero ar), set_mit f (mai_of (blo r) (bhi r) false k)).
  Proof using Hg Hn Hb.
    intros Hf Ed. unfold filter_localSum, get_mit. destruct (fo_mit _ _ _ _ _ _ _ _ _ Hf) as (k & ->). cbn [bind].
    rewrite mai_begin_of, nterms_of. rewrite <- Ed.
    assert (Hl : length data = length (cells r)) by (rewrite Ed; destruct input; apply Hf).
    pose proof (box_good dims n b Hg Hn Hb r) as Hbox.
    pose proof (good_prod _ _ Hbox) as HN. pose proof (loops_length _ _ false Hbox) as HL.
    match goal with |- context [for_upto _ ?bd ?i] => set (body := bd) end.
    destruct (for_upto_inv (fun i (p : mai * D) => fst p = mai_of (blo r) (bhi r) false (Z.of_nat i) /\
        snd p = fold_left (a_add ar) (firstn i data) (a_zero ar)) body
      (prodZ (extents (blo r) (bhi r))) (mai_of (blo r) (bhi r) false 0, a_zero ar)) as ([m s] & E & Em & Es).
    - split; reflexivity.
    - intros i [m s] Hi (Em & Es). simpl in Em, Es. subst m. unfold body. rewrite (vget_nat data i (a_zero ar)) by lia. cbn [bind].
      eexists. split; [reflexivity|]. cbn [fst snd]. split; [rewrite mai_next_of by lia; f_equal; lia|]. rewrite (firstn_S_nth data (a_zero ar)) by lia.
      rewrite fold_left_app. simpl. congruence.
    - rewrite E. cbn [bind]. cbn [fst snd] in Em, Es. rewrite <- HL, <- Hl, firstn_all in Es. rewrite Es, Em. eauto.
  Qed.

  Lemma print_ok r f (input : bool) data :
    fok r S0 f -> data = (if input then f_inData f else f_outData f) ->
    exists k, filter_print f input = Ok (combine (cells r) data, set_mit f (mai_of (blo r) (bhi r) false k)).
  Proof using ar Hg Hn Hb.
    intros Hf Ed. unfold filter_print, get_mit. destruct (fo_mit _ _ _ _ _ _ _ _ _ Hf) as (k & ->). cbn [bind].
    rewrite mai_begin_of, nterms_of. rewrite <- Ed.
    assert (Hl : length data = length (cells r)) by (rewrite Ed; destruct input; apply Hf).
    pose proof (box_good dims n b Hg Hn Hb r) as Hbox.
    pose proof (good_prod _ _ Hbox) as HN. pose proof (loops_length _ _ false Hbox) as HL.
    match goal with |- context [for_upto _ ?bd ?i] => set (body := bd) end.
    destruct (for_upto_inv (fun i (p : mai * list (list Z * D)) =>
        fst p = mai_of (blo r) (bhi r) false (Z.of_nat i) /\ snd p = firstn i (combine (cells r) data)) body
      (prodZ (extents (blo r) (bhi r))) (mai_of (blo r) (bhi r) false 0, [])) as ([m s] & E & Em & Es).
    - split; reflexivity.
    - intros i [m s] Hi (Em & Es). simpl in Em, Es. subst m. unfold body.
      rewrite mai_getIndices_of by auto. cbn [bind].
      rewrite (vget_nat data i (a_zero ar)) by lia. cbn [bind].
      eexists. split; [reflexivity|]. cbn [fst snd]. split; [rewrite mai_next_of by lia; f_equal; lia|].
      rewrite (firstn_S_nth _ ([], a_zero ar)) by (rewrite combine_length; lia).
      rewrite combine_nth by lia. rewrite Es. repeat f_equal.
      pose proof (nth_nested_loops false (blo r) (bhi r) (Z.of_nat i) Hbox ltac:(lia)) as EN.
      rewrite Nat2Z.id in EN. symmetry. apply nth_error_nth. exact EN.
    - rewrite E. cbn [bind]. cbn [fst snd] in Em, Es.
      replace (Z.to_nat (prodZ (extents (blo r) (bhi r)))) with (length (combine (cells r) data)) in Es by (rewrite combine_length; lia).
      rewrite firstn_all in Es. rewrite Es, Em. eauto.
  Qed.

  Lemma release_ok live id : NoDup live -> In id live -> release live id = Ok (remove Z.eq_dec id live).
  Proof using Type.
    clear. intros _ Hin. unfold release.
    replace (existsb (Z.eqb id) live) with true; [reflexivity|].
    symmetry. apply existsb_exists. exists id. split; auto. apply Z.eqb_refl.
  Qed.

  Lemma remove_perm id live l : NoDup live -> Permutation (id :: l) live -> Permutation l (remove Z.eq_dec id live).
  Proof using Type.
    clear. intros Hnd Hp.
    assert (Hnd' : NoDup (id :: l)) by (apply Permutation_NoDup with live; [symmetry; auto|auto]).
    inversion Hnd' as [|x y Hni Hl]; subst.
    apply NoDup_Permutation; auto.
    - clear - Hnd. induction live as [|x live IH]; simpl; [constructor|]. inversion Hnd; subst.
      destruct (Z.eq_dec id x); [auto|]. constructor; [|auto]. intros H. apply in_remove in H. tauto.
    - intros x. split.
      + intros H. apply in_in_remove; [intros ->; auto|]. apply Permutation_in with (id :: l); auto. right; auto.
      + intros H. apply in_remove in H as [H Hne]. apply Permutation_in with (l' := id :: l) in H; [|symmetry; auto].
        destruct H as [H|H]; [congruence|auto].
  Qed.

  Lemma remove_NoDup id live : NoDup live -> NoDup (remove Z.eq_dec id live).
  Proof using Type.
    clear. intros Hnd. induction live as [|x live IH]; simpl; [constructor|]. inversion Hnd; subst.
    destruct (Z.eq_dec id x); [auto|]. constructor; [|auto]. intros H. apply in_remove in H. tauto.
  Qed.

  Lemma delete_ok r f : fok r S0 f -> filter_delete f = Ok [].
  Proof using Type.
    intros Hf. unfold filter_delete.
    assert (Hnd : NoDup (f_allocs f)) by (rewrite (fo_alloc _ _ _ _ _ _ _ _ _ Hf); apply NoDup_range).
    pose proof (fo_ids _ _ _ _ _ _ _ _ _ Hf) as Hperm. pose proof (fo_ws _ _ _ _ _ _ _ _ _ Hf) as Hs.
    set (m := f_winIds f) in *.
    match goal with |- for_each _ ?bd _ = _ => set (body := bd) end.
    assert (H : forall l live, (forall x, In x l -> In x m) -> NoDup live -> Permutation (flat_map ids3 l) live ->
              for_each l body live = Ok []).
    { induction l as [|[s [[i1 i2] i3]] l IH]; intros live Hin Hndl Hp; simpl.
      - simpl in Hp. apply Permutation_nil in Hp. subst. reflexivity.
      - unfold body at 1. simpl fst. 
        assert (Ef : omap_find lexcmp s m = Some (i1, i2, i3)) by (apply lfind_In; auto; apply Hin; left; auto).
        rewrite Ef. simpl in Hp.
        rewrite release_ok by (auto; apply (Permutation_in _ Hp); left; auto). cbn [bind].
        assert (P1 := remove_perm _ _ _ Hndl Hp). assert (N1 := remove_NoDup i1 _ Hndl).
        rewrite release_ok by (auto; apply (Permutation_in _ P1); left; auto). cbn [bind].
        assert (P2 := remove_perm _ _ _ N1 P1). assert (N2 := remove_NoDup i2 _ N1).
        rewrite release_ok by (auto; apply (Permutation_in _ P2); left; auto). cbn [bind].
        assert (P3 := remove_perm _ _ _ N2 P2). assert (N3 := remove_NoDup i3 _ N2).
        apply IH; auto. intros x Hx. apply Hin. right; auto. }
    apply H; auto.
  Qed.

  (** *** saveVTK *)
  Notation zeros := (repeat 0 nd).
  Lemma grid_extents : extents zeros dims = dims.
  Proof using Type.
    clear. induction dims as [|x l IH]; simpl; [reflexivity|]. rewrite extents_cons, IH. f_equal. lia.
  Qed.

  Lemma grid_good : good_box zeros dims.
  Proof using Hg Hn Hb.
    pose proof (nd_range dims n b Hg Hn Hb) as Hnd.
    split; [|split].
    - split; [apply repeat_length|]. split.
      { intros E. apply (f_equal (@length Z)) in E. rewrite repeat_length in E. simpl in E. lia. }
      split; [rewrite repeat_length; unfold two31 in *; lia|].
      intros j Hj. rewrite repeat_length in Hj. rewrite nth_repeat0.
      pose proof (grid_dim_range dims j Hg Hj). unfold two31 in *. lia.
    - intros j Hj. rewrite repeat_length in Hj. rewrite nth_repeat0. apply (grid_dim_range dims j Hg Hj).
    - rewrite grid_extents. destruct Hg as (_ & _ & _ & H). lia.
  Qed.

  Definition flat (g : list Z) : nat := Z.to_nat (dot (strd false dims) g).
  Definition wr (F : list Z -> D) (fld : list D) (g : list Z) : list D := upd fld (flat g) (F g).

  Lemma flat_range g : in_grid dims g -> (flat g < Z.to_nat (prodZ dims))%nat /\ Z.of_nat (flat g) = dot (strd false dims) g /\
     forall k, mai_computeBigIndex (mai_of zeros dims false k) g = Ok (dot (strd false dims) g).
  Proof using Hg Hn Hb.
    intros Hgr. destruct (mai_computeBig_in zeros dims false 0 g grid_good Hgr) as (E & H).
    assert (El : length g = nd) by (apply in_grid_nth in Hgr; apply Hgr).
    rewrite vsub_zeros in * by auto. rewrite grid_extents in *. unfold flat. split; [lia|]. split; [lia|].
    intros k. destruct (mai_computeBig_in zeros dims false k g grid_good Hgr) as (E' & _).
    rewrite vsub_zeros in E' by auto. rewrite grid_extents in E'. exact E'.
  Qed.

  Lemma flat_inj g g' : in_grid dims g -> in_grid dims g' -> flat g = flat g' -> g = g'.
  Proof using Hg Hn Hb.
    intros H H' E. apply (f_equal Z.of_nat) in E.
    destruct (flat_range g H) as (_ & E1 & _). destruct (flat_range g' H') as (_ & E2 & _). rewrite E1, E2 in E.
    apply in_grid_nth in H as [L H]. apply in_grid_nth in H' as [L' H'].
    rewrite <- (digs_dot false dims g) by (split; auto). rewrite <- (digs_dot false dims g') by (split; auto). congruence.
  Qed.

  Lemma wr_fold F l fld :
    (forall g, In g l -> in_grid dims g) -> length fld = Z.to_nat (prodZ dims) ->
    length (fold_left (wr F) l fld) = Z.to_nat (prodZ dims) /\
    forall g, in_grid dims g -> nth (flat g) (fold_left (wr F) l fld) (a_zero ar) = if lex_dec g l then F g else nth (flat g) fld (a_zero ar).
  Proof using Hg Hn Hb.
    revert fld. induction l as [|h l IH]; intros fld Hin Hl.
    - split; [exact Hl|]. intros g Hgr. destruct (lex_dec g []) as [[]|_]. reflexivity.
    - simpl fold_left. destruct (IH (wr F fld h)) as (L & H).
      + intros g Hgl. apply Hin. right; auto.
      + unfold wr. rewrite upd_length. exact Hl.
      + split; [exact L|]. intros g Hgr. rewrite H by auto.
        assert (Hh : in_grid dims h) by (apply Hin; left; auto).
        destruct (lex_dec g l) as [Hi|Hi]; destruct (lex_dec g (h :: l)) as [Hc|Hc]; auto.
        * exfalso. apply Hc. right; auto.
        * destruct Hc as [->|Hc]; [|contradiction]. unfold wr. rewrite upd_nth by (rewrite Hl; apply flat_range; auto).
          rewrite Nat.eqb_refl. reflexivity.
        * unfold wr. rewrite upd_nth by (rewrite Hl; apply flat_range; auto).
          destruct (Nat.eqb_spec (flat g) (flat h)) as [E|E]; [|reflexivity].
          exfalso. apply Hc. left. symmetry. apply flat_inj; auto.
  Qed.

  Lemma concat_nth (l : list (list D)) N i j d :
    Forall (fun v => length v = N) l -> (i < length l)%nat -> (j < N)%nat ->
    nth (i * N + j) (concat l) d = nth j (nth i l []) d /\ (i * N + j < length (concat l))%nat.
  Proof using Type.
    clear. revert i. induction l as [|v l IH]; intros i HF Hi Hj; simpl in *; [lia|].
    inversion HF as [|x y E HF']; subst. rewrite app_length. destruct i as [|i].
    - simpl. rewrite app_nth1 by lia. split; [reflexivity|lia].
    - destruct (IH i HF' ltac:(lia) Hj) as [E1 E2].
      rewrite app_nth2 by (simpl; lia).
      replace (Datatypes.S i * length v + j - length v)%nat with (i * length v + j)%nat by (simpl; lia).
      split; [exact E1|]. simpl; lia.
  Qed.

  Lemma blo0 : blo 0 = zeros.
  Proof using Hg Hn Hb.
    apply (nth_ext' 0); [rewrite (blo_length dims n b), repeat_length; auto|].
    rewrite (blo_length dims n b) by auto. intros j Hj. rewrite nth_repeat0, (beg_of_nth n) by auto.
    unfold coords. rewrite digits_nth by (destruct Hb as (-> & _); auto).
    rewrite Z.div_0_l, Z.mod_0_l; [reflexivity| |].
    - destruct Hb as (_ & H & _). specialize (H j Hj). lia.
    - pose proof (prodZ_pos (skipn (S j) b) (allpos_skipn _ _ (decomp_allpos n dims b Hb))). lia.
  Qed.

  Lemma saveVTK_ok F w :
    wfok F w -> world_saveVTK ar w = Ok (map F (nested_loops false zeros dims)).
  Proof using Hg Hn Hb.
    intros (Hl & Hw). unfold world_saveVTK.
    destruct (nth_error w 0) as [f|] eqn:E0; [|apply nth_error_None in E0; lia].
    unfold vget. replace ((0 <=? 0) && (0 <? vlen w)) with true
      by (symmetry; apply andb_true_iff; split; [apply Z.leb_le; lia|apply Z.ltb_lt; unfold vlen; lia]).
    simpl Z.to_nat. rewrite E0. cbn [bind]. destruct (Hw _ _ E0) as (Hf & Ho). change (Z.of_nat 0) with 0 in *.
    unfold filter_saveVTK_root. rewrite (fo_nd _ _ _ _ _ _ _ _ _ Hf), (fo_gd _ _ _ _ _ _ _ _ _ Hf).
    pose proof (mai_ntot_eq dims (vlen dims) eq_refl) as EN. unfold mai_ntot in EN. rewrite EN. cbn [bind].
    pose proof (prodZ_pos dims (grid_allpos dims Hg)) as Hpp.
    assert (Hpl : prodZ dims < two31) by (destruct Hg as (_ & _ & _ & H); exact H).
    rewrite u64_id by (unfold two31, two64 in *; lia).
    replace (Z.to_nat (vlen dims)) with nd by (unfold vlen; lia). rewrite mai_build_good by apply grid_good. cbn [bind].
    unfold get_mit. destruct (fo_mit _ _ _ _ _ _ _ _ _ Hf) as (km & ->). cbn [bind].
    destruct (fo_dcmp _ _ _ _ _ _ _ _ _ Hf) as (kc & ->). rewrite (fo_sz _ _ _ _ _ _ _ _ _ Hf).
    pose proof (box_good dims n b Hg Hn Hb) as HBG.
    pose proof (local_prod_range dims n b Hg Hn Hb) as HLP.
    pose proof (local_dims_prod n dims b Hb) as HLD.
    set (N := prodZ (local_dims dims b)) in *.
    assert (HN : forall r, prodZ (extents (blo r) (bhi r)) = N) by (intros r; rewrite (box_extents dims n b); auto).
    assert (HNl : forall r, length (cells r) = Z.to_nat N) by (intros r; rewrite loops_length, HN; auto).
    assert (Enl : i32 (vlen (f_outData f)) = N).
    { unfold vlen. rewrite Ho, map_length, HNl, Z2Nat.id by lia. apply i32_id. unfold two31 in *. lia. }
    rewrite Enl.
    match goal with |- context [for_upto n ?bd ?i] => set (body := bd); set (i0 := i) end.
    set (init := repeat (a_zero ar) (Z.to_nat (prodZ dims))) in *.
    destruct (for_upto_inv (fun i (p : cube * mai * list D) => let '(c, m, fld) := p in
       (exists k, c = cube_of n dims b k) /\ (exists k, m = mai_of (blo 0) (bhi 0) false k) /\
       fld = fold_left (wr F) (flat_map (fun i => cells (Z.of_nat i)) (seq 0 i)) init) body n i0)
      as ([[c m] fld] & E & _ & _ & Efld).
    - unfold i0. split; [eauto|]. split; [eauto|]. reflexivity.
    - intros i [[c m] fld] Hi ((k & ->) & (k' & ->) & Efld). unfold body.
      rewrite cd_getBegIndices_of by (auto; apply (n31 dims n b); auto). cbn [bind].
      rewrite (u64_rank n Hn) by lia. rewrite mai_begin_of, nterms_of, HN.
      match goal with |- context [for_upto N ?bd ?i] => set (body2 := bd) end.
      assert (Hlf : length fld = Z.to_nat (prodZ dims)).
      { rewrite Efld. apply wr_fold; [|unfold init; apply repeat_length].
        intros g Hgin. apply in_flat_map in Hgin as (i' & _ & Hgin).
        apply in_nested_loops in Hgin; [|rewrite (blo_length dims n b), (bhi_length dims n b); auto].
        apply (box_grid dims n b Hg Hn Hb (Z.of_nat i')). auto. }
      destruct (for_upto_inv (fun j (p : mai * list D) =>
         fst p = mai_of (blo 0) (bhi 0) false (Z.of_nat j) /\
         snd p = fold_left (wr F) (firstn j (cells (Z.of_nat i))) fld) body2 N (mai_of (blo 0) (bhi 0) false 0, fld))
        as ([m' fld'] & E & Em' & Ef').
      + split; reflexivity.
      + intros j [m' fld'] Hj (Em' & Ef'). cbn [fst snd] in Em', Ef'. subst m'. unfold body2.
        rewrite mai_getIndices_of by auto. cbn [bind]. rewrite (box_extents dims n b) by auto. rewrite blo0.
        assert (Hld : length (local_dims dims b) = nd) by (apply local_dims_length; apply Hb).
        assert (Hdl : length (digs false (local_dims dims b) (Z.of_nat j)) = nd) by (rewrite digs_length; auto).
        rewrite vadd_zeros by auto.
        set (g := vadd (blo (Z.of_nat i)) (digs false (local_dims dims b) (Z.of_nat j))).
        assert (HlpA : allpos (local_dims dims b)) by (apply (local_dims_pos n dims b Hg Hb)).
        assert (Hgbox : in_box (blo (Z.of_nat i)) (bhi (Z.of_nat i)) g).
        { unfold g. apply digit_vec_in_box; [rewrite (blo_length dims n b), (bhi_length dims n b); auto|].
          rewrite (box_extents dims n b) by auto. apply digs_digit_vec; auto. }
        assert (Hgl : length g = nd) by (unfold g; rewrite vadd_length; rewrite (blo_length dims n b); auto).
        pose proof (box_grid dims n b Hg Hn Hb _ _ Hgbox) as Hgg.
        rewrite (tab_eq g).
        2:{ unfold vlen. congruence. }
        2:{ intros q Hq. rewrite (vget_nat (blo (Z.of_nat i)) q 0) by (rewrite (blo_length dims n b); auto; lia). cbn [bind].
            rewrite (vget_nat (digs false (local_dims dims b) (Z.of_nat j)) q 0) by lia. cbn [bind]. f_equal.
            unfold g. rewrite vadd_nth by (rewrite ?(blo_length dims n b); auto; lia).
            apply u64_id. rewrite <- vadd_nth by (rewrite ?(blo_length dims n b); auto; lia). fold g.
            apply in_grid_nth in Hgg as [_ Hgg]. specialize (Hgg q ltac:(lia)).
            pose proof (grid_dim_range dims q Hg ltac:(lia)). unfold two31, two64 in *. lia. }
        cbn [bind]. destruct (flat_range g Hgg) as (HF1 & HF2 & HF3). rewrite HF3. cbn [bind].
        assert (Hij : 0 <= Z.of_nat i * N + Z.of_nat j < prodZ dims) by nia.
        rewrite int_op_ok by nia. cbn [bind].
        rewrite (u64_id (Z.of_nat i * N)) by (unfold two31, two64 in *; nia).
        rewrite (u64_id (Z.of_nat i * N + _)) by (unfold two31, two64 in *; nia).
        unfold world_gather.
        assert (HFall : Forall (fun v => length v = Z.to_nat N) (map f_outData w)).
        { apply Forall_forall. intros v Hv. apply in_map_iff in Hv as (f1 & <- & Hf1). apply In_nth_error in Hf1 as (q & Hq).
          destruct (Hw q f1 Hq) as (_ & ->). rewrite map_length. apply HNl. }
        destruct (concat_nth (map f_outData w) (Z.to_nat N) i j (a_zero ar) HFall) as (EC & LC).
        { rewrite map_length. lia. } { lia. }
        replace (Z.of_nat i * N + Z.of_nat j) with (Z.of_nat (i * Z.to_nat N + j)) by nia.
        rewrite (vget_nat _ _ (a_zero ar)) by exact LC. cbn [bind]. rewrite EC.
        destruct (nth_error w i) as [fi|] eqn:Ei; [|apply nth_error_None in Ei; lia].
        rewrite (nth_error_nth _ _ _ (map_nth_error f_outData _ _ Ei)). destruct (Hw i fi Ei) as (_ & ->).
        assert (Enth : nth_error (cells (Z.of_nat i)) j = Some g).
        { pose proof (nth_nested_loops false (blo (Z.of_nat i)) (bhi (Z.of_nat i)) (Z.of_nat j) (HBG _) ltac:(rewrite HN; lia)) as EN2.
          rewrite Nat2Z.id, (box_extents dims n b) in EN2 by auto. exact EN2. }
        rewrite (nth_error_nth _ _ _ (map_nth_error F _ _ Enth)).
        assert (Hlf' : length fld' = Z.to_nat (prodZ dims)).
        { rewrite Ef'. apply wr_fold; [|exact Hlf]. intros h Hh. apply (box_grid dims n b Hg Hn Hb (Z.of_nat i)).
          apply (in_nested_loops false); [rewrite (blo_length dims n b), (bhi_length dims n b); auto|].
          rewrite <- (firstn_skipn j (cells (Z.of_nat i))). apply in_or_app. left; exact Hh. }
        rewrite <- HF2. rewrite vset_nat by lia. cbn [bind]. eexists. split; [reflexivity|]. cbn [fst snd].
        split; [rewrite mai_next_of by (unfold two31, two64 in *; lia); f_equal; lia|].
        rewrite (firstn_S_nth _ []) by (apply nth_error_Some; congruence).
        rewrite fold_left_app. cbn [fold_left]. rewrite <- Ef'. rewrite (nth_error_nth _ _ [] Enth). reflexivity.
      + rewrite E. cbn [bind]. eexists. split; [reflexivity|]. cbn [fst snd] in Em', Ef'. split; [eauto|]. split; [eauto|].
        rewrite seq_S, flat_map_app, fold_left_app. cbn [flat_map Nat.add]. rewrite app_nil_r, <- Efld, Ef'.
        rewrite <- (HNl (Z.of_nat i)), firstn_all. reflexivity.
    - rewrite E. cbn [bind]. f_equal. rewrite Efld.
      set (l := flat_map (fun i => cells (Z.of_nat i)) (seq 0 (Z.to_nat n))).
      destruct (wr_fold F l init) as (L & H).
      { intros g Hgin. apply in_flat_map in Hgin as (i' & _ & Hgin).
        apply in_nested_loops in Hgin; [|rewrite (blo_length dims n b), (bhi_length dims n b); auto].
        apply (box_grid dims n b Hg Hn Hb (Z.of_nat i')). auto. }
      { unfold init. apply repeat_length. }
      pose proof (loops_length zeros dims false grid_good) as Hgl. rewrite grid_extents in Hgl.
      apply (nth_ext' (a_zero ar)); [rewrite map_length; lia|].
      intros q Hq. rewrite L in Hq.
      pose proof (nth_nested_loops false zeros dims (Z.of_nat q) grid_good ltac:(rewrite grid_extents; lia)) as EN2.
      rewrite Nat2Z.id in EN2. rewrite grid_extents, vadd_zeros in EN2 by (rewrite digs_length; auto).
      set (g := digs false dims (Z.of_nat q)) in *.
      rewrite (nth_error_nth _ _ _ (map_nth_error F _ _ EN2)).
      assert (Hgg : in_grid dims g).
      { unfold in_grid. apply (in_nested_loops false); [apply repeat_length|]. apply nth_error_In with q. exact EN2. }
      assert (Efq : flat g = q).
      { unfold flat, g. rewrite dot_digs by (apply grid_allpos; auto). rewrite Z.mod_small by lia. lia. }
      rewrite <- Efq at 1. rewrite H by auto.
      destruct (lex_dec g l) as [_|Hni]; [reflexivity|]. exfalso. apply Hni. unfold l. apply in_flat_map.
      pose proof (owner_range n dims b g Hg Hb Hgg) as HO. exists (Z.to_nat (owner dims b g)). split; [apply in_seq; lia|].
      rewrite Z2Nat.id by lia. apply in_nested_loops; [rewrite (blo_length dims n b), (bhi_length dims n b); auto|].
      apply (owner_iff n); auto.
  Qed.
End World.
