(** * Programs using a Filter on all ranks, and what they do to the global fields *)
From Coq Require Import Sorted Permutation.
From Verif Require Import Cpp CppProof OMap MaiModel MaiSpec Radix MaiProof CdModel CdSpec CdProof FilterModel FilterSpec FilterProof FilterRank FilterWorld.
Local Open Scope Z_scope.
Local Arguments prodZ : simpl never.
Local Arguments Z.of_nat : simpl never.

(** Execution of a program on all ranks, call by call. *)
Definition run_op {D} (ar : arith D) (o : op D) (w : list (filter D)) : res (list (filter D)) :=
  match o with
  | SetByPosition u => world_setInData ar w u
  | SetByIndices G => world_setInDataByIndices w G
  | Apply => world_apply ar w
  | Copy => world_copyOutToIn w
  | CheckSum input => mapM (fun f => ' (_, f) <- filter_localSum ar f input ;; Ok f) w
  | Print input => mapM (fun f => ' (_, f) <- filter_print f input ;; Ok f) w
  end.
Definition run {D} (ar : arith D) (ops : list (op D)) (w : list (filter D)) : res (list (filter D)) :=
  for_each ops (run_op ar) w.

Definition in_pieces {D} (w : list (filter D)) : list (list Z * list Z * list D) :=
  map (fun f => (f_lo f, f_hi f, f_inData f)) w.
Definition out_pieces {D} (w : list (filter D)) : list (list Z * list Z * list D) :=
  map (fun f => (f_lo f, f_hi f, f_outData f)) w.

(** Every window of every rank shows the neighbours the border of its box. *)
Definition exposes {D} (G : list Z -> D) (st : list (list Z * D)) (w : list (filter D)) : Prop :=
  forall f off c, In f w -> In (off, c) st -> (exists j, nth j off 0 <> 0) ->
    exists dst, omap_find lexcmp (map Z.opp off) (f_winData f) =
      Some (map (fun g => Some (G g)) (col_major (border_lo off (f_lo f) (f_hi f)) (border_hi off (f_lo f) (f_hi f))), dst).

Lemma tab_eqD {A} (d : A) (l : list A) (body : Z -> res A) n :
  n = vlen l -> (forall j, (j < length l)%nat -> body (Z.of_nat j) = Ok (nth j l d)) -> tabulate n body = Ok l.
Proof.
  intros -> H. rewrite (tabulate_ok (fun i => nth i l d)).
  - unfold vlen. rewrite Nat2Z.id. f_equal. apply (nth_ext' d).
    + rewrite map_length, seq_length. reflexivity.
    + intros j Hj. rewrite map_length, seq_length in Hj. rewrite map_seq_nth by exact Hj. reflexivity.
  - intros i Hi. unfold vlen in Hi. rewrite Nat2Z.id in Hi. apply H, Hi.
Qed.

Lemma stencil_sum_ext {D} (ar : arith D) dims st G G' g :
  (forall j, (j < length dims)%nat -> 0 < nth j dims 0) -> (forall off w, In (off, w) st -> length off = length dims) ->
  (forall g, in_grid dims g -> G g = G' g) -> in_grid dims g ->
  stencil_sum ar dims st G g = stencil_sum ar dims st G' g.
Proof.
  intros Hp Hl HG Hgr. unfold stencil_sum. generalize (a_zero ar). apply in_grid_nth in Hgr as [L _].
  induction st as [|[off c] l IH]; intros a; [reflexivity|]. cbn [fold_left fst snd].
  rewrite HG by (apply wrap_in_grid; auto; pose proof (Hl off c (or_introl eq_refl)); rewrite shift_length; lia).
  apply IH. intros o v H. apply (Hl o v). right; auto.
Qed.

Section Prog.
  Context {D : Type} (ar : arith D) (dims : list Z) (n : Z) (b : list Z).
  Context (st : list (list Z * D)) (xmins xmaxs : list D).
  Hypothesis Hg : grid_ok dims.
  Hypothesis Hn : 1 <= n <= 2 ^ 30.
  Hypothesis Hb : is_decomp n dims b.
  Hypothesis Hmap : is_map st.
  Hypothesis Hoff : forall off w, In (off, w) st -> good_off dims b off.

  Notation blo := (beg_of dims b).
  Notation bhi := (end_of dims b).
  Notation nd := (length dims).
  Notation cells r := (nested_loops false (blo r) (bhi r)).
  Notation wfok := (wfok dims n b st xmins xmaxs).
  Notation wholds := (wholds dims n b st xmins xmaxs).
  Notation fok := (fok dims n b st xmins xmaxs).

  Lemma in_cells r g : In g (cells r) -> in_box (blo r) (bhi r) g.
  Proof using Hg Hn Hb. apply in_nested_loops. rewrite (blo_length dims n b), (bhi_length dims n b); auto. Qed.

  Lemma wfok_ext F F' w : (forall g, in_grid dims g -> F g = F' g) -> wfok F w -> wfok F' w.
  Proof using Hg Hn Hb.
    intros HF (Hl & Hw). split; [exact Hl|]. intros i f Hi. destruct (Hw i f Hi) as (H1 & H2). split; [exact H1|].
    rewrite H2. apply map_ext_in. intros g Hin. apply HF. apply (box_grid dims n b Hg Hn Hb (Z.of_nat i)). apply in_cells; auto.
  Qed.

  Lemma wholds_ext G G' F F' w :
    (forall g, in_grid dims g -> G g = G' g) -> (forall g, in_grid dims g -> F g = F' g) -> wholds G F w -> wholds G' F' w.
  Proof using Hg Hn Hb.
    intros HG HF (Hl & Hw). split; [exact Hl|]. intros i f Hi. destruct (Hw i f Hi) as ((H1 & H2 & H3) & H4).
    assert (E : forall A (h h' : list Z -> A), (forall g, in_grid dims g -> h g = h' g) -> map h (cells (Z.of_nat i)) = map h' (cells (Z.of_nat i))).
    { intros A h h' Hh. apply map_ext_in. intros g Hin. apply Hh. apply (box_grid dims n b Hg Hn Hb (Z.of_nat i)). apply in_cells; auto. }
    split; [|rewrite H4; apply E; exact HF]. split; [exact H1|]. split; [rewrite H2; apply E; exact HG|].
    intros s Hs. destruct (H3 s Hs) as (dst & ->). exists dst. do 2 f_equal. unfold wfield. apply map_ext_in. intros g Hin. f_equal. apply HG.
    apply (box_grid dims n b Hg Hn Hb (Z.of_nat i)). apply (win_box dims n b Hg Hn Hb _ s).
    apply in_nested_loops in Hin; [exact Hin|]. unfold wlo, whi. rewrite !vec_length. reflexivity.
  Qed.

  Lemma tiling_ok F w : wfok F w -> tiling dims (map (fun f => (f_lo f, f_hi f)) w).
  Proof using Hg Hn Hb.
    intros (Hl & Hw). split.
    - intros lo hi H. apply in_map_iff in H as (f & E & Hf). inversion E; subst. apply In_nth_error in Hf as (i & Hi).
      destruct (Hw i f Hi) as (H & _). rewrite (fo_lo _ _ _ _ _ _ _ _ _ H), (fo_hi _ _ _ _ _ _ _ _ _ H).
      split; [apply (beg_of_length n); auto|]. split; [apply (end_of_length n); auto|]. intros g Hbox.
      apply (box_grid dims n b Hg Hn Hb (Z.of_nat i)); auto.
    - intros g Hgr. pose proof (owner_range n dims b g Hg Hb Hgr) as HO. set (o := owner dims b g) in *.
      exists (Z.to_nat o). split.
      + destruct (nth_error w (Z.to_nat o)) as [f|] eqn:E; [|apply nth_error_None in E; lia].
        exists (f_lo f), (f_hi f). split; [apply map_nth_error with (1 := E)|].
        destruct (Hw _ _ E) as (H & _). rewrite (fo_lo _ _ _ _ _ _ _ _ _ H), (fo_hi _ _ _ _ _ _ _ _ _ H), Z2Nat.id by lia.
        apply (owner_iff n); auto.
      + intros i (lo & hi & E & Hbox). rewrite nth_error_map in E.
        destruct (nth_error w i) as [f|] eqn:Ef; [|discriminate]. inversion E; subst.
        pose proof (rank_in n Hn w i f Hl Ef) as Hr.
        destruct (Hw i f Ef) as (H & _). rewrite (fo_lo _ _ _ _ _ _ _ _ _ H), (fo_hi _ _ _ _ _ _ _ _ _ H) in Hbox.
        apply (owner_iff n) in Hbox; auto. fold o in Hbox. lia.
  Qed.

  Lemma out_ok F w : wfok F w -> distributed dims F (out_pieces w).
  Proof using Hg Hn Hb.
    intros H. split.
    - unfold out_pieces. rewrite map_map. cbn [fst]. apply (tiling_ok F); auto.
    - destruct H as (Hl & Hw). intros lo hi data Hin. apply in_map_iff in Hin as (f & E & Hf). inversion E; subst.
      apply In_nth_error in Hf as (i & Hi). destruct (Hw i f Hi) as (H & ->).
      rewrite (fo_lo _ _ _ _ _ _ _ _ _ H), (fo_hi _ _ _ _ _ _ _ _ _ H). reflexivity.
  Qed.

  Lemma in_ok G F w : wholds G F w -> distributed dims G (in_pieces w).
  Proof using Hg Hn Hb.
    intros H. split.
    - unfold in_pieces. rewrite map_map. cbn [fst]. apply (tiling_ok F). apply (wholds_wfok _ _ _ _ _ _ G); auto.
    - destruct H as (Hl & Hw). intros lo hi data Hin. apply in_map_iff in Hin as (f & E & Hf). inversion E; subst.
      apply In_nth_error in Hf as (i & Hi). destruct (Hw i f Hi) as ((H & -> & _) & _).
      rewrite (fo_lo _ _ _ _ _ _ _ _ _ H), (fo_hi _ _ _ _ _ _ _ _ _ H). reflexivity.
  Qed.

  Lemma border_lo_nth off lo hi j : length lo = length off -> length hi = length off -> (j < length off)%nat ->
    nth j (border_lo off lo hi) 0 = if nth j off 0 <? 0 then nth j hi 0 - 1 else nth j lo 0.
  Proof using Type.
    clear. intros H1 H2 Hj. unfold border_lo.
    erewrite nth_indep by (rewrite map_length, !combine_length; lia).
    rewrite (map_nth (fun p : Z * Z * Z => if fst (fst p) <? 0 then snd p - 1 else snd (fst p)) _ (0, 0, 0)).
    rewrite combine_nth by (rewrite combine_length; lia). rewrite combine_nth by lia. reflexivity.
  Qed.
  Lemma border_hi_nth off lo hi j : length lo = length off -> length hi = length off -> (j < length off)%nat ->
    nth j (border_hi off lo hi) 0 = if 0 <? nth j off 0 then nth j lo 0 + 1 else nth j hi 0.
  Proof using Type.
    clear. intros H1 H2 Hj. unfold border_hi.
    erewrite nth_indep by (rewrite map_length, !combine_length; lia).
    rewrite (map_nth (fun p : Z * Z * Z => if 0 <? fst (fst p) then snd (fst p) + 1 else snd p) _ (0, 0, 0)).
    rewrite combine_nth by (rewrite combine_length; lia). rewrite combine_nth by lia. reflexivity.
  Qed.
  Lemma border_lengths off lo hi : length lo = length off -> length hi = length off ->
    length (border_lo off lo hi) = length off /\ length (border_hi off lo hi) = length off.
  Proof using Type. clear. intros H1 H2. unfold border_lo, border_hi. rewrite !map_length, !combine_length. lia. Qed.

  Lemma opp_nth off j : nth j (opp off) 0 = - nth j off 0.
  Proof using Type. clear. unfold opp. change 0 with (- 0) at 1. apply map_nth. Qed.

  Lemma exposes_ok G F w : wholds G F w -> exposes G st w.
  Proof using Hg Hn Hb Hoff.
    intros (Hl & Hw) f off c Hf Hst (j0 & Hj0). apply In_nth_error in Hf as (i & Hi). destruct (Hw i f Hi) as ((H & _ & Hp) & _).
    assert (Hs : In (opp off) (sides_of st)).
    { apply in_sides. exists off, c. split; auto. split; auto. destruct (nonzero off) eqn:E; auto.
      exfalso. apply Hj0. apply nonzero_false; auto. }
    destruct (Hp _ Hs) as (dst & E). exists dst. change (map Z.opp off) with (opp off). rewrite E. do 2 f_equal. unfold wfield.
    pose proof (proj1 (proj1 (Hoff off c Hst))) as Lo.
    rewrite (fo_lo _ _ _ _ _ _ _ _ _ H), (fo_hi _ _ _ _ _ _ _ _ _ H).
    assert (Hbl : forall r, length (blo r) = length off) by (intros; rewrite (blo_length dims n b); auto).
    assert (Hbh : forall r, length (bhi r) = length off) by (intros; rewrite (bhi_length dims n b); auto).
    f_equal. unfold nested_loops. f_equal.
    - apply (nth_ext' 0); unfold wlo; rewrite vec_length; [rewrite (proj1 (border_lengths off _ _ (Hbl _) (Hbh _))); auto|].
      intros j Hj. rewrite vec_nth, border_lo_nth, opp_nth by (auto; lia).
      destruct (0 <? - nth j off 0) eqn:E1, (nth j off 0 <? 0) eqn:E2; auto;
        rewrite ?Z.ltb_lt, ?Z.ltb_ge in *; lia.
    - apply (nth_ext' 0); unfold whi; rewrite vec_length; [rewrite (proj2 (border_lengths off _ _ (Hbl _) (Hbh _))); auto|].
      intros j Hj. rewrite vec_nth, border_hi_nth, opp_nth by (auto; lia).
      destruct (- nth j off 0 <? 0) eqn:E1, (0 <? nth j off 0) eqn:E2; auto;
        rewrite ?Z.ltb_lt, ?Z.ltb_ge in *; lia.
  Qed.

  Lemma position_ok f g :
    length xmins = nd -> length xmaxs = nd ->
    f_ndims f = vlen dims -> f_globalDims f = dims -> f_xmins f = xmins -> f_xmaxs f = xmaxs -> in_grid dims g ->
    filter_getPosition ar f g = Ok (centre ar dims xmins xmaxs g).
  Proof using Type.
    clear. intros L0 L1 E1 E2 E3 E4 Hgr. apply in_grid_nth in Hgr as [L _]. unfold filter_getPosition.
    rewrite E1, E2, E3, E4.
    assert (Lc : length (centre ar dims xmins xmaxs g) = nd).
    { unfold centre. rewrite map_length, !combine_length. lia. }
    apply (tab_eqD (a_zero ar) (centre ar dims xmins xmaxs g)); [unfold vlen; lia|].
    intros j Hj. rewrite Lc in Hj.
    rewrite (vget_nat xmaxs j (a_zero ar)), (vget_nat xmins j (a_zero ar)), (vget_nat dims j 0), (vget_nat g j 0) by lia.
    cbn [bind]. f_equal. symmetry. unfold centre.
    set (h := fun p : Z * D * D * Z => _). 
    erewrite nth_error_nth; [reflexivity|]. rewrite nth_error_map.
    rewrite (nth_error_nth' _ (0, a_zero ar, a_zero ar, 0)) by (rewrite !combine_length; lia).
    rewrite !combine_nth by (rewrite ?combine_length; lia). reflexivity.
  Qed.

  Lemma localSums_eq F w (input : bool) : wfok F w ->
    world_localSums ar w input =
    Ok (map (fun f => fold_left (a_add ar) (if input then f_inData f else f_outData f) (a_zero ar)) w).
  Proof using Hg Hn Hb.
    intros (Hl & Hw). unfold world_localSums. apply mapM_ok. intros f Hf. apply In_nth_error in Hf as (i & Hi).
    destruct (Hw i f Hi) as (H & _).
    destruct (localSum_ok ar dims n b st xmins xmaxs Hg Hn Hb (Z.of_nat i) f input _ H eq_refl) as (k & ->). reflexivity.
  Qed.

  Lemma inData_eq G F F' w w' : wholds G F w -> wholds G F' w' -> map f_inData w = map f_inData w'.
  Proof using Hg Hn Hb.
    intros (Hl & Hw) (Hl' & Hw'). apply (nth_ext' []); [rewrite !map_length; congruence|].
    intros i Hi. rewrite map_length in Hi.
    destruct (nth_error w i) as [f|] eqn:E; [|apply nth_error_None in E; lia].
    destruct (nth_error w' i) as [f'|] eqn:E'; [|apply nth_error_None in E'; lia].
    rewrite (nth_error_nth (map f_inData w) i [] (map_nth_error f_inData _ _ E)).
    rewrite (nth_error_nth (map f_inData w') i [] (map_nth_error f_inData _ _ E')).
    destruct (Hw i f E) as ((_ & -> & _) & _). destruct (Hw' i f' E') as ((_ & -> & _) & _). reflexivity.
  Qed.

  Hypothesis Hwraps : forall off w, In (off, w) st -> wraps dims off.

  Lemma reads_ok {A} (body : filter D -> res (A * filter D)) G F w :
    (forall r f, 0 <= r < n -> fok r (sides_of st) f -> exists a k, body f = Ok (a, set_mit f (mai_of (blo r) (bhi r) false k))) ->
    wholds G F w -> exists w', mapM (fun f => ' (_, f) <- body f ;; Ok f) w = Ok w' /\ wholds G F w'.
  Proof using Hn.
    intros Hbody (Hl & Hw).
    destruct (mapM_exists (fun f => ' (_, f) <- body f ;; Ok f)
       (fun i f => rank_holds dims n b st xmins xmaxs (Z.of_nat i) G f /\ f_outData f = map F (cells (Z.of_nat i))) w) as (w' & E & Hl' & Hw').
    - intros i f Hi. destruct (Hw i f Hi) as ((H1 & H2 & H3) & H4). pose proof (rank_in n Hn w i f Hl Hi) as Hr.
      destruct (Hbody _ f Hr H1) as (a & k & ->). cbn [bind]. eexists. split; [reflexivity|]. split; [|exact H4].
      split; [apply set_mit_fok; auto|]. split; [exact H2|]. intros s Hs. apply (H3 s Hs).
    - exists w'. split; [exact E|]. split; [congruence|]. intros i f Hi. apply (Hw' i f Hi).
  Qed.

  Lemma run_op_ok o G F w :
    (forall u, o = SetByPosition u -> length xmins = nd /\ length xmaxs = nd) ->
    wholds G F w -> exists w', run_op ar o w = Ok w' /\
      wholds (fst (meaning ar dims xmins xmaxs st o (G, F))) (snd (meaning ar dims xmins xmaxs st o (G, F))) w'.
  Proof using Hg Hn Hb Hoff Hwraps.
    intros Hx HG. pose proof (wholds_wfok _ _ _ _ _ _ _ _ _ HG) as HF. destruct o as [u|G'| | |i|i]; cbn [run_op meaning fst snd].
    - destruct (Hx u eq_refl) as (L0 & L1).
      apply (world_set_ok ar dims n b st xmins xmaxs Hg Hn Hb F u (centre ar dims xmins xmaxs) w HF).
      intros. apply position_ok; auto.
    - apply (world_setByIndices_ok ar dims n b st xmins xmaxs Hg Hn Hb F G' w HF).
    - destruct (world_apply_ok ar dims n b st xmins xmaxs Hg Hn Hb (fun o c H => proj1 (Hoff o c H)) G F w) as (w' & E & Hw'); auto.
      { intros off c H. apply reaches_wraps; auto. apply (Hoff _ _ H). apply (Hwraps _ _ H). }
      exists w'. split; [exact E|]. apply (wholds_ext G G (code_sum ar dims st G) (stencil_sum ar dims st G) w'); auto.
      intros g Hgr. apply (code_sum_eq ar dims n b st Hg Hn Hb (fun o c H => proj1 (Hoff o c H))); auto.
    - destruct (world_copy_ok ar dims n b st xmins xmaxs Hg Hn Hb F w HF) as (w' & E & Hw' & _). eauto.
    - apply reads_ok; auto. intros r f Hr Hf. destruct (localSum_ok ar dims n b st xmins xmaxs Hg Hn Hb r f i _ Hf eq_refl) as (k & ->). eauto.
    - apply reads_ok; auto. intros r f Hr Hf. destruct (print_ok ar dims n b st xmins xmaxs Hg Hn Hb r f i _ Hf eq_refl) as (k & ->). eauto.
  Qed.

  Definition final (ops : list (op D)) (GF : (list Z -> D) * (list Z -> D)) := fold_left (fun s o => meaning ar dims xmins xmaxs st o s) ops GF.

  Lemma run_ok ops : forall G F w,
    (forall u, In (SetByPosition u) ops -> length xmins = nd /\ length xmaxs = nd) ->
    wholds G F w -> exists w', run ar ops w = Ok w' /\ wholds (fst (final ops (G, F))) (snd (final ops (G, F))) w'.
  Proof using Hg Hn Hb Hoff Hwraps.
    unfold run. induction ops as [|o ops IH]; intros G F w Hx HG.
    - exists w. split; [reflexivity|exact HG].
    - destruct (run_op_ok o G F w) as (w1 & E & H1); [intros u ->; apply (Hx u); left; auto|exact HG|].
      cbn [for_each]. rewrite E. cbn [bind].
      destruct (IH _ _ w1 (fun u H => Hx u (or_intror H)) H1) as (w2 & E2 & H2). exists w2. split; [exact E2|].
      unfold final in *. cbn [fold_left]. destruct (meaning ar dims xmins xmaxs st o (G, F)); exact H2.
  Qed.

  (** A program that begins by setting the data, from the constructor on. *)
  Lemma start_ok o ops :
    cd_build cd_empty n dims = Ok (true, cube_of n dims b 0) ->
    sets o -> (forall u, In (SetByPosition u) (o :: ops) -> length xmins = nd /\ length xmaxs = nd) ->
    exists w0 w, world_new ar n dims xmins xmaxs st = Ok w0 /\ wfok (fun _ => a_zero ar) w0 /\ run ar (o :: ops) w0 = Ok w /\
      wholds (fst (final (o :: ops) (fun _ => a_zero ar, fun _ => a_zero ar))) (snd (final (o :: ops) (fun _ => a_zero ar, fun _ => a_zero ar))) w.
  Proof using Hg Hn Hb Hmap Hoff Hwraps.
    intros Hbuild Hs Hx. destruct (world_new_ok ar dims n b st xmins xmaxs Hg Hn Hb Hmap (fun o c H => proj1 (Hoff o c H)) Hbuild) as (w0 & E0 & H0 & _).
    exists w0.
    assert (H1 : exists w1, run_op ar o w0 = Ok w1 /\ wholds (fst (meaning ar dims xmins xmaxs st o (fun _ => a_zero ar, fun _ => a_zero ar)))
        (snd (meaning ar dims xmins xmaxs st o (fun _ => a_zero ar, fun _ => a_zero ar))) w1).
    { destruct o as [u|G'| | |i|i]; try contradiction; cbn [run_op meaning fst snd].
      - destruct (Hx u (or_introl eq_refl)) as (L0 & L1).
        apply (world_set_ok ar dims n b st xmins xmaxs Hg Hn Hb _ u (centre ar dims xmins xmaxs) w0 H0).
        intros. apply position_ok; auto.
      - apply (world_setByIndices_ok ar dims n b st xmins xmaxs Hg Hn Hb _ G' w0 H0). }
    destruct H1 as (w1 & E1 & H1). 
    destruct (run_ok ops _ _ w1 (fun u H => Hx u (or_intror H)) H1) as (w2 & E2 & H2).
    exists w2. split; [exact E0|]. split; [exact H0|]. split.
    - unfold run in *. cbn [for_each]. rewrite E1. cbn [bind]. exact E2.
    - unfold final in *. cbn [fold_left]. destruct (meaning ar dims xmins xmaxs st o _); exact H2.
  Qed.
End Prog.
