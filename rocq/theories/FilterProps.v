(** * Properties C26-C35, C37, C38: the Filter class *)
From Coq Require Import Sorted Permutation Ring_theory InitialRing.
From Verif Require Import Cpp CppProof OMap MaiModel MaiSpec Radix MaiProof CdModel CdSpec CdProof CdProps
  FilterModel FilterSpec FilterProof FilterRank FilterWorld FilterSum FilterProg.
Local Open Scope Z_scope.
Local Arguments prodZ : simpl never.
Local Arguments Z.of_nat : simpl never.

(** ** Vocabulary of the statements *)

(** The circumstances in which a filter can be used. *)
Definition setting {D} (sz : Z) (dims : list Z) (xmins xmaxs : list D) (st : list (list Z * D)) : Prop :=
  grid_ok dims /\ 1 <= sz <= 2 ^ 30 /\ decomposable sz dims /\
  length xmins = length dims /\ length xmaxs = length dims /\ axis_stencil dims st.

(** The filters of all ranks after any program that begins by setting the input. *)
Definition used {D} (ar : arith D) sz dims xmins xmaxs st (w : list (filter D)) : Prop :=
  exists o ops w0, sets o /\ world_new ar sz dims xmins xmaxs st = Ok w0 /\ run ar (o :: ops) w0 = Ok w.

(** The same or just constructed. *)
Definition alive {D} (ar : arith D) sz dims xmins xmaxs st (w : list (filter D)) : Prop :=
  world_new ar sz dims xmins xmaxs st = Ok w \/ (periodic_stencil dims st /\ used ar sz dims xmins xmaxs st w).

(** ** From the hypotheses of the statements to those of the proofs *)

Lemma build_of n dims : grid_ok dims -> 1 <= n <= 2 ^ 30 -> decomposable n dims ->
  exists b, is_decomp n dims b /\ cd_build cd_empty n dims = Ok (true, cube_of n dims b 0).
Proof.
  intros Hg Hn Hd. destruct (C05_build_iff_decomposition_exists cd_empty n dims Hg ltac:(lia)) as (ok & c & E & H).
  rewrite (proj2 H Hd) in E. destruct (cd_build_true cd_empty n dims c Hg ltac:(unfold two31; lia) E) as (b & Hb & ->). eauto.
Qed.

Lemma axis_good {D} dims b (st : list (list Z * D)) : axis_stencil dims st ->
  is_map st /\ forall off w, In (off, w) st -> good_off dims b off.
Proof. intros (H1 & H2). split; auto. intros off w H. destruct (H2 off w H). split; auto. Qed.

Lemma distributed_unique {D} dims (F F' : list Z -> D) p :
  distributed dims F p -> distributed dims F' p -> forall g, in_grid dims g -> F g = F' g.
Proof.
  intros ((_ & H1) & H2) (_ & H3) g Hgr. destruct (H1 g Hgr) as (i & (lo & hi & E & Hbox) & _).
  rewrite nth_error_map in E. destruct (nth_error p i) as [[[lo' hi'] data]|] eqn:Ei; [|discriminate].
  inversion E; subst lo' hi'. apply nth_error_In in Ei. pose proof (H2 _ _ _ Ei) as E1. rewrite (H3 _ _ _ Ei) in E1.
  assert (In g (col_major lo hi)).
  { change (In g (nested_loops false lo hi)). apply in_nested_loops; [|exact Hbox]. destruct Hbox as (A & B & _). congruence. }
  clear - E1 H. induction (col_major lo hi) as [|h l IH]; [destruct H|]. inversion E1. destruct H as [<-|H]; auto.
Qed.

Section Inv.
  Context {D : Type} (ar : arith D) (dims : list Z) (n : Z) (xmins xmaxs : list D) (st : list (list Z * D)).
  Hypothesis Hs : setting n dims xmins xmaxs st.

  Lemma new_inv : exists b w, is_decomp n dims b /\ cd_build cd_empty n dims = Ok (true, cube_of n dims b 0) /\
    world_new ar n dims xmins xmaxs st = Ok w /\ wfok dims n b st xmins xmaxs (fun _ => a_zero ar) w /\
    forall i f, nth_error w i = Some f -> f_inData f = map (fun _ => a_zero ar) (col_major (beg_of dims b (Z.of_nat i)) (end_of dims b (Z.of_nat i))).
  Proof using Hs.
    destruct Hs as (Hg & Hn & Hd & L0 & L1 & Hst). destruct (build_of n dims Hg Hn Hd) as (b & Hb & Eb).
    destruct (axis_good dims b st Hst) as (Hmap & Hoff).
    destruct (world_new_ok ar dims n b st xmins xmaxs Hg Hn Hb Hmap (fun o c H => proj1 (Hoff o c H)) Eb) as (w & E & H & Hi).
    exists b, w. auto.
  Qed.

  Lemma start_inv o ops : periodic_stencil dims st -> sets o ->
    exists b w0 w, is_decomp n dims b /\ world_new ar n dims xmins xmaxs st = Ok w0 /\ run ar (o :: ops) w0 = Ok w /\
      wholds dims n b st xmins xmaxs
        (fst (final ar dims st xmins xmaxs (o :: ops) (fun _ => a_zero ar, fun _ => a_zero ar)))
        (snd (final ar dims st xmins xmaxs (o :: ops) (fun _ => a_zero ar, fun _ => a_zero ar))) w.
  Proof using Hs.
    intros Hp Ho. destruct Hs as (Hg & Hn & Hd & L0 & L1 & Hst). destruct (build_of n dims Hg Hn Hd) as (b & Hb & Eb).
    destruct (axis_good dims b st Hst) as (Hmap & Hoff).
    destruct (start_ok ar dims n b st xmins xmaxs Hg Hn Hb Hmap Hoff Hp o ops Eb Ho (fun _ _ => conj L0 L1)) as (w0 & w & E & _ & E' & H).
    exists b, w0, w. auto.
  Qed.

  Lemma used_inv w : periodic_stencil dims st -> used ar n dims xmins xmaxs st w ->
    exists b G F, is_decomp n dims b /\ wholds dims n b st xmins xmaxs G F w.
  Proof using Hs.
    intros Hp (o & ops & w0 & Ho & E & E'). destruct (start_inv o ops Hp Ho) as (b & w0' & w' & Hb & E1 & E2 & H).
    rewrite E in E1. inversion E1; subst w0'. rewrite E' in E2. inversion E2; subst w'. eauto.
  Qed.

  Lemma alive_inv w : alive ar n dims xmins xmaxs st w -> exists b F, is_decomp n dims b /\ wfok dims n b st xmins xmaxs F w.
  Proof using Hs.
    intros [E|(Hp & Hu)].
    - destruct new_inv as (b & w' & Hb & _ & E' & H & _). rewrite E in E'. inversion E'; subst. eauto.
    - destruct (used_inv w Hp Hu) as (b & G & F & Hb & H). exists b, F. split; auto. apply (wholds_wfok _ _ _ _ _ _ G); auto.
  Qed.

  Lemma used_step o w w' : periodic_stencil dims st -> used ar n dims xmins xmaxs st w -> run_op ar o w = Ok w' ->
    used ar n dims xmins xmaxs st w'.
  Proof using Type.
    clear Hs. intros Hp (o0 & ops & w0 & Ho & E & E') E1. exists o0, (ops ++ [o]), w0. split; auto. split; auto.
    unfold run in *. change (o0 :: ops ++ [o]) with ((o0 :: ops) ++ [o]). revert E'. generalize w0. generalize (o0 :: ops). clear - E1.
    induction l as [|a l IH]; intros w0 E; cbn [for_each app] in *.
    - inversion E; subst. rewrite E1. reflexivity.
    - destruct (run_op ar a w0); cbn [bind] in *; [auto|discriminate].
  Qed.
End Inv.

(** Integers as data, used in the examples and the counterexamples. *)
Definition arZ : arith Z := mkArith Z 0 1 (fun z => z) (fun m e => m / 10 ^ e) Z.add Z.sub Z.mul Z.div Z.opp Z.ltb (2 ^ 62).
Example arZ_exact : exact_arith arZ.
Proof. exact Zth. Qed.

(** The stencil of a first difference along both axes of an 8 x 4 grid. *)
Definition ex_st : list (list Z * Z) := [([-1; 0], 3); ([0; 0], -5); ([0; 1], 7)].
Definition ex_g : list Z := [8; 4].
Example ex_setting : setting 4 ex_g [0; 0] [1; 1] ex_st /\ periodic_stencil ex_g ex_st.
Proof.
  split.
  - split; [|split; [lia|split]].
    + split; [discriminate|]. split; [simpl; lia|]. split; [|reflexivity]. intros [|[|j]] Hj; simpl in *; lia.
    + exists [4; 1]. split; [reflexivity|]. split; [|reflexivity]. intros [|[|j]] Hj; simpl in *; try lia; split; try lia; [exists 2|exists 4]; lia.
    + split; [reflexivity|]. split; [reflexivity|]. split.
      * repeat constructor.
      * intros off w [E|[E|[E|[]]]]; inversion E; subst; (split; [split; [reflexivity|]; intros [|[|j]] Hj; simpl in *; lia|]);
          intros [|[|i]] [|[|j]]; simpl; try lia; try (destruct i; lia); try (destruct j; lia).
  - intros off w [E|[E|[E|[]]]]; inversion E; subst; intros [|[|j]] Hj Hneg; simpl in *; try lia. exists (2 ^ 61). reflexivity.
Qed.

(** ** C26 *)
Theorem C26_constructor :
  forall D (ar : arith D) sz dims xmins xmaxs st rk,
    grid_ok dims -> 1 <= sz <= 2 ^ 30 -> axis_stencil dims st -> 0 <= rk < sz ->
    exists f, filter_new ar rk sz dims xmins xmaxs st = Ok f /\
      (filter_isDecompValid f = true <-> decomposable sz dims) /\
      filter_getRank f = rk /\ filter_getNumProcs f = sz /\
      (forall c, cd_build cd_empty sz dims = Ok (true, c) ->
         box_of_rank c rk (f_lo f) (f_hi f) /\
         f_inData f = map (fun _ => a_zero ar) (col_major (f_lo f) (f_hi f)) /\
         f_outData f = map (fun _ => a_zero ar) (col_major (f_lo f) (f_hi f)) /\
         Z.of_nat (length (f_inData f)) * sz = prodZ dims) /\
      (~ decomposable sz dims -> f_inData f = [] /\ f_outData f = []).
Proof.
  intros D ar n dims xmins xmaxs st rk Hg Hn Hst Hrk.
  destruct (C05_build_iff_decomposition_exists cd_empty n dims Hg ltac:(lia)) as (ok & c & E & H). destruct ok.
  - destruct (cd_build_true cd_empty n dims c Hg ltac:(unfold two31; lia) E) as (b & Hb & ->).
    destruct (axis_good dims b st Hst) as (Hmap & Hoff).
    destruct (new_ok ar dims n b st xmins xmaxs Hg Hn Hb Hmap (fun o c H => proj1 (Hoff o c H)) rk Hrk E) as (f & Ef & Hf & Hi & Ho).
    exists f. split; [exact Ef|]. split.
    { unfold filter_isDecompValid. rewrite (fo_valid _ _ _ _ _ _ _ _ _ Hf). tauto. }
    split; [apply Hf|]. split; [apply Hf|]. split.
    + intros c Ec. rewrite E in Ec. inversion Ec; subst c.
      rewrite (fo_lo _ _ _ _ _ _ _ _ _ Hf), (fo_hi _ _ _ _ _ _ _ _ _ Hf). split.
      { apply box_of_rank_of; auto. unfold two31; lia. }
      split; [exact Hi|]. split; [exact Ho|].
      rewrite Hi, map_length, loops_length by (apply (box_good dims n b); auto).
      rewrite (box_extents dims n b) by auto. pose proof (local_prod_range dims n b Hg Hn Hb).
      rewrite Z2Nat.id by lia. pose proof (local_dims_prod n dims b Hb). lia.
    + intros Hnd. exfalso. apply Hnd. exists b. exact Hb.
  - unfold filter_new. rewrite E. cbn [bind negb]. eexists. split; [reflexivity|]. split; [exact H|]. split; [reflexivity|].
    split; [reflexivity|]. split; [intros c' Ec; discriminate|]. auto.
Qed.
Print Assumptions C26_constructor.

(** All ranks together: the boxes tile the grid. *)
Theorem C26_storage_tiles :
  forall D (ar : arith D) sz dims xmins xmaxs st,
    setting sz dims xmins xmaxs st ->
    exists w, world_new ar sz dims xmins xmaxs st = Ok w /\ length w = Z.to_nat sz /\
      distributed dims (fun _ => a_zero ar) (in_pieces w) /\ distributed dims (fun _ => a_zero ar) (out_pieces w).
Proof.
  intros D ar n dims xmins xmaxs st Hs. destruct (new_inv ar dims n xmins xmaxs st Hs) as (b & w & Hb & _ & E & H & Hi).
  destruct Hs as (Hg & Hn & _). pose proof (out_ok dims n b st xmins xmaxs Hg Hn Hb _ w H) as Ho.
  exists w. split; [exact E|]. split; [apply H|]. split; [|exact Ho]. split.
  - unfold in_pieces. rewrite map_map. cbn [fst]. apply (tiling_ok dims n b st xmins xmaxs Hg Hn Hb _ w H).
  - intros lo hi data Hin. apply in_map_iff in Hin as (f & E' & Hf). inversion E'; subst. apply In_nth_error in Hf as (i & Hf).
    rewrite (Hi i f Hf). destruct H as (_ & H). destruct (H i f Hf) as (H' & _).
    rewrite (fo_lo _ _ _ _ _ _ _ _ _ H'), (fo_hi _ _ _ _ _ _ _ _ _ H'). reflexivity.
Qed.
Print Assumptions C26_storage_tiles.

Example C26_example :
  (w <- world_new arZ 4 ex_g [0; 0] [1; 1] ex_st ;; Ok (map (fun f => (f_lo f, f_hi f, vlen (f_inData f))) w)) =
  Ok [([0; 0], [4; 2], 8); ([0; 2], [4; 4], 8); ([4; 0], [8; 2], 8); ([4; 2], [8; 4], 8)].
Proof. vm_compute. reflexivity. Qed.

(** ** C27 *)
Theorem C27_set_by_indices :
  forall D (ar : arith D) sz dims xmins xmaxs st w G,
    setting sz dims xmins xmaxs st -> alive ar sz dims xmins xmaxs st w ->
    exists w', world_setInDataByIndices w G = Ok w' /\
      distributed dims G (in_pieces w') /\ exposes G st w' /\
      (forall F, distributed dims F (out_pieces w) -> distributed dims F (out_pieces w')).
Proof.
  intros D ar n dims xmins xmaxs st w G Hs Ha. destruct (alive_inv ar dims n xmins xmaxs st Hs w Ha) as (b & F & Hb & H).
  destruct Hs as (Hg & Hn & _ & _ & _ & Hst). destruct (axis_good dims b st Hst) as (Hmap & Hoff).
  destruct (world_setByIndices_ok ar dims n b st xmins xmaxs Hg Hn Hb F G w H) as (w' & E & Hw').
  exists w'. split; [exact E|]. split; [apply (in_ok dims n b st xmins xmaxs Hg Hn Hb G F); auto|].
  split; [apply (exposes_ok dims n b st xmins xmaxs Hg Hn Hb Hoff G F); auto|].
  intros F' HF'. apply (out_ok dims n b st xmins xmaxs Hg Hn Hb).
  apply (wfok_ext dims n b st xmins xmaxs Hg Hn Hb F); [|apply (wholds_wfok _ _ _ _ _ _ G); auto].
  intros g Hgr. apply (distributed_unique dims _ _ (out_pieces w)); auto. apply (out_ok dims n b st xmins xmaxs Hg Hn Hb); auto.
Qed.
Print Assumptions C27_set_by_indices.

Theorem C27_set_by_position :
  forall D (ar : arith D) sz dims xmins xmaxs st w u,
    setting sz dims xmins xmaxs st -> alive ar sz dims xmins xmaxs st w ->
    exists w', world_setInData ar w u = Ok w' /\
      distributed dims (fun g => u (centre ar dims xmins xmaxs g)) (in_pieces w') /\
      exposes (fun g => u (centre ar dims xmins xmaxs g)) st w' /\
      (forall F, distributed dims F (out_pieces w) -> distributed dims F (out_pieces w')).
Proof.
  intros D ar n dims xmins xmaxs st w u Hs Ha. destruct (alive_inv ar dims n xmins xmaxs st Hs w Ha) as (b & F & Hb & H).
  destruct Hs as (Hg & Hn & _ & L0 & L1 & Hst). destruct (axis_good dims b st Hst) as (Hmap & Hoff).
  destruct (world_set_ok ar dims n b st xmins xmaxs Hg Hn Hb F u (centre ar dims xmins xmaxs) w H) as (w' & E & Hw').
  { intros. apply position_ok; auto. }
  set (G := fun g => u (centre ar dims xmins xmaxs g)) in *.
  exists w'. split; [exact E|]. split; [apply (in_ok dims n b st xmins xmaxs Hg Hn Hb G F); auto|].
  split; [apply (exposes_ok dims n b st xmins xmaxs Hg Hn Hb Hoff G F); auto|].
  intros F' HF'. apply (out_ok dims n b st xmins xmaxs Hg Hn Hb).
  apply (wfok_ext dims n b st xmins xmaxs Hg Hn Hb F); [|apply (wholds_wfok _ _ _ _ _ _ G); auto].
  intros g Hgr. apply (distributed_unique dims _ _ (out_pieces w)); auto. apply (out_ok dims n b st xmins xmaxs Hg Hn Hb); auto.
Qed.
Print Assumptions C27_set_by_position.

(** The border layer exposed for a displacement: exactly the cells of the box that the displacement
    enters from outside the box. *)
Theorem C27_border_is_what_is_read :
  forall off lo hi,
    unit_offset (length lo) off -> axis_offset off -> length hi = length lo ->
    (exists j, nth j off 0 <> 0) -> (forall j, (j < length lo)%nat -> nth j lo 0 < nth j hi 0) ->
    forall g, in_box (border_lo off lo hi) (border_hi off lo hi) g <->
      in_box lo hi g /\ ~ in_box lo hi (shift g (map Z.opp off)).
Proof.
  intros off lo hi (Lo & Hu) Hax Lh (j0 & Hj0) Hne g.
  destruct (border_lengths off lo hi) as (L1 & L2); [congruence|congruence|].
  assert (Hj0l : (j0 < length lo)%nat).
  { rewrite <- Lo. destruct (lt_dec j0 (length off)); auto. exfalso. apply Hj0. apply nth_overflow. lia. }
  assert (Hz : forall j, j <> j0 -> nth j off 0 = 0).
  { intros j Hj. destruct (Z.eq_dec (nth j off 0) 0); auto. exfalso. apply Hj. apply Hax; auto. }
  assert (Eo : forall j, nth j (map Z.opp off) 0 = - nth j off 0) by (intros j; change 0 with (- 0) at 1; apply map_nth).
  unfold in_box. rewrite L1, L2. split.
  - intros (E1 & E2 & H). split; [split; [congruence|split; [congruence|]]|].
    + intros j Hj. specialize (H j Hj). rewrite border_lo_nth, border_hi_nth in H by lia. specialize (Hne j ltac:(lia)).
      destruct (nth j off 0 <? 0) eqn:A, (0 <? nth j off 0) eqn:B; rewrite ?Z.ltb_lt, ?Z.ltb_ge in *; lia.
    + intros (F1 & F2 & F3). specialize (F3 j0 ltac:(lia)). rewrite shift_nth in F3 by (rewrite ?map_length; lia). rewrite Eo in F3.
      specialize (H j0 ltac:(lia)). rewrite border_lo_nth, border_hi_nth in H by lia. specialize (Hu j0 Hj0l).
      destruct (nth j0 off 0 <? 0) eqn:A, (0 <? nth j0 off 0) eqn:B; rewrite ?Z.ltb_lt, ?Z.ltb_ge in *; lia.
  - intros ((E1 & E2 & H) & Hout). split; [lia|]. split; [lia|]. intros j Hj. rewrite border_lo_nth, border_hi_nth by lia.
    pose proof (H j Hj) as Hjj. destruct (Nat.eq_dec j j0) as [->|Hjne].
    + assert (Hnb : ~ (nth j0 lo 0 <= nth j0 g 0 - nth j0 off 0 < nth j0 hi 0)).
      { intros Hin. apply Hout. assert (length (shift g (map Z.opp off)) = length g) by (apply shift_length; rewrite map_length; lia).
        split; [congruence|]. split; [congruence|]. intros i Hi. rewrite shift_nth by (rewrite ?map_length; lia). rewrite Eo.
        destruct (Nat.eq_dec i j0) as [->|Hi']; [lia|]. rewrite Hz by auto. specialize (H i ltac:(lia)). lia. }
      specialize (Hu j0 Hj0l).
      destruct (nth j0 off 0 <? 0) eqn:A, (0 <? nth j0 off 0) eqn:B; rewrite ?Z.ltb_lt, ?Z.ltb_ge in *; lia.
    + rewrite Hz by auto. simpl. lia.
Qed.
Print Assumptions C27_border_is_what_is_read.

Example C27_example :
  (w <- world_new arZ 4 ex_g [0; 0] [1; 1] ex_st ;;
   w <- world_setInDataByIndices w (fun g => 10 * nth 0 g 0 + nth 1 g 0) ;;
   f <- vget w 2 ;;
   Ok (f_inData f, map (fun p => (fst p, fst (snd p))) (f_winData f))) =
  Ok ([40; 50; 60; 70; 41; 51; 61; 71],
      [([0; -1], [Some 40; Some 50; Some 60; Some 70]); ([1; 0], [Some 70; Some 71])]).
Proof. vm_compute. reflexivity. Qed.

(** ** C28 *)
Theorem C28_parallel_equals_serial :
  forall D (ar : arith D) sz dims xmins xmaxs st w G,
    setting sz dims xmins xmaxs st -> periodic_stencil dims st ->
    used ar sz dims xmins xmaxs st w -> distributed dims G (in_pieces w) ->
    exists w', world_apply ar w = Ok w' /\
      distributed dims (stencil_sum ar dims st G) (out_pieces w') /\
      distributed dims G (in_pieces w') /\ exposes G st w'.
Proof.
  intros D ar n dims xmins xmaxs st w G Hs Hp Hu HG. destruct (used_inv ar dims n xmins xmaxs st Hs w Hp Hu) as (b & G' & F & Hb & H).
  destruct Hs as (Hg & Hn & _ & L0 & L1 & Hst). destruct (axis_good dims b st Hst) as (Hmap & Hoff).
  assert (HGG : forall g, in_grid dims g -> G' g = G g).
  { apply (distributed_unique dims _ _ (in_pieces w)); auto. apply (in_ok dims n b st xmins xmaxs Hg Hn Hb G' F); auto. }
  apply (wholds_ext dims n b st xmins xmaxs Hg Hn Hb G' G F F) in H; auto.
  destruct (run_op_ok ar dims n b st xmins xmaxs Hg Hn Hb Hoff Hp Apply G F w) as (w' & E & Hw'); [discriminate|exact H|].
  cbn [meaning fst snd run_op] in E, Hw'. exists w'. split; [exact E|].
  split; [apply (out_ok dims n b st xmins xmaxs Hg Hn Hb); apply (wholds_wfok _ _ _ _ _ _ G); auto|].
  split; [apply (in_ok dims n b st xmins xmaxs Hg Hn Hb G (stencil_sum ar dims st G)); auto|].
  apply (exposes_ok dims n b st xmins xmaxs Hg Hn Hb Hoff G (stencil_sum ar dims st G)); auto.
Qed.
Print Assumptions C28_parallel_equals_serial.

(** Every program: construction succeeds, no call has undefined behaviour, and the distributed fields are
    those obtained by interpreting the program on the whole grid. *)
Theorem C28_programs :
  forall D (ar : arith D) sz dims xmins xmaxs st o ops,
    setting sz dims xmins xmaxs st -> periodic_stencil dims st -> sets o ->
    exists w0 w, world_new ar sz dims xmins xmaxs st = Ok w0 /\ run ar (o :: ops) w0 = Ok w /\
      let '(G, F) := fold_left (fun s o => meaning ar dims xmins xmaxs st o s) (o :: ops) (fun _ => a_zero ar, fun _ => a_zero ar) in
      distributed dims G (in_pieces w) /\ distributed dims F (out_pieces w) /\ exposes G st w.
Proof.
  intros D ar n dims xmins xmaxs st o ops Hs Hp Ho. destruct (start_inv ar dims n xmins xmaxs st Hs o ops Hp Ho) as (b & w0 & w & Hb & E & E' & H).
  destruct Hs as (Hg & Hn & _ & L0 & L1 & Hst). destruct (axis_good dims b st Hst) as (Hmap & Hoff).
  exists w0, w. split; [exact E|]. split; [exact E'|]. unfold final in H. destruct (fold_left _ (o :: ops) _) as [G F]. cbn [fst snd] in H.
  split; [apply (in_ok dims n b st xmins xmaxs Hg Hn Hb G F); auto|].
  split; [apply (out_ok dims n b st xmins xmaxs Hg Hn Hb); apply (wholds_wfok _ _ _ _ _ _ G); auto|].
  apply (exposes_ok dims n b st xmins xmaxs Hg Hn Hb Hoff G F); auto.
Qed.
Print Assumptions C28_programs.

(** Displacements that also move along undivided axes: any unit displacement is allowed along axes that
    have one process. *)
Theorem C28_undivided_axes :
  forall D (ar : arith D) sz dims xmins xmaxs st c G,
    grid_ok dims -> 1 <= sz <= 2 ^ 30 -> cd_build cd_empty sz dims = Ok (true, c) -> is_map st ->
    (forall off w, In (off, w) st -> unit_offset (length dims) off /\
       (axis_offset off \/ forall j, nth j off 0 <> 0 -> nth j (cd_getDecomp c) 0 = 1)) ->
    periodic_stencil dims st ->
    exists w0 w1 w2, world_new ar sz dims xmins xmaxs st = Ok w0 /\ world_setInDataByIndices w0 G = Ok w1 /\
      world_apply ar w1 = Ok w2 /\ distributed dims (stencil_sum ar dims st G) (out_pieces w2).
Proof.
  intros D ar n dims xmins xmaxs st c G Hg Hn E Hmap Hoff Hp.
  destruct (cd_build_true cd_empty n dims c Hg ltac:(unfold two31; lia) E) as (b & Hb & ->). change (cd_getDecomp (cube_of n dims b 0)) with b in Hoff.
  destruct (world_new_ok ar dims n b st xmins xmaxs Hg Hn Hb Hmap (fun o c H => proj1 (Hoff o c H)) E) as (w0 & E0 & H0 & _).
  destruct (world_setByIndices_ok ar dims n b st xmins xmaxs Hg Hn Hb _ G w0 H0) as (w1 & E1 & H1).
  destruct (run_op_ok ar dims n b st xmins xmaxs Hg Hn Hb Hoff Hp Apply G (fun _ => a_zero ar) w1) as (w2 & E2 & H2); [discriminate|exact H1|].
  exists w0, w1, w2. split; auto. split; auto. split; [exact E2|].
  apply (out_ok dims n b st xmins xmaxs Hg Hn Hb). apply (wholds_wfok _ _ _ _ _ _ _ _ _ H2).
Qed.
Print Assumptions C28_undivided_axes.

Example C28_example :
  (w <- world_new arZ 4 ex_g [0; 0] [1; 1] ex_st ;;
   w <- run arZ [SetByIndices (fun g => 10 * nth 0 g 0 + nth 1 g 0); Apply] w ;;
   Ok (map f_outData w)) =
  Ok (map (fun p => map (stencil_sum arZ ex_g ex_st (fun g => 10 * nth 0 g 0 + nth 1 g 0)) (col_major (fst p) (snd p)))
       [([0; 0], [4; 2]); ([0; 2], [4; 4]); ([4; 0], [8; 2]); ([4; 2], [8; 4])]).
Proof. vm_compute. reflexivity. Qed.

(** ** C29 *)
Theorem C29_process_count_independent :
  forall D (ar : arith D) sz1 sz2 dims xmins xmaxs st o ops,
    setting sz1 dims xmins xmaxs st -> setting sz2 dims xmins xmaxs st -> periodic_stencil dims st -> sets o ->
    exists v0 v w0 w fld,
      world_new ar sz1 dims xmins xmaxs st = Ok v0 /\ run ar (o :: ops) v0 = Ok v /\
      world_new ar sz2 dims xmins xmaxs st = Ok w0 /\ run ar (o :: ops) w0 = Ok w /\
      world_saveVTK ar v = Ok fld /\ world_saveVTK ar w = Ok fld /\ Z.of_nat (length fld) = prodZ dims /\
      (forall F, distributed dims F (out_pieces v) <-> distributed dims F (out_pieces w)) /\
      (forall G, distributed dims G (in_pieces v) <-> distributed dims G (in_pieces w)).
Proof.
  intros D ar n1 n2 dims xmins xmaxs st o ops H1 H2 Hp Ho.
  destruct (start_inv ar dims n1 xmins xmaxs st H1 o ops Hp Ho) as (b & v0 & v & Hb & E & E' & H).
  destruct (start_inv ar dims n2 xmins xmaxs st H2 o ops Hp Ho) as (b' & w0 & w & Hb' & D0 & D' & H').
  set (G := fst (final _ _ _ _ _ _ _)) in *. set (F := snd (final _ _ _ _ _ _ _)) in *.
  destruct H1 as (Hg & Hn1 & _). destruct H2 as (_ & Hn2 & _).
  exists v0, v, w0, w, (map F (nested_loops false (repeat 0 (length dims)) dims)).
  split; auto. split; auto. split; auto. split; auto.
  split; [apply (saveVTK_ok ar dims n1 b st xmins xmaxs Hg Hn1 Hb); apply (wholds_wfok _ _ _ _ _ _ G); auto|].
  split; [apply (saveVTK_ok ar dims n2 b' st xmins xmaxs Hg Hn2 Hb'); apply (wholds_wfok _ _ _ _ _ _ G); auto|].
  split.
  { rewrite map_length, loops_length by (apply (grid_good dims n1 b); auto).
    rewrite grid_extents. pose proof (prodZ_pos dims (grid_allpos dims Hg)). lia. }
  assert (HX : forall (F0 F' : list Z -> D) n b w, 1 <= n <= 2 ^ 30 -> is_decomp n dims b -> wholds dims n b st xmins xmaxs G F w ->
     (distributed dims F' (out_pieces w) <-> forall g, in_grid dims g -> F g = F' g) /\
     (distributed dims F' (in_pieces w) <-> forall g, in_grid dims g -> G g = F' g)).
  { intros _ F' m bb x Hm Hbb Hx. split; split.
    - intros Hd. apply (distributed_unique dims _ _ (out_pieces x)); auto.
      apply (out_ok dims m bb st xmins xmaxs Hg Hm Hbb). apply (wholds_wfok _ _ _ _ _ _ G); auto.
    - intros He. apply (out_ok dims m bb st xmins xmaxs Hg Hm Hbb).
      apply (wfok_ext dims m bb st xmins xmaxs Hg Hm Hbb F); auto. apply (wholds_wfok _ _ _ _ _ _ G); auto.
    - intros Hd. apply (distributed_unique dims _ _ (in_pieces x)); auto. apply (in_ok dims m bb st xmins xmaxs Hg Hm Hbb G F); auto.
    - intros He. apply (in_ok dims m bb st xmins xmaxs Hg Hm Hbb F' F).
      apply (wholds_ext dims m bb st xmins xmaxs Hg Hm Hbb G F' F F); auto. }
  split; intros F'.
  - rewrite (proj1 (HX F F' n1 b v Hn1 Hb H)), (proj1 (HX F F' n2 b' w Hn2 Hb' H')). tauto.
  - rewrite (proj2 (HX F F' n1 b v Hn1 Hb H)), (proj2 (HX F F' n2 b' w Hn2 Hb' H')). tauto.
Qed.
Print Assumptions C29_process_count_independent.

Example C29_example :
  let prog := [SetByPosition (fun x => 3 * nth 0 x 0 - nth 1 x 0); Apply; Copy; Apply] in
  (w <- world_new arZ 8 ex_g [0; 0] [1; 1] ex_st ;; w <- run arZ prog w ;; world_saveVTK arZ w) =
  (w <- world_new arZ 1 ex_g [0; 0] [1; 1] ex_st ;; w <- run arZ prog w ;; world_saveVTK arZ w) /\
  is_ok (w <- world_new arZ 8 ex_g [0; 0] [1; 1] ex_st ;; w <- run arZ prog w ;; world_saveVTK arZ w) = true.
Proof. vm_compute. split; reflexivity. Qed.

(** ** C30 *)
Fixpoint rounds {D} (k : nat) : list (op D) := match k with O => [] | S k => Apply :: Copy :: rounds k end.

Lemma stencil_iter_comm {D} (ar : arith D) k dims st G :
  stencil_iter ar k dims st (stencil_sum ar dims st G) = stencil_sum ar dims st (stencil_iter ar k dims st G).
Proof. induction k as [|k IH]; simpl; [reflexivity|]. rewrite IH. reflexivity. Qed.

Theorem C30_iterates :
  forall D (ar : arith D) sz dims xmins xmaxs st w G k,
    setting sz dims xmins xmaxs st -> periodic_stencil dims st ->
    used ar sz dims xmins xmaxs st w -> distributed dims G (in_pieces w) ->
    exists w', run ar (rounds k) w = Ok w' /\
      distributed dims (stencil_iter ar k dims st G) (in_pieces w') /\
      exposes (stencil_iter ar k dims st G) st w' /\
      ((0 < k)%nat -> distributed dims (stencil_iter ar k dims st G) (out_pieces w')).
Proof.
  intros D ar n dims xmins xmaxs st w G k Hs Hp Hu HG. destruct (used_inv ar dims n xmins xmaxs st Hs w Hp Hu) as (b & G' & F & Hb & H).
  destruct Hs as (Hg & Hn & _ & L0 & L1 & Hst). destruct (axis_good dims b st Hst) as (Hmap & Hoff).
  apply (wholds_ext dims n b st xmins xmaxs Hg Hn Hb G' G F F) in H; auto.
  2:{ apply (distributed_unique dims _ _ (in_pieces w)); auto. apply (in_ok dims n b st xmins xmaxs Hg Hn Hb G' F); auto. }
  destruct (run_ok ar dims n b st xmins xmaxs Hg Hn Hb Hoff Hp (rounds k) G F w (fun _ _ => conj L0 L1) H) as (w' & E & Hw').
  assert (EG : forall k G F, final ar dims st xmins xmaxs (rounds k) (G, F) =
     (stencil_iter ar k dims st G, match k with O => F | _ => stencil_iter ar k dims st G end)).
  { clear. induction k as [|k IH]; intros G F; [reflexivity|]. unfold final in *. cbn [rounds fold_left meaning].
    rewrite IH. rewrite stencil_iter_comm. cbn [stencil_iter]. destruct k; reflexivity. }
  rewrite EG in Hw'. cbn [fst snd] in Hw'. exists w'. split; [exact E|].
  split; [apply (in_ok dims n b st xmins xmaxs Hg Hn Hb) in Hw'; exact Hw'|].
  split; [apply (exposes_ok dims n b st xmins xmaxs Hg Hn Hb Hoff) in Hw'; exact Hw'|].
  intros Hk. destruct k; [lia|]. apply (out_ok dims n b st xmins xmaxs Hg Hn Hb). apply (wholds_wfok _ _ _ _ _ _ _ _ _ Hw').
Qed.
Print Assumptions C30_iterates.

Example C30_example :
  (w <- world_new arZ 4 ex_g [0; 0] [1; 1] ex_st ;;
   w <- run arZ (SetByIndices (fun g => 10 * nth 0 g 0 + nth 1 g 0) :: rounds 3) w ;; f <- vget w 2 ;; Ok (f_inData f)) =
  Ok (map (stencil_iter arZ 3 ex_g ex_st (fun g => 10 * nth 0 g 0 + nth 1 g 0)) (col_major [4; 0] [8; 2])).
Proof. vm_compute. reflexivity. Qed.

(** ** C31 *)

(** The index the code computes: the sum is converted to an unsigned 64-bit integer before the remainder
    is taken. *)
Definition unsigned_wrap (dims v : list Z) : list Z := map (fun p => (fst p mod 2 ^ 64) mod snd p) (combine v dims).

(** On one process: exactly what is computed, for any unit stencil (diagonals included) on any grid. *)
Theorem C31_serial_semantics :
  forall D (ar : arith D) dims xmins xmaxs st G,
    grid_ok dims -> is_map st -> (forall off w, In (off, w) st -> unit_offset (length dims) off) ->
    exists w0 w1 w2, world_new ar 1 dims xmins xmaxs st = Ok w0 /\ world_setInDataByIndices w0 G = Ok w1 /\
      world_apply ar w1 = Ok w2 /\
      distributed dims (fun g => fold_left (fun acc p =>
          a_add ar acc (a_mul ar (snd p) (G (unsigned_wrap dims (shift g (fst p)))))) st (a_zero ar)) (out_pieces w2).
Proof.
  intros D ar dims xmins xmaxs st G Hg Hmap Hu.
  assert (Hd1 : is_decomp 1 dims (repeat 1 (length dims))).
  { split; [apply repeat_length|]. assert (E1 : forall j, (j < length dims)%nat -> nth j (repeat 1 (length dims)) 0 = 1).
    { intros j Hj. rewrite (nth_indep _ 0 1) by (rewrite repeat_length; auto). apply nth_repeat. }
    split; [|clear; induction dims; simpl; [reflexivity|unfold prodZ in *; cbn [fold_right]; lia]].
    intros j Hj. rewrite E1 by auto. split; [lia|]. apply Z.divide_1_l. }
  assert (Hn : 1 <= 1 <= 2 ^ 30) by lia.
  destruct (build_of 1 dims Hg Hn (ex_intro _ _ Hd1)) as (b & Hb & Eb).
  assert (Hb1 : forall j, (j < length dims)%nat -> nth j b 0 = 1).
  { intros j Hj. destruct Hb as (L & P & Q). assert (Hp : allpos b) by (apply allpos_nth; rewrite L; intros i Hi; apply P; auto).
    pose proof (prodZ_ge b j Hp ltac:(lia)). destruct (P j Hj). lia. }
  assert (Hoff : forall off w, In (off, w) st -> good_off dims b off).
  { intros off w H. pose proof (Hu off w H) as HU. split; auto. right. intros j Hj. apply Hb1.
    destruct HU as (<- & _). destruct (lt_dec j (length off)); auto. exfalso. apply Hj, nth_overflow. lia. }
  destruct (world_new_ok ar dims 1 b st xmins xmaxs Hg Hn Hb Hmap (fun o c H => proj1 (Hoff o c H)) Eb) as (w0 & E0 & H0 & _).
  destruct (world_setByIndices_ok ar dims 1 b st xmins xmaxs Hg Hn Hb _ G w0 H0) as (w1 & E1 & H1).
  destruct (world_apply_ok ar dims 1 b st xmins xmaxs Hg Hn Hb (fun o c H => proj1 (Hoff o c H)) G (fun _ => a_zero ar) w1) as (w2 & E2 & H2); auto.
  { intros off w H. apply reaches_serial; auto. apply (Hu off w H). }
  exists w0, w1, w2. split; auto. split; auto. split; auto.
  apply (out_ok dims 1 b st xmins xmaxs Hg Hn Hb). apply (wholds_wfok _ _ _ _ _ _ _ _ _ H2).
Qed.
Print Assumptions C31_serial_semantics.

Lemma neg_wrap_iff m : 0 < m < 2 ^ 31 -> (((-1) mod 2 ^ 64) mod m = (-1) mod m <-> (m | 2 ^ 64)).
Proof.
  intros Hm. change ((-1) mod 2 ^ 64) with (2 ^ 64 - 1). split.
  - intros E. assert (H : (2 ^ 64 - 1 - -1) mod m = 0).
    { rewrite Zminus_mod, E, Z.sub_diag. reflexivity. }
    apply Z.mod_divide in H; [|lia]. exact H.
  - intros (q & E). rewrite E. replace (q * m - 1) with (-1 + q * m) by lia. apply Z_mod_plus_full.
Qed.

(** On one process the result is the periodic stencil for every stencil and every field if and only if all
    the grid sizes divide 2^64. *)
Theorem C31_periodic_iff :
  forall dims, grid_ok dims ->
    ((forall (st : list (list Z * Z)) G, axis_stencil dims st ->
        exists w0 w1 w2, world_new arZ 1 dims [] [] st = Ok w0 /\ world_setInDataByIndices w0 G = Ok w1 /\
          world_apply arZ w1 = Ok w2 /\ distributed dims (stencil_sum arZ dims st G) (out_pieces w2))
     <-> forall j, (j < length dims)%nat -> (nth j dims 0 | 2 ^ 64)).
Proof.
  intros dims Hg. pose proof Hg as (_ & _ & Hpos & Hprod). split.
  - intros H j Hj. set (off := map (fun i => if Nat.eqb i j then -1 else 0) (seq 0 (length dims))).
    assert (Lo : length off = length dims) by (unfold off; rewrite map_length, seq_length; auto).
    assert (No : forall i, nth i off 0 = if Nat.eqb i j then -1 else 0).
    { intros i. destruct (lt_dec i (length dims)) as [Hi|Hi].
      - unfold off. rewrite map_seq_nth by auto. reflexivity.
      - rewrite nth_overflow by lia. destruct (Nat.eqb_spec i j); [lia|reflexivity]. }
    assert (Hax : axis_stencil dims [(off, 1)]).
    { split; [repeat constructor|]. intros o w [E|[]]. inversion E; subst. split.
      - split; auto. intros i Hi. rewrite No. destruct (Nat.eqb i j); lia.
      - intros i k. rewrite !No. destruct (Nat.eqb_spec i j), (Nat.eqb_spec k j); lia. }
    set (G := fun g : list Z => nth j g 0).
    destruct (H [(off, 1)] G Hax) as (w0 & w1 & w2 & E0 & E1 & E2 & HD).
    destruct (C31_serial_semantics Z arZ dims [] [] [(off, 1)] G Hg (proj1 Hax)) as (w0' & w1' & w2' & E0' & E1' & E2' & HD').
    { intros o w Hin. apply (proj2 Hax o w Hin). }
    rewrite E0 in E0'. inversion E0'; subst w0'. rewrite E1 in E1'. inversion E1'; subst w1'. rewrite E2 in E2'. inversion E2'; subst w2'.
    assert (Hz : in_grid dims (repeat 0 (length dims))).
    { apply in_grid_nth. split; [apply repeat_length|]. intros i Hi. rewrite nth_repeat0. specialize (Hpos i Hi). lia. }
    pose proof (distributed_unique dims _ _ _ HD HD' _ Hz) as E. unfold stencil_sum in E. cbn [fold_left fst snd] in E.
    assert (Ls : length (shift (repeat 0 (length dims)) off) = length dims) by (rewrite shift_length; rewrite repeat_length; auto).
    unfold G in E. change (unsigned_wrap dims) with (cwrap dims) in E.
    rewrite wrap_nth, cwrap_nth in E by lia. rewrite shift_nth in E by (rewrite ?repeat_length; lia).
    rewrite nth_repeat0, No, Nat.eqb_refl in E. unfold arZ in E. cbn [a_add a_mul a_zero] in E.
    apply neg_wrap_iff; [pose proof (grid_dim_range dims j Hg Hj); unfold two31 in *; split; [apply Hpos; auto|lia]|].
    unfold u64, two64 in E. change (0 + -1) with (-1) in E. change (2 ^ 64) with 18446744073709551616. rewrite !Z.add_0_l, !Z.mul_1_l in E. symmetry. exact E.
  - intros Hdiv st G Hax.
    assert (Hset : exists d, is_decomp 1 dims d).
    { exists (repeat 1 (length dims)). split; [apply repeat_length|].
      assert (E1 : forall j, (j < length dims)%nat -> nth j (repeat 1 (length dims)) 0 = 1).
      { intros j Hj. rewrite (nth_indep _ 0 1) by (rewrite repeat_length; auto). apply nth_repeat. }
      split; [|clear; induction dims; simpl; [reflexivity|unfold prodZ in *; cbn [fold_right]; lia]].
      intros j Hj. rewrite E1 by auto. split; [lia|]. apply Z.divide_1_l. }
    destruct (build_of 1 dims Hg ltac:(lia) Hset) as (b & Hb & Eb).
    apply (C28_undivided_axes Z arZ 1 dims [] [] st (cube_of 1 dims b 0) G Hg ltac:(lia) Eb (proj1 Hax)).
    + intros off w Hin. destruct (proj2 Hax off w Hin). split; auto.
    + intros off w _ j Hj _. apply Hdiv; auto.
Qed.
Print Assumptions C31_periodic_iff.

(** The default grid of the Laplacian benchmark (8000 cells per axis): the left neighbour of the first
    column is taken to be column 7615 instead of column 7999. *)
Theorem C31_default_size_refuted :
  unsigned_wrap [8000; 8000] (shift [0; 0] [-1; 0]) = [7615; 0] /\
  wrap [8000; 8000] (shift [0; 0] [-1; 0]) = [7999; 0] /\ ~ (8000 | 2 ^ 64).
Proof.
  split; [reflexivity|]. split; [reflexivity|]. intros H. apply Z.mod_divide in H; [|lia]. vm_compute in H. discriminate.
Qed.
Print Assumptions C31_default_size_refuted.

(** With several processes the wrong index can lead outside the buffer received from the neighbour. *)
Theorem C31_periodic_refuted :
  exists (st : list (list Z * Z)) G,
    setting 2 [10] [0] [1] st /\
    (* one process: wrong value *)
    (exists w0 w1 w2, world_new arZ 1 [10] [0] [1] st = Ok w0 /\ world_setInDataByIndices w0 G = Ok w1 /\ world_apply arZ w1 = Ok w2 /\
       ~ distributed [10] (stencil_sum arZ [10] st G) (out_pieces w2)) /\
    (* two processes: undefined behaviour *)
    (exists w0 w1, world_new arZ 2 [10] [0] [1] st = Ok w0 /\ world_setInDataByIndices w0 G = Ok w1 /\ world_apply arZ w1 = Undef OobRead) .
Proof.
  exists [([-1], 1)], (fun g => nth 0 g 0). split; [|split].
  - split; [|split; [lia|split; [|split; [reflexivity|split; [reflexivity|split]]]]].
    + split; [discriminate|]. split; [simpl; lia|]. split; [|reflexivity]. intros [|j] Hj; simpl in *; lia.
    + exists [2]. split; [reflexivity|]. split; [|reflexivity]. intros [|j] Hj; simpl in *; try lia. split; [lia|exists 5; reflexivity].
    + repeat constructor.
    + intros off w [E|[]]; inversion E; subst. split; [split; [reflexivity|]; intros [|j] Hj; simpl in *; lia|].
      intros [|[|i]] [|[|j]]; simpl; lia.
  - eexists. eexists. eexists. split; [vm_compute; reflexivity|]. split; [vm_compute; reflexivity|]. split; [vm_compute; reflexivity|].
    intros (_ & H). specialize (H _ _ _ (or_introl eq_refl)). vm_compute in H. discriminate.
  - eexists. eexists. split; [vm_compute; reflexivity|]. split; [vm_compute; reflexivity|]. vm_compute; reflexivity.
Qed.
Print Assumptions C31_periodic_refuted.

(** ** C32 *)
Theorem C32_check_sum :
  forall D (ar : arith D) sz dims xmins xmaxs st w G input,
    exact_arith ar -> setting sz dims xmins xmaxs st -> alive ar sz dims xmins xmaxs st w ->
    distributed dims G (if input : bool then in_pieces w else out_pieces w) ->
    exists sums, world_localSums ar w input = Ok sums /\ length sums = Z.to_nat sz /\
      forall r, reduction (a_add ar) sums r -> r = sum_of ar (map G (col_major (repeat 0 (length dims)) dims)).
Proof.
  intros D ar n dims xmins xmaxs st w G input HR Hs Ha HG. destruct (alive_inv ar dims n xmins xmaxs st Hs w Ha) as (b & F & Hb & H).
  destruct Hs as (Hg & Hn & _ & L0 & L1 & Hst).
  destruct (localSums_ok ar HR dims n b st xmins xmaxs Hg Hn Hb G w input (proj1 H)) as (sums & E & El & Es).
  { intros i f Hi. destruct (proj2 H i f Hi) as (Hf & _). split; [exact Hf|].
    destruct HG as (_ & HG). apply (HG (beg_of dims b (Z.of_nat i)) (end_of dims b (Z.of_nat i))).
    rewrite <- (fo_lo _ _ _ _ _ _ _ _ _ Hf), <- (fo_hi _ _ _ _ _ _ _ _ _ Hf). apply nth_error_In in Hi.
    destruct input; [apply (in_map (fun f => (f_lo f, f_hi f, f_inData f)) _ _ Hi)|apply (in_map (fun f => (f_lo f, f_hi f, f_outData f)) _ _ Hi)]. }
  exists sums. split; [exact E|]. split; [destruct H; congruence|]. intros r Hr. rewrite (sum_reduction ar HR sums r Hr). exact Es.
Qed.
Print Assumptions C32_check_sum.

Theorem C32_weights_times_input :
  forall D (ar : arith D) sz dims xmins xmaxs st w,
    exact_arith ar -> setting sz dims xmins xmaxs st -> periodic_stencil dims st -> used ar sz dims xmins xmaxs st w ->
    exists w' sumsIn sumsOut, world_apply ar w = Ok w' /\
      world_localSums ar w' true = Ok sumsIn /\ world_localSums ar w' false = Ok sumsOut /\
      world_localSums ar w true = Ok sumsIn /\
      forall rin rout, reduction (a_add ar) sumsIn rin -> reduction (a_add ar) sumsOut rout ->
        rout = a_mul ar (sum_of ar (map snd st)) rin.
Proof.
  intros D ar n dims xmins xmaxs st w HR Hs Hp Hu.
  destruct (used_inv ar dims n xmins xmaxs st Hs w Hp Hu) as (b & G & F & Hb & H). pose proof Hs as (Hg & Hn & _ & L0 & L1 & Hst).
  destruct (axis_good dims b st Hst) as (Hmap & Hoff).
  destruct (run_op_ok ar dims n b st xmins xmaxs Hg Hn Hb Hoff Hp Apply G F w) as (w' & E & H'); [discriminate|exact H|].
  cbn [meaning fst snd run_op] in E, H'.
  assert (Hu' : used ar n dims xmins xmaxs st w') by (apply (used_step ar dims n xmins xmaxs st Apply w); auto).
  destruct (C32_check_sum D ar n dims xmins xmaxs st w' G true HR Hs (or_intror (conj Hp Hu'))) as (si & Ei & _ & Hi).
  { apply (in_ok dims n b st xmins xmaxs Hg Hn Hb) in H'. exact H'. }
  destruct (C32_check_sum D ar n dims xmins xmaxs st w' (stencil_sum ar dims st G) false HR Hs (or_intror (conj Hp Hu'))) as (so & Eo & _ & Ho).
  { apply (out_ok dims n b st xmins xmaxs Hg Hn Hb). apply (wholds_wfok _ _ _ _ _ _ _ _ _ H'). }
  exists w', si, so. split; [exact E|]. split; [exact Ei|]. split; [exact Eo|]. split.
  - rewrite <- Ei. rewrite (localSums_eq ar dims n b st xmins xmaxs Hg Hn Hb F w true) by apply (wholds_wfok _ _ _ _ _ _ _ _ _ H).
    rewrite (localSums_eq ar dims n b st xmins xmaxs Hg Hn Hb _ w' true (wholds_wfok _ _ _ _ _ _ _ _ _ H')).
    rewrite <- (map_map f_inData (fun l => fold_left (a_add ar) l (a_zero ar))).
    rewrite <- (map_map f_inData (fun l => fold_left (a_add ar) l (a_zero ar)) w').
    rewrite (inData_eq dims n b st xmins xmaxs Hg Hn Hb G F (stencil_sum ar dims st G) w w' H H'). reflexivity.
  - intros rin rout Hrin Hrout. rewrite (Hi rin Hrin), (Ho rout Hrout). apply (stencil_total ar HR); [apply Hg|].
    intros off c Hin. destruct (proj2 Hst off c Hin) as ((L & _) & _). exact L.
Qed.
Print Assumptions C32_weights_times_input.

Example C32_example :
  (w <- world_new arZ 4 ex_g [0; 0] [1; 1] ex_st ;;
   w <- run arZ [SetByIndices (fun g => 10 * nth 0 g 0 + nth 1 g 0); Apply] w ;;
   a <- world_localSums arZ w true ;; b <- world_localSums arZ w false ;; Ok (sum_of arZ a, sum_of arZ b)) = Ok (1168, 5 * 1168) /\
  reduction Z.add [1; 2; 3; 4] 10.
Proof.
  split; [vm_compute; reflexivity|].
  apply (red_node Z.add [1; 2; 3; 4] [4; 1] [3; 2] 5 5).
  - apply NoDup_Permutation; [repeat (constructor; [simpl; lia|]); constructor..|]. intros x; simpl; lia.
  - apply (red_node Z.add [4; 1] [4] [1] 4 1); [reflexivity|constructor|constructor].
  - apply (red_node Z.add [3; 2] [3] [2] 3 2); [reflexivity|constructor|constructor].
Qed.

(** ** C33 *)
Theorem C33_copyOutToIn :
  forall D (ar : arith D) sz dims xmins xmaxs st w F,
    setting sz dims xmins xmaxs st -> alive ar sz dims xmins xmaxs st w -> distributed dims F (out_pieces w) ->
    exists w' sums, world_copyOutToIn w = Ok w' /\
      map f_outData w' = map f_outData w /\ map f_inData w' = map f_outData w /\
      distributed dims F (in_pieces w') /\ distributed dims F (out_pieces w') /\ exposes F st w' /\
      world_localSums ar w' true = Ok sums /\ world_localSums ar w' false = Ok sums /\ world_localSums ar w false = Ok sums.
Proof.
  intros D ar n dims xmins xmaxs st w F Hs Ha HF. destruct (alive_inv ar dims n xmins xmaxs st Hs w Ha) as (b & F' & Hb & H).
  destruct Hs as (Hg & Hn & _ & L0 & L1 & Hst). destruct (axis_good dims b st Hst) as (Hmap & Hoff).
  apply (wfok_ext dims n b st xmins xmaxs Hg Hn Hb F' F) in H.
  2:{ apply (distributed_unique dims _ _ (out_pieces w)); auto. apply (out_ok dims n b st xmins xmaxs Hg Hn Hb); auto. }
  destruct (world_copy_ok ar dims n b st xmins xmaxs Hg Hn Hb F w H) as (w' & E & Hw' & Eo).
  pose proof (wholds_wfok _ _ _ _ _ _ _ _ _ Hw') as Hw''.
  assert (Ei : map f_inData w' = map f_outData w').
  { apply map_ext_in. intros f Hf. apply In_nth_error in Hf as (i & Hi). destruct (proj2 Hw' i f Hi) as ((_ & -> & _) & ->). reflexivity. }
  exists w'. eexists. split; [exact E|]. split; [exact Eo|]. split; [congruence|].
  split; [apply (in_ok dims n b st xmins xmaxs Hg Hn Hb F F); auto|].
  split; [apply (out_ok dims n b st xmins xmaxs Hg Hn Hb); auto|].
  split; [apply (exposes_ok dims n b st xmins xmaxs Hg Hn Hb Hoff F F); auto|].
  rewrite !(localSums_eq ar dims n b st xmins xmaxs Hg Hn Hb F w') by auto.
  rewrite !(localSums_eq ar dims n b st xmins xmaxs Hg Hn Hb F w) by auto.
  split; [reflexivity|].
  rewrite <- (map_map f_inData (fun l => fold_left (a_add ar) l (a_zero ar)) w').
  rewrite <- (map_map f_outData (fun l => fold_left (a_add ar) l (a_zero ar)) w).
  rewrite <- (map_map f_outData (fun l => fold_left (a_add ar) l (a_zero ar)) w').
  rewrite Ei, Eo. split; reflexivity.
Qed.
Print Assumptions C33_copyOutToIn.

Example C33_example :
  (w <- world_new arZ 4 ex_g [0; 0] [1; 1] ex_st ;;
   w <- run arZ [SetByIndices (fun g => 10 * nth 0 g 0 + nth 1 g 0); Apply; Copy] w ;;
   a <- world_localSums arZ w true ;; b <- world_localSums arZ w false ;; Ok (a, b)) =
  Ok ([916; 884; 2036; 2004], [916; 884; 2036; 2004]).
Proof. vm_compute. reflexivity. Qed.

(** ** C34 *)
Theorem C34_saveVTK_reassembles :
  forall D (ar : arith D) sz dims xmins xmaxs st w F,
    setting sz dims xmins xmaxs st -> alive ar sz dims xmins xmaxs st w -> distributed dims F (out_pieces w) ->
    world_saveVTK ar w = Ok (map F (col_major (repeat 0 (length dims)) dims)).
Proof.
  intros D ar n dims xmins xmaxs st w F Hs Ha HF. destruct (alive_inv ar dims n xmins xmaxs st Hs w Ha) as (b & F' & Hb & H).
  destruct Hs as (Hg & Hn & _ & L0 & L1 & Hst).
  apply (saveVTK_ok ar dims n b st xmins xmaxs Hg Hn Hb).
  apply (wfok_ext dims n b st xmins xmaxs Hg Hn Hb F' F); auto.
  apply (distributed_unique dims _ _ (out_pieces w)); auto. apply (out_ok dims n b st xmins xmaxs Hg Hn Hb); auto.
Qed.
Print Assumptions C34_saveVTK_reassembles.

(** Taken literally, the call of MPI_Gather on the other ranks is undefined: it passes the address of the
    first element of an empty vector. *)
Theorem C34_nonroot_front_refuted :
  forall D (ar : arith D) sz dims xmins xmaxs st w f,
    setting sz dims xmins xmaxs st -> alive ar sz dims xmins xmaxs st w -> In f w ->
    (f_rk f <> 0 -> filter_saveVTK_send f = Undef EmptyFront) /\
    (f_rk f = 0 -> filter_saveVTK_send f = Ok (f_outData f)).
Proof.
  intros D ar n dims xmins xmaxs st w f Hs Ha Hf. destruct (alive_inv ar dims n xmins xmaxs st Hs w Ha) as (b & F & Hb & H).
  destruct Hs as (Hg & Hn & _). apply In_nth_error in Hf as (i & Hi). destruct (proj2 H i f Hi) as (Hf & _).
  unfold filter_saveVTK_send. rewrite (fo_nd _ _ _ _ _ _ _ _ _ Hf), (fo_gd _ _ _ _ _ _ _ _ _ Hf).
  pose proof (mai_ntot_eq dims (vlen dims) eq_refl) as EN. unfold mai_ntot in EN. rewrite EN. cbn [bind].
  pose proof (prodZ_pos dims (grid_allpos dims Hg)). assert (prodZ dims < two31) by (destruct Hg as (_ & _ & _ & H'); exact H').
  rewrite u64_id by (unfold two31, two64 in *; lia).
  assert (0 < vlen (f_outData f)).
  { unfold vlen. rewrite (fo_out _ _ _ _ _ _ _ _ _ Hf), loops_length by (apply (box_good dims n b); auto).
    rewrite (box_extents dims n b) by auto. pose proof (local_prod_range dims n b Hg Hn Hb). lia. }
  destruct (vlen (f_outData f) =? 0) eqn:E1; [lia|]. destruct (prodZ dims =? 0) eqn:E2; [lia|].
  destruct (f_rk f =? 0) eqn:E3; split; intros; auto; lia.
Qed.
Print Assumptions C34_nonroot_front_refuted.

Example C34_example :
  (w <- world_new arZ 4 ex_g [0; 0] [1; 1] [([0; 0], 1)] ;;
   w <- run arZ [SetByIndices (fun g => 10 * nth 0 g 0 + nth 1 g 0); Apply] w ;; world_saveVTK arZ w) =
  Ok [0; 10; 20; 30; 40; 50; 60; 70; 1; 11; 21; 31; 41; 51; 61; 71; 2; 12; 22; 32; 42; 52; 62; 72; 3; 13; 23; 33; 43; 53; 63; 73].
Proof. vm_compute. reflexivity. Qed.

(** printOutData (printInData) lists every cell of the rank with its value, in column-major order. *)
Theorem C34_print :
  forall D (ar : arith D) sz dims xmins xmaxs st w f input,
    setting sz dims xmins xmaxs st -> alive ar sz dims xmins xmaxs st w -> In f w ->
    exists f', filter_print f input = Ok (combine (col_major (f_lo f) (f_hi f)) (if input : bool then f_inData f else f_outData f), f').
Proof.
  intros D ar n dims xmins xmaxs st w f input Hs Ha Hf. destruct (alive_inv ar dims n xmins xmaxs st Hs w Ha) as (b & F & Hb & H).
  destruct Hs as (Hg & Hn & _). apply In_nth_error in Hf as (i & Hi). destruct (proj2 H i f Hi) as (Hf & _).
  destruct (print_ok ar dims n b st xmins xmaxs Hg Hn Hb (Z.of_nat i) f input _ Hf eq_refl) as (k & ->).
  rewrite (fo_lo _ _ _ _ _ _ _ _ _ Hf), (fo_hi _ _ _ _ _ _ _ _ _ Hf). eauto.
Qed.
Print Assumptions C34_print.

(** ** C35 *)

(** A stencil reaching two cells, and a diagonal one: undefined on several processes. *)
Definition go (sz : Z) (dims : list Z) (st : list (list Z * Z)) : res (list (list Z)) :=
  w <- world_new arZ sz dims (map (fun _ => 0) dims) (map (fun _ => 1) dims) st ;;
  w <- run arZ [SetByIndices (fun g => fold_left (fun a x => 100 * a + x) g 0); Apply] w ;; Ok (map f_outData w).

Theorem C35_any_reach_refuted :
  (* reach 2 on one process: the neighbour's rank does not exist *)
  go 1 [8] [([2], 1)] = Undef MpiBadRank /\
  (* reach 2 to the left on four processes of four cells each *)
  go 4 [16] [([-2], 1)] = Undef OobRead /\
  (* diagonal on a 2 x 2 process grid *)
  go 4 [8; 8] [([1; 1], 1)] = Undef OobRead.
Proof. vm_compute. repeat split; reflexivity. Qed.
Print Assumptions C35_any_reach_refuted.

(** Not only undefined behaviour: with both reaches 1 and 2 on the same side the window has one layer. *)
Theorem C35_shared_side_refuted :
  exists out, go 4 [16] [([1], 1); ([2], 100)] = Undef OobRead /\ go 4 [16] [([1], 1)] = Ok out.
Proof. eexists. split; vm_compute; reflexivity. Qed.
Print Assumptions C35_shared_side_refuted.

(** ** C37 *)
Definition is_zero (off : list Z) : bool := forallb (Z.eqb 0) off.

(** Three resources (two buffers, one window) per stencil branch other than the diagonal one; the
    destructor releases every one, none twice. *)
Theorem C37_all_released_once :
  forall D (ar : arith D) sz dims xmins xmaxs st w f,
    setting sz dims xmins xmaxs st -> alive ar sz dims xmins xmaxs st w -> In f w ->
    NoDup (f_allocs f) /\
    length (f_allocs f) = (3 * length (List.filter (fun p => negb (is_zero (fst p))) st))%nat /\
    filter_delete f = Ok [].
Proof.
  intros D ar n dims xmins xmaxs st w f Hs Ha Hf. destruct (alive_inv ar dims n xmins xmaxs st Hs w Ha) as (b & F & Hb & H).
  destruct Hs as (Hg & Hn & _ & _ & _ & Hst). destruct (axis_good dims b st Hst) as (Hmap & Hoff).
  apply In_nth_error in Hf as (i & Hi). destruct (proj2 H i f Hi) as (Hf & _).
  split; [rewrite (fo_alloc _ _ _ _ _ _ _ _ _ Hf); apply NoDup_range|]. split; [|apply (delete_ok dims n b st xmins xmaxs (Z.of_nat i) f Hf)].
  pose proof (Permutation_length (fo_ids _ _ _ _ _ _ _ _ _ Hf)) as E. rewrite <- E.
  assert (E3 : forall l, length (flat_map ids3 l) = (3 * length l)%nat).
  { clear. induction l as [|[k [[x y] z]] l IH]; [reflexivity|]. cbn [flat_map ids3 snd length app]. rewrite IH. lia. }
  rewrite E3. f_equal. rewrite <- (map_length fst (f_winIds f)).
  assert (P : Permutation (map fst (f_winIds f)) (sides_of st)).
  { apply NoDup_Permutation.
    - apply (osorted_NoDup lexcmp lexcmp_eq). apply (fo_ws _ _ _ _ _ _ _ _ _ Hf).
    - unfold sides_of. apply FinFun.Injective_map_NoDup.
      + intros x y Exy. unfold opp in Exy. apply (f_equal (map Z.opp)) in Exy. rewrite !map_map in Exy.
        rewrite !(map_ext (fun x => - - x) (fun x => x) Z.opp_involutive), !map_id in Exy. exact Exy.
      + apply NoDup_filter. apply is_map_NoDup. exact Hmap.
    - intros s. split.
      + intros Hin. destruct (in_dec (list_eq_dec Z.eq_dec) s (sides_of st)) as [Hi'|Hni]; auto. exfalso.
        pose proof (fo_w0 _ _ _ _ _ _ _ _ _ Hf s Hni) as HN. apply lfind_None in HN; [auto|apply (fo_ws _ _ _ _ _ _ _ _ _ Hf)].
      + intros Hin. destruct (fo_w1 _ _ _ _ _ _ _ _ _ Hf s Hin) as (x & Hx).
        apply lfind_In in Hx; [|apply (fo_ws _ _ _ _ _ _ _ _ _ Hf)]. apply in_map_iff. exists (s, x). auto. }
  rewrite (Permutation_length P). unfold sides_of. rewrite map_length. clear.
  induction st as [|[off c] l IH]; [reflexivity|]. cbn [map List.filter fst].
  replace (nonzero off) with (negb (is_zero off)).
  - destruct (negb (is_zero off)); cbn [length]; auto.
  - unfold is_zero, nonzero. clear. induction off as [|x l IH]; [reflexivity|]. cbn [forallb existsb]. rewrite negb_andb, IH.
    rewrite (Z.eqb_sym x 0). reflexivity.
Qed.
Print Assumptions C37_all_released_once.

Example C37_example :
  (w <- world_new arZ 4 ex_g [0; 0] [1; 1] ex_st ;; f <- vget w 1 ;; l <- filter_delete f ;; Ok (f_allocs f, l)) =
  Ok ([0; 1; 2; 3; 4; 5], []).
Proof. vm_compute. reflexivity. Qed.

(** When two branches share a side, two buffers and a window are never released. *)
Theorem C37_shared_side_refuted :
  exists (st : list (list Z * Z)) f, is_map st /\
    filter_new arZ 0 2 [8] [0] [1] st = Ok f /\ f_allocs f = [0; 1; 2; 3; 4; 5] /\ filter_delete f = Ok [3; 4; 5].
Proof.
  exists [([1], 1); ([2], 1)]. eexists. split; [repeat constructor|]. split; [vm_compute; reflexivity|]. split; vm_compute; reflexivity.
Qed.
Print Assumptions C37_shared_side_refuted.

(** ** C38 *)
Theorem C38_invalid_decomposition_unusable :
  forall D (ar : arith D) sz dims xmins xmaxs st rk remote,
    grid_ok dims -> 1 <= sz <= 2 ^ 30 -> ~ decomposable sz dims ->
    exists f, filter_new ar rk sz dims xmins xmaxs st = Ok f /\ filter_isDecompValid f = false /\
      (forall g, filter_setInData ar f g = Undef UninitRead) /\
      (forall g, filter_setInDataByIndices f g = Undef UninitRead) /\
      filter_applyFilter ar remote f = Undef UninitRead /\
      filter_copyOutToIn f = Undef UninitRead /\
      (forall i, filter_localSum ar f i = Undef UninitRead) /\
      (forall i, filter_print f i = Undef UninitRead) /\
      filter_saveVTK_send f = Undef EmptyFront /\
      (* destruction is harmless *)
      filter_delete f = Ok [].
Proof.
  intros D ar n dims xmins xmaxs st rk remote Hg Hn Hnd.
  destruct (C05_build_iff_decomposition_exists cd_empty n dims Hg ltac:(lia)) as (ok & c & E & H). destruct ok; [exfalso; apply Hnd, H; reflexivity|].
  unfold filter_new. rewrite E. cbn [bind negb]. eexists. split; [reflexivity|].
  do 7 (split; [intros; reflexivity|]). split; [|reflexivity].
  unfold filter_saveVTK_send. cbn [f_ndims f_globalDims f_outData].
  pose proof (mai_ntot_eq dims (vlen dims) eq_refl) as EN. unfold mai_ntot in EN. rewrite EN. reflexivity.
Qed.
Print Assumptions C38_invalid_decomposition_unusable.

Example C38_example : grid_ok ex_dims /\ ~ decomposable 5 ex_dims.
Proof.
  split; [exact ex_grid_ok|]. intros (d & Hd). 
  destruct (C05_build_iff_decomposition_exists cd_empty 5 ex_dims ex_grid_ok ltac:(lia)) as (ok & c & E & H).
  rewrite (proj2 H (ex_intro _ d Hd)) in E. vm_compute in E. discriminate.
Qed.
