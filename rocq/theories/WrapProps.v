(** * Property C71: applyFilter for every grid, every number of processes and every unit stencil

    C28 says what applyFilter computes when the grid sizes divide 2^64, C31 when there is one process.  Here the grid
    sizes, the number of processes and the unit displacements (diagonal ones included) are arbitrary: the program is
    defined exactly if the stencil is [sound_stencil] for the decomposition, it then computes the stencil with the
    unsigned remainder, and otherwise it reads outside an array. *)
From Coq Require Import Sorted Permutation Ring_theory Ring Reals Lra.
From Verif Require Import Cpp CppProof OMap MaiModel MaiSpec Radix MaiProof CdModel CdSpec CdProof CdProps CmdModel
  FilterModel FilterSpec FilterProof FilterRank FilterWorld FilterSum FilterProg FilterProps RealArith LapModel LapSpec LapProof LapProps
  UpModel UpSpec UpProof UpMpiModel UpMpiSpec UpMpiProof UpMpiProps WrapSpec WrapProof.
From Coq Require Import List.
Import ListNotations.
Local Open Scope Z_scope.
Local Arguments prodZ : simpl never.
Local Arguments Z.of_nat : simpl never.

(** ** The filter *)
Lemma ustart {D} (ar : arith D) sz dims xmins xmaxs (st : list (list Z * D)) c o ops :
  grid_ok dims -> 1 <= sz <= 2 ^ 30 -> cd_build cd_empty sz dims = Ok (true, c) -> unit_stencil dims st ->
  length xmins = length dims -> length xmaxs = length dims -> sets o ->
  exists b w0 w1, cd_getDecomp c = b /\ is_decomp sz dims b /\ world_new ar sz dims xmins xmaxs st = Ok w0 /\
    wfok dims sz b st xmins xmaxs (fun _ => a_zero ar) w0 /\ run_op ar o w0 = Ok w1 /\
    wholds dims sz b st xmins xmaxs (fst (unsigned_meaning ar dims xmins xmaxs st o (fun _ => a_zero ar, fun _ => a_zero ar))) (fun _ => a_zero ar) w1 /\
    ((In Apply ops -> sound_stencil dims b st) -> exists w2, run ar ops w1 = Ok w2 /\
      let GF := fold_left (fun s o => unsigned_meaning ar dims xmins xmaxs st o s) (o :: ops) (fun _ => a_zero ar, fun _ => a_zero ar) in
      wholds dims sz b st xmins xmaxs (fst GF) (snd GF) w2) /\
    (In Apply ops -> ~ sound_stencil dims b st -> run ar ops w1 = Undef OobRead).
Proof.
  intros Hg Hn E (Hmap & Hu) L0 L1 Ho.
  destruct (cd_build_true cd_empty sz dims c Hg ltac:(unfold two31; lia) E) as (b & Hb & ->).
  destruct (world_new_ok ar dims sz b st xmins xmaxs Hg Hn Hb Hmap Hu E) as (w0 & E0 & H0 & _).
  assert (X : exists w1, run_op ar o w0 = Ok w1 /\
     wholds dims sz b st xmins xmaxs (fst (unsigned_meaning ar dims xmins xmaxs st o (fun _ => a_zero ar, fun _ => a_zero ar))) (fun _ => a_zero ar) w1).
  { destruct o as [u|G'| | |i|i]; try contradiction; cbn [run_op unsigned_meaning meaning fst snd].
    - apply (world_set_ok ar dims sz b st xmins xmaxs Hg Hn Hb _ u (centre ar dims xmins xmaxs) w0 H0). intros. apply position_ok; auto.
    - apply (world_setByIndices_ok ar dims sz b st xmins xmaxs Hg Hn Hb _ G' w0 H0). }
  destruct X as (w1 & E1 & H1). exists b, w0, w1. split; [reflexivity|]. do 5 (split; [assumption|]). split.
  - intros Hs. destruct (urun_ok ar dims sz b st xmins xmaxs Hg Hn Hb Hu ops _ _ w1 Hs (fun _ _ => conj L0 L1) H1) as (w2 & E2 & H2).
    exists w2. split; [exact E2|]. cbv zeta. cbn [fold_left].
    replace (unsigned_meaning ar dims xmins xmaxs st o (fun _ => a_zero ar, fun _ => a_zero ar))
      with (fst (unsigned_meaning ar dims xmins xmaxs st o (fun _ => a_zero ar, fun _ => a_zero ar)), fun _ : list Z => a_zero ar); [exact H2|].
    destruct o; try contradiction; reflexivity.
  - intros HA Hs. apply (urun_oob ar dims sz b st xmins xmaxs Hg Hn Hb Hu ops _ _ w1 HA Hs (fun _ _ => conj L0 L1) H1).
Qed.

Theorem C71_apply :
  forall D (ar : arith D) sz dims xmins xmaxs st c G,
    grid_ok dims -> 1 <= sz <= 2 ^ 30 -> cd_build cd_empty sz dims = Ok (true, c) -> unit_stencil dims st ->
    exists w0 w1, world_new ar sz dims xmins xmaxs st = Ok w0 /\ world_setInDataByIndices w0 G = Ok w1 /\
      (sound_stencil dims (cd_getDecomp c) st ->
         exists w2, world_apply ar w1 = Ok w2 /\ distributed dims (unsigned_sum ar dims st G) (out_pieces w2)) /\
      (~ sound_stencil dims (cd_getDecomp c) st -> world_apply ar w1 = Undef OobRead).
Proof.
  intros D ar sz dims xmins xmaxs st c G Hg Hn E (Hmap & Hu).
  destruct (cd_build_true cd_empty sz dims c Hg ltac:(unfold two31; lia) E) as (b & Hb & ->). change (cd_getDecomp (cube_of sz dims b 0)) with b.
  destruct (world_new_ok ar dims sz b st xmins xmaxs Hg Hn Hb Hmap Hu E) as (w0 & E0 & H0 & _).
  destruct (world_setByIndices_ok ar dims sz b st xmins xmaxs Hg Hn Hb _ G w0 H0) as (w1 & E1 & H1).
  exists w0, w1. split; [exact E0|]. split; [exact E1|]. split.
  - intros Hs. destruct (urun_op_ok ar dims sz b st xmins xmaxs Hg Hn Hb Hu Apply _ _ w1 (fun _ => Hs) (fun u X => ltac:(discriminate X)) H1) as (w2 & E2 & H2).
    exists w2. split; [exact E2|]. apply (out_ok dims sz b st xmins xmaxs Hg Hn Hb). apply (wholds_wfok _ _ _ _ _ _ _ _ _ H2).
  - intros Hs. apply (world_apply_oob ar dims sz b st xmins xmaxs Hg Hn Hb Hu G _ w1 H1).
    destruct (sound_st_dec dims b st Hu) as [H|H]; [contradiction|exact H].
Qed.
Print Assumptions C71_apply.

(** Any program that begins by setting the input. *)
Theorem C71_programs :
  forall D (ar : arith D) sz dims xmins xmaxs st c o ops,
    grid_ok dims -> 1 <= sz <= 2 ^ 30 -> cd_build cd_empty sz dims = Ok (true, c) -> unit_stencil dims st ->
    length xmins = length dims -> length xmaxs = length dims -> sets o ->
    exists w0, world_new ar sz dims xmins xmaxs st = Ok w0 /\
      ((In Apply ops -> sound_stencil dims (cd_getDecomp c) st) ->
         let GF := fold_left (fun s o => unsigned_meaning ar dims xmins xmaxs st o s) (o :: ops) (fun _ => a_zero ar, fun _ => a_zero ar) in
         exists w, run ar (o :: ops) w0 = Ok w /\ distributed dims (fst GF) (in_pieces w) /\ distributed dims (snd GF) (out_pieces w)) /\
      (In Apply ops -> ~ sound_stencil dims (cd_getDecomp c) st -> run ar (o :: ops) w0 = Undef OobRead).
Proof.
  intros D ar sz dims xmins xmaxs st c o ops Hg Hn E Hst L0 L1 Ho.
  destruct (ustart ar sz dims xmins xmaxs st c o ops Hg Hn E Hst L0 L1 Ho) as (b & w0 & w1 & -> & Hb & E0 & _ & E1 & _ & Hok & Hno).
  assert (Er : run ar (o :: ops) w0 = run ar ops w1) by (unfold run; cbn [for_each]; rewrite E1; reflexivity).
  exists w0. split; [exact E0|]. rewrite Er. split; [|exact Hno].
  intros Hs GF. destruct (Hok Hs) as (w2 & E2 & H2). exists w2. split; [exact E2|].
  split; [apply (in_ok dims sz b st xmins xmaxs Hg Hn Hb _ _ w2 H2)|].
  apply (out_ok dims sz b st xmins xmaxs Hg Hn Hb). apply (wholds_wfok _ _ _ _ _ _ _ _ _ H2).
Qed.
Print Assumptions C71_programs.

(** For displacements along one axis at a time only the second condition is left. *)
Theorem C71_axis_stencils :
  forall D dims d (st : list (list Z * D)), axis_stencil dims st ->
    (sound_stencil dims d st <->
     forall off w j, In (off, w) st -> nth j off 0 < 0 -> 1 < nth j d 0 ->
       (nth j dims 0 | 2 ^ 64) \/ (2 ^ 64 - 1) mod nth j dims 0 < nth j dims 0 / nth j d 0).
Proof.
  intros D dims d st (_ & Hax). split.
  - intros H off w j Hin Hneg Hd. destruct (H off w Hin) as (_ & H2). destruct (H2 j) as [X|(X & _)]; auto. split; [lia|exact Hd].
  - intros H off w Hin. destruct (Hax off w Hin) as (_ & Ha). split.
    + intros i j (Hj & _) Hi Hij. exfalso. apply Hij, Ha; auto.
    + intros j (Hj & Hd) Hneg. destruct (H off w j Hin Hneg Hd) as [X|X]; [left; exact X|right]. split; [exact X|].
      intros i (Hi & _). apply Ha; auto.
Qed.
Print Assumptions C71_axis_stencils.

(** Displacements without a negative component, along one axis, are sound on every grid: only steps to the left go wrong. *)
Theorem C71_steps_to_the_right :
  forall D (ar : arith D) sz dims xmins xmaxs st c G,
    grid_ok dims -> 1 <= sz <= 2 ^ 30 -> cd_build cd_empty sz dims = Ok (true, c) -> axis_stencil dims st ->
    (forall off w j, In (off, w) st -> 0 <= nth j off 0) ->
    exists w0 w1 w2, world_new ar sz dims xmins xmaxs st = Ok w0 /\ world_setInDataByIndices w0 G = Ok w1 /\
      world_apply ar w1 = Ok w2 /\ distributed dims (stencil_sum ar dims st G) (out_pieces w2).
Proof.
  intros D ar sz dims xmins xmaxs st c G Hg Hn E Hax Hpos.
  apply (C28_undivided_axes D ar sz dims xmins xmaxs st c G Hg Hn E (proj1 Hax)).
  - intros off w Hin. destruct (proj2 Hax off w Hin). auto.
  - intros off w Hin j Hj Hneg. specialize (Hpos off w j Hin). lia.
Qed.
Print Assumptions C71_steps_to_the_right.

Lemma minus_mod_last g : 0 < g -> ((-1) mod 2 ^ 64) mod g = (-1) mod g -> (g | 2 ^ 64).
Proof.
  intros Hg E. change ((-1) mod 2 ^ 64) with (2 ^ 64 - 1) in E. apply (last_iff g Hg).
  rewrite E. symmetry. apply (Z.mod_unique _ _ (-1)); lia.
Qed.

(** The decomposed filter is the periodic one, for all stencils along the axes, exactly if all the grid sizes
    divide 2^64, whatever the number of processes. *)
Theorem C71_periodic_iff :
  forall sz dims, grid_ok dims -> 1 <= sz <= 2 ^ 30 -> decomposable sz dims ->
    ((forall (st : list (list Z * Z)) G, axis_stencil dims st ->
        exists w0 w1 w2, world_new arZ sz dims [] [] st = Ok w0 /\ world_setInDataByIndices w0 G = Ok w1 /\
          world_apply arZ w1 = Ok w2 /\ distributed dims (stencil_sum arZ dims st G) (out_pieces w2))
     <-> forall j, (j < length dims)%nat -> (nth j dims 0 | 2 ^ 64)).
Proof.
  intros sz dims Hg Hn Hdec. destruct (build_of sz dims Hg Hn Hdec) as (b & Hb & Eb). pose proof Hg as (_ & _ & Hpos & _). split.
  - intros H j Hj. set (off := unit_vec (length dims) j (-1)).
    assert (Hax : axis_stencil dims [(off, 1)]).
    { split; [repeat constructor|]. intros o w [E|[]]. inversion E; subst. apply unit_vec_axis; [exact Hj|lia]. }
    set (G := fun g : list Z => nth j g 0).
    destruct (H [(off, 1)] G Hax) as (w0 & w1 & w2 & E0 & E1 & E2 & HD).
    destruct (C71_apply Z arZ sz dims [] [] [(off, 1)] (cube_of sz dims b 0) G Hg Hn Eb) as (w0' & w1' & E0' & E1' & Hok & Hno).
    { split; [apply Hax|]. intros o w Hin. apply (proj2 Hax o w Hin). }
    rewrite E0 in E0'. inversion E0'; subst w0'. rewrite E1 in E1'. inversion E1'; subst w1'.
    destruct (sound_st_dec dims b [(off, 1)]) as [Hs|(o & c & Hin & Hs)].
    { intros o w Hin. apply (proj2 Hax o w Hin). }
    2:{ exfalso. rewrite Hno in E2; [discriminate|]. intros X. apply Hs, (X o c Hin). }
    destruct (Hok Hs) as (w2' & E2' & HD'). rewrite E2 in E2'. inversion E2'; subst w2'.
    assert (Hz : in_grid dims (repeat 0 (length dims))).
    { apply in_grid_nth. split; [apply repeat_length|]. intros i Hi. rewrite nth_repeat0. specialize (Hpos i Hi). lia. }
    pose proof (distributed_unique dims _ _ _ HD HD' _ Hz) as E. unfold stencil_sum, unsigned_sum in E. cbn [fold_left fst snd] in E.
    assert (Lo : length off = length dims) by apply unit_vec_length.
    assert (Ls : length (shift (repeat 0 (length dims)) off) = length dims) by (rewrite shift_length; rewrite repeat_length; auto).
    unfold G in E. change (unsigned_cell dims) with (cwrap dims) in E.
    rewrite wrap_nth, cwrap_nth in E by lia. rewrite shift_nth in E by (rewrite ?repeat_length; lia).
    rewrite nth_repeat0 in E. unfold off in E. rewrite unit_vec_nth in E by exact Hj. rewrite Nat.eqb_refl in E.
    unfold arZ in E. cbn [a_add a_mul a_zero] in E. unfold u64, two64 in E.
    apply minus_mod_last; [apply Hpos; auto|]. change (0 + -1) with (-1) in E. rewrite !Z.add_0_l, !Z.mul_1_l in E. symmetry. exact E.
  - intros Hdiv st G Hax. apply (C28_undivided_axes Z arZ sz dims [] [] st (cube_of sz dims b 0) G Hg Hn Eb (proj1 Hax)).
    + intros off w Hin. destruct (proj2 Hax off w Hin). split; auto.
    + intros off w _ j Hj _. apply Hdiv; auto.
Qed.
Print Assumptions C71_periodic_iff.

(** ** The benchmarks *)
Lemma unsigned_iter_comm {D} (ar : arith D) k dims st G :
  unsigned_iter ar k dims st (unsigned_sum ar dims st G) = unsigned_sum ar dims st (unsigned_iter ar k dims st G).
Proof. induction k as [|k IH]; cbn [unsigned_iter]; [reflexivity|]. rewrite IH. reflexivity. Qed.

Lemma ufinal_rounds {D} (ar : arith D) dims st xmins xmaxs k : forall G F,
  fold_left (fun s o => unsigned_meaning ar dims xmins xmaxs st o s) (rounds k) (G, F) =
     (unsigned_iter ar k dims st G, match k with O => F | _ => unsigned_iter ar k dims st G end).
Proof.
  induction k as [|k IH]; intros G F; [reflexivity|]. cbn [rounds fold_left unsigned_meaning meaning fst snd].
  rewrite IH. rewrite unsigned_iter_comm. cbn [unsigned_iter]. destruct k; reflexivity.
Qed.

Lemma rounds_apply {D} k : In Apply (@rounds D k) <-> (0 < k)%nat.
Proof. destruct k; cbn [rounds]; split; intros H; try lia; [destruct H|left; reflexivity]. Qed.

(** Stencils on square grids with a step to the left along every axis *)
Lemma square_sound {D} m nd d (st : list (list Z * D)) :
  0 < m -> length d = nd -> axis_stencil (repeat m nd) st ->
  (forall j, (j < nd)%nat -> exists off w, In (off, w) st /\ nth j off 0 < 0) ->
  (sound_stencil (repeat m nd) d st <-> stays m d).
Proof.
  intros Hm Ld Hax Hleft. rewrite (C71_axis_stencils D (repeat m nd) d st Hax). unfold stays. split.
  - intros H. destruct (Znumtheory.Zdivide_dec m (2 ^ 64)) as [X|X]; [left; exact X|right]. intros j Hj.
    assert (Hjn : (j < nd)%nat) by (destruct (lt_dec j nd); [auto|rewrite nth_overflow in Hj by lia; lia]).
    destruct (Hleft j Hjn) as (off & w & Hin & Hneg). specialize (H off w j Hin Hneg Hj). rewrite square_nth in H by exact Hjn. tauto.
  - intros H off w j Hin Hneg Hj. assert (Hjn : (j < nd)%nat) by (destruct (lt_dec j nd); [auto|rewrite nth_overflow in Hj by lia; lia]).
    rewrite square_nth by exact Hjn. destruct H as [H|H]; [left; exact H|right; apply H; exact Hj].
Qed.

Lemma lap_sound {D} (ar : arith D) m nd d : 0 < m -> length d = nd ->
  (sound_stencil (repeat m nd) d (insert_all (lap_entries ar nd) []) <-> stays m d).
Proof.
  intros Hm Ld. apply square_sound; auto.
  - pose proof (lap_axis ar (repeat m nd)) as H. rewrite repeat_length in H. exact H.
  - intros j Hj. exists (unit_vec nd j (-1)), (a_dec ar 10 1). split; [|rewrite unit_vec_nth by exact Hj; rewrite Nat.eqb_refl; lia].
    destruct (lap_perm ar nd) as (P & _). apply (Permutation_in _ (Permutation_sym P)). right. apply in_flat_map. exists j.
    split; [apply in_seq; lia|right; left; reflexivity].
Qed.

(** laplacian: what it computes on every grid it can decompose, or the out-of-bounds read *)
Theorem C71_laplacian :
  forall D (ar : arith D) dsin m_pi sz m nd k vtk c,
    let dims := repeat m nd in let U := lap_init ar dsin m_pi m nd in
    grid_ok dims -> 1 <= sz <= 2 ^ 30 -> cd_build cd_empty sz dims = Ok (true, c) ->
    ((k = 0%nat \/ stays m (cd_getDecomp c)) ->
       exists st r, lap_stencil ar (Z.of_nat nd) = Ok st /\
         lap_body ar dsin m_pi sz m (Z.of_nat nd) k vtk = Ok (Some r) /\
         distributed dims (unsigned_iter ar k dims st U) (in_pieces (lr_world r)) /\
         distributed dims (match k with O => fun _ => a_zero ar | _ => unsigned_iter ar k dims st U end) (out_pieces (lr_world r)) /\
         world_localSums ar (lr_world r) true = Ok (lr_in r) /\ world_localSums ar (lr_world r) false = Ok (lr_out r) /\
         lr_vtk r = (if vtk : bool then
            Some (map (match k with O => fun _ => a_zero ar | _ => unsigned_iter ar k dims st U end) (col_major (repeat 0 nd) dims)) else None)) /\
    ((0 < k)%nat -> ~ stays m (cd_getDecomp c) -> lap_body ar dsin m_pi sz m (Z.of_nat nd) k vtk = Undef OobRead).
Proof.
  intros D ar dsin m_pi sz m nd k vtk c dims U Hg Hn Ec.
  set (st := insert_all (lap_entries ar nd) []). set (x0 := repeat (a_dec ar 0 1) nd). set (x1 := repeat (a_dec ar 10 1) nd).
  assert (Hax : axis_stencil dims st) by (pose proof (lap_axis ar dims) as X; unfold dims in X at 2; rewrite repeat_length in X; exact X).
  destruct (square_nd m nd Hg) as (Hnd & Hmr).
  destruct (ustart ar sz dims x0 x1 st c (SetByPosition (lap_func ar dsin m_pi)) (rounds k) Hg Hn Ec) as (b & w0 & w1 & Eb & Hb & E0 & Hw0 & E1 & _ & Hok & Hno).
  { split; [apply Hax|]. intros off w Hin. apply (proj2 Hax off w Hin). }
  { unfold dims, x0. rewrite !repeat_length. reflexivity. }
  { unfold dims, x1. rewrite !repeat_length. reflexivity. }
  { exact I. }
  rewrite Eb in *.
  assert (HS : sound_stencil dims b st <-> stays m b).
  { apply lap_sound; [lia|]. destruct Hb as (L & _). rewrite L. unfold dims. apply repeat_length. }
  assert (EB : forall X : res (option (lap_result)),
    X = (w <- run ar (rounds k) w1 ;;
         vtk <- (if vtk then g <- world_saveVTK ar w ;; Ok (Some g) else Ok None) ;;
         inSum <- world_localSums ar w true ;; outSum <- world_localSums ar w false ;; Ok (Some (mkLap w vtk inSum outSum))) ->
    lap_body ar dsin m_pi sz m (Z.of_nat nd) k vtk = X).
  { intros X ->. unfold lap_body. rewrite (u64_id (Z.of_nat nd)) by (unfold two64; lia). rewrite (u64_id m) by (unfold two64; lia).
    destruct (two31 <=? Z.of_nat nd) eqn:E2; [unfold two31 in *; lia|]. rewrite lap_stencil_eq. cbn [bind]. rewrite Nat2Z.id.
    fold st x0 x1 dims. rewrite E0. cbn [bind]. destruct Hw0 as (Lw & Hw0).
    destruct w0 as [|f w0]; [cbn [length] in Lw; lia|].
    change (vget (f :: w0) 0) with (Ok f). cbn [bind]. unfold filter_isDecompValid.
    rewrite (fo_valid _ _ _ _ _ _ _ _ _ (proj1 (Hw0 0%nat f eq_refl))). cbn [negb].
    cbn [run_op] in E1. rewrite E1. cbn [bind]. rewrite run_rounds. reflexivity. }
  split.
  - intros Hs. destruct Hok as (w & E & H).
    { intros HA. apply rounds_apply in HA. apply HS. destruct Hs; [lia|assumption]. }
    cbv zeta in H. cbn [fold_left unsigned_meaning meaning fst snd] in H. rewrite ufinal_rounds in H. cbn [fst snd] in H.
    change (fun g : list Z => lap_func ar dsin m_pi (centre ar dims x0 x1 g)) with U in H.
    set (F := match k with O => fun _ => a_zero ar | S _ => unsigned_iter ar k dims st U end) in *.
    pose proof (wholds_wfok _ _ _ _ _ _ _ _ _ H) as Hw.
    pose proof (saveVTK_ok ar dims sz b st x0 x1 Hg Hn Hb _ w Hw) as EV.
    pose proof (localSums_eq ar dims sz b st x0 x1 Hg Hn Hb F w true Hw) as Ei.
    pose proof (localSums_eq ar dims sz b st x0 x1 Hg Hn Hb F w false Hw) as Eo.
    exists st, (mkLap w (if vtk then Some (map F (nested_loops false (repeat 0 (length dims)) dims)) else None)
      (map (fun f => fold_left (a_add ar) (f_inData f) (a_zero ar)) w) (map (fun f => fold_left (a_add ar) (f_outData f) (a_zero ar)) w)).
    split; [apply lap_stencil_eq|]. cbn [lr_world lr_in lr_out lr_vtk]. split.
    { apply EB. rewrite E. cbn [bind]. rewrite EV, Ei, Eo. destruct vtk; reflexivity. }
    split; [apply (in_ok dims sz b st x0 x1 Hg Hn Hb _ F); auto|]. split; [apply (out_ok dims sz b st x0 x1 Hg Hn Hb); auto|].
    split; [exact Ei|]. split; [exact Eo|]. unfold dims; rewrite repeat_length; reflexivity.
  - intros Hk Hs. apply EB. rewrite Hno; [reflexivity|apply rounds_apply; exact Hk|]. intros X. apply Hs, HS, X.
Qed.
Print Assumptions C71_laplacian.

(** The program as it is launched without options, 8000 x 8000 cells: on two processes or more, either there is no
    decomposition and it stops, or it reads outside an array. *)
Theorem C71_laplacian_default :
  forall D (ar : arith D) dsin m_pi atof exec sz,
    2 <= sz <= 2 ^ 30 ->
    lap_main ar dsin m_pi atof sz [exec] = Undef OobRead \/
    (~ decomposable sz [8000; 8000] /\ lap_main ar dsin m_pi atof sz [exec] = Ok None).
Proof.
  intros D ar dsin m_pi atof exec sz Hn.
  assert (Hg : grid_ok (repeat 8000 2)).
  { split; [discriminate|]. split; [cbn [repeat length]; lia|]. split; [|reflexivity]. intros [|[|j]] Hj; cbn [repeat nth length] in *; lia. }
  assert (EM : lap_main ar dsin m_pi atof sz [exec] = lap_body ar dsin m_pi sz 8000 (Z.of_nat 2) 10 false) by reflexivity.
  rewrite EM. destruct (C05_build_iff_decomposition_exists cd_empty sz (repeat 8000 2) Hg ltac:(lia)) as (ok & c & Ec & Hc).
  destruct ok.
  - left. apply (C71_laplacian D ar dsin m_pi sz 8000 2 10 false c Hg ltac:(lia) Ec); [lia|].
    destruct (cd_build_true cd_empty sz (repeat 8000 2) c Hg ltac:(unfold two31; lia) Ec) as (b & Hb & ->). change (cd_getDecomp _) with b.
    destruct Hb as (L & P & Q). cbn [repeat length] in L. destruct b as [|b0 [|b1 [|? ?]]]; try discriminate L.
    intros [X|X].
    + destruct X as (q & Hq). change (2 ^ 64) with 18446744073709551616 in Hq. lia.
    + rewrite !prodZ_cons in Q. change (prodZ []) with 1 in Q. change ((2 ^ 64 - 1) mod 8000) with 7615 in X.
      assert (HX : forall j bj, nth j [b0; b1] 0 = bj -> 1 < bj -> False).
      { intros j bj Ej Hj. specialize (X j). rewrite Ej in X. specialize (X Hj).
        assert (8000 / bj <= 8000 / 2) by (apply Z.div_le_compat_l; lia). change (8000 / 2) with 4000 in *. lia. }
      pose proof (P 0%nat ltac:(cbn; lia)) as (P0 & _). pose proof (P 1%nat ltac:(cbn; lia)) as (P1 & _). cbn [nth] in P0, P1.
      destruct (Z_lt_dec 1 b0) as [X0|X0]; [apply (HX 0%nat b0 eq_refl X0)|]. apply (HX 1%nat b1 eq_refl). nia.
  - right. assert (Hnd : ~ decomposable sz (repeat 8000 2)) by (intros Hd; apply Hc in Hd; discriminate). split; [exact Hnd|].
    apply C39_driver_invalid; [exact Hg|lia|exact Hnd].
Qed.
Print Assumptions C71_laplacian_default.

(** One iteration on one process with these 8000 x 8000 cells: defined, and not the periodic Laplacian. *)
Lemma mode_differs : (sin (2 * PI * ((7615 + / 2) / 8000)) < sin (2 * PI * ((7999 + / 2) / 8000)))%R.
Proof.
  replace (2 * PI * ((7615 + / 2) / 8000))%R with (- PI * (384 + / 2) / 4000 + 2 * INR 1 * PI)%R by (simpl; field).
  replace (2 * PI * ((7999 + / 2) / 8000))%R with (- PI * (/ 2) / 4000 + 2 * INR 1 * PI)%R by (simpl; field).
  rewrite !sin_period. pose proof PI_RGT_0. apply sin_increasing_1; lra.
Qed.

Theorem C71_laplacian_default_serial_refuted :
  exists r F g, lap_body arR sin PI 1 8000 2 1%nat false = Ok (Some r) /\ in_grid [8000; 8000] g /\
    distributed [8000; 8000] F (out_pieces (lr_world r)) /\
    F g <> laplace arR [8000; 8000] (lap_init arR sin PI 8000 2) g.
Proof.
  assert (Hg : grid_ok (repeat 8000 2)).
  { split; [discriminate|]. split; [cbn [repeat length]; lia|]. split; [|reflexivity]. intros [|[|j]] Hj; cbn [repeat nth length] in *; lia. }
  assert (Hd : decomposable 1 (repeat 8000 2)).
  { exists [1; 1]. split; [reflexivity|]. split; [|reflexivity]. intros [|[|j]] Hj; cbn [repeat nth length] in *; try lia; (split; [lia|apply Z.divide_1_l]). }
  destruct (build_of 1 (repeat 8000 2) Hg ltac:(lia) Hd) as (b & Hb & Ec).
  destruct (C71_laplacian R arR sin PI 1 8000 2 1 false _ Hg ltac:(lia) Ec) as (H & _).
  destruct H as (st & r & Est & E & _ & Ho & _).
  { right. right. change (cd_getDecomp _) with b. intros j Hj. exfalso. destruct Hb as (L & P & Q). cbn [repeat length] in L, P.
    assert (Hjn : (j < 2)%nat) by (destruct (lt_dec j 2); [auto|rewrite nth_overflow in Hj by lia; lia]).
    assert (Hp : allpos b) by (apply allpos_nth; rewrite L; intros i Hi; apply P; auto).
    pose proof (prodZ_ge b j Hp ltac:(lia)). lia. }
  set (U := lap_init arR sin PI 8000 2) in *. cbn [unsigned_iter] in Ho.
  exists r, (unsigned_sum arR [8000; 8000] st U), [0; 0]. split; [exact E|].
  assert (Hz : in_grid [8000; 8000] [0; 0]).
  { apply in_grid_nth. split; [reflexivity|]. intros [|[|j]] Hj; cbn [nth length] in *; lia. }
  split; [exact Hz|]. split; [exact Ho|].
  destruct (C39_stencil_is_laplacian R arR 8000 2 Hg) as (st' & Est' & _ & _ & Hl). rewrite Est in Est'. inversion Est'; subst st'.
  change [8000; 8000] with (repeat 8000 2) at 2. rewrite <- (proj2 (Hl arR_exact) U [0; 0] Hz). clear Hl Ho E.
  rewrite (lap_stencil_eq arR 2) in Est. assert (Est2 : st = insert_all (lap_entries arR 2) []) by congruence. rewrite Est2. clear Est Est' Est2 st.
  set (one := a_dec arR 10 1). set (four := a_mul arR (a_neg arR (a_dec arR 20 1)) (a_ofZ arR 2)).
  change (insert_all (lap_entries arR 2) []) with [([-1; 0], one); ([0; -1], one); ([0; 0], four); ([0; 1], one); ([1; 0], one)].
  unfold unsigned_sum, stencil_sum. cbn [fold_left fst snd].
  change (unsigned_cell [8000; 8000] (shift [0; 0] [-1; 0])) with [7615; 0]. change (unsigned_cell [8000; 8000] (shift [0; 0] [0; -1])) with [0; 7615].
  change (unsigned_cell [8000; 8000] (shift [0; 0] [0; 0])) with [0; 0]. change (unsigned_cell [8000; 8000] (shift [0; 0] [0; 1])) with [0; 1].
  change (unsigned_cell [8000; 8000] (shift [0; 0] [1; 0])) with [1; 0].
  change (wrap (repeat 8000 2) (shift [0; 0] [-1; 0])) with [7999; 0]. change (wrap (repeat 8000 2) (shift [0; 0] [0; -1])) with [0; 7999].
  change (wrap (repeat 8000 2) (shift [0; 0] [0; 0])) with [0; 0]. change (wrap (repeat 8000 2) (shift [0; 0] [0; 1])) with [0; 1].
  change (wrap (repeat 8000 2) (shift [0; 0] [1; 0])) with [1; 0].
  assert (EU : forall i j, U [i; j] = (sin (2 * PI * ((IZR i + / 2) / 8000)) * sin (2 * PI * ((IZR j + / 2) / 8000)))%R).
  { intros i j. unfold U, lap_init, lap_func, centre. cbn [repeat combine map fold_left arR a_add a_mul a_sub a_div a_ofZ a_dec powerRZ Pos.to_nat].
    change (IZR 1) with 1%R. rewrite Rmult_1_l. f_equal; f_equal; simpl; field. }
  rewrite !EU. pose proof mode_differs as HM.
  assert (H0 : (0 < sin (2 * PI * ((0 + / 2) / 8000)))%R) by (pose proof PI_RGT_0; apply sin_gt_0; lra).
  assert (E1 : one = 1%R) by (unfold one; simpl; field). rewrite E1. cbn [arR a_add a_mul a_zero].
  set (s0 := sin (2 * PI * ((0 + / 2) / 8000))) in *. set (s1 := sin (2 * PI * ((1 + / 2) / 8000))) in *.
  set (p := sin (2 * PI * ((7615 + / 2) / 8000))) in *. set (q := sin (2 * PI * ((7999 + / 2) / 8000))) in *. clearbody s0 s1 p q four.
  intros X. assert ((p * s0 < q * s0)%R) by (apply Rmult_lt_compat_r; assumption). lra.
Qed.
Print Assumptions C71_laplacian_default_serial_refuted.

(** upwindMpi *)
Section Loop.
  Context {D : Type} (ar : arith D) (dims : list Z) (n : Z) (b : list Z).
  Context (st : list (list Z * D)) (xmins xmaxs : list D).
  Hypothesis Hg : grid_ok dims.
  Hypothesis Hn : 1 <= n <= 2 ^ 30.
  Hypothesis Hb : is_decomp n dims b.
  Hypothesis Hu : forall off w, In (off, w) st -> unit_offset (length dims) off.
  Notation wholds := (wholds dims n b st xmins xmaxs).
  Notation boxes := (um_boxes dims n b).

  Lemma u_step_ok G F w sums : sound_stencil dims b st -> wholds G F w -> exists w', um_step ar (w, sums) =
      Ok (w', sums ++ [(box_sums ar G boxes, box_sums ar (unsigned_sum ar dims st G) boxes)]) /\
      wholds (unsigned_sum ar dims st G) (unsigned_sum ar dims st G) w'.
  Proof using Hg Hn Hb Hu.
    intros Hs H.
    destruct (urun_op_ok ar dims n b st xmins xmaxs Hg Hn Hb Hu Apply G F w (fun _ => Hs) (fun u X => ltac:(discriminate X)) H) as (w1 & E1 & H1).
    cbn [run_op unsigned_meaning fst snd] in *.
    destruct (urun_op_ok ar dims n b st xmins xmaxs Hg Hn Hb Hu Copy G (unsigned_sum ar dims st G) w1 (fun _ => Hs) (fun u X => ltac:(discriminate X)) H1) as (w2 & E2 & H2).
    cbn [run_op unsigned_meaning meaning fst snd] in *. exists w2. split; [|exact H2]. unfold um_step. rewrite E1. cbn [bind].
    rewrite (wholds_sums ar dims n b st xmins xmaxs Hg Hn Hb _ _ w1 true H1). cbn [bind].
    rewrite (wholds_sums ar dims n b st xmins xmaxs Hg Hn Hb _ _ w1 false H1). cbn [bind]. rewrite E2. reflexivity.
  Qed.

  Lemma u_loop_ok G F (w : list (FilterModel.filter D)) k : (k = 0%nat \/ sound_stencil dims b st) -> wholds G F w -> exists w', for_upto (Z.of_nat k) (fun _ => um_step ar) (w, []) =
      Ok (w', map (fun i => (box_sums ar (unsigned_iter ar i dims st G) boxes, box_sums ar (unsigned_iter ar (S i) dims st G) boxes)) (seq 0 k)) /\
      wholds (unsigned_iter ar k dims st G) (match k with O => F | _ => unsigned_iter ar k dims st G end) w'.
  Proof using Hg Hn Hb Hu.
    intros [->|Hs] H; [exists w; split; [reflexivity|exact H]|].
    destruct (for_upto_inv (fun i (p : list (FilterModel.filter D) * list (list D * list D)) =>
       snd p = map (fun i => (box_sums ar (unsigned_iter ar i dims st G) boxes, box_sums ar (unsigned_iter ar (S i) dims st G) boxes)) (seq 0 i) /\
       wholds (unsigned_iter ar i dims st G) (match i with O => F | _ => unsigned_iter ar i dims st G end) (fst p))
       (fun _ => um_step ar) (Z.of_nat k) (w, [])) as ([w' sums] & E & Es & Hw).
    - split; [reflexivity|exact H].
    - intros i [w' sums] Hi (Es & Hw). cbn [fst snd] in *. destruct (u_step_ok _ _ w' sums Hs Hw) as (w2 & E2 & H2).
      eexists. split; [exact E2|]. cbn [fst snd]. split; [|exact H2]. rewrite seq_S, map_app, <- Es. reflexivity.
    - cbn [fst snd] in *. rewrite Nat2Z.id in *. exists w'. split; [rewrite E, Es; reflexivity|exact Hw].
  Qed.

  Lemma u_loop_oob G F (w : list (FilterModel.filter D)) k : (0 < k)%nat -> ~ sound_stencil dims b st -> wholds G F w ->
    for_upto (Z.of_nat k) (fun _ => um_step ar) (w, []) = Undef OobRead.
  Proof using Hg Hn Hb Hu.
    intros Hk Hs H. unfold for_upto. rewrite Nat2Z.id. destruct k as [|k]; [lia|]. cbn [for_from]. unfold um_step at 1.
    rewrite (world_apply_oob ar dims n b st xmins xmaxs Hg Hn Hb Hu G F w H); [reflexivity|].
    destruct (sound_st_dec dims b st Hu) as [X|X]; [contradiction|exact X].
  Qed.
End Loop.

Theorem C71_upwindMpi :
  forall D (ar : arith D) v lengths sz m k vtk c,
    let dims := [m; m; m] in
    length v = 3%nat -> length lengths = 3%nat ->
    grid_ok dims -> 1 <= sz <= 2 ^ 30 -> cd_build cd_empty sz dims = Ok (true, c) -> Z.of_nat k < 2 ^ 31 ->
    exists deltas signs dt st,
      um_axes ar v lengths 3 m = Ok (deltas, signs, dt) /\ um_stencil ar 3 v deltas signs dt = Ok st /\
      ((k = 0%nat \/ sound_stencil dims (cd_getDecomp c) st) ->
        exists r, um_body ar v lengths sz m (Z.of_nat k) vtk = Ok (Some r) /\
          let F i := unsigned_iter ar i dims st (origin_field ar dims) in
          let out := match k with O => fun _ => a_zero ar | _ => F k end in
          let boxes := map fst (in_pieces (um_world r)) in
          distributed dims (F k) (in_pieces (um_world r)) /\ distributed dims out (out_pieces (um_world r)) /\
          um_sums r = map (fun i => (box_sums ar (F i) boxes, box_sums ar (F (S i)) boxes)) (seq 0 k) /\
          um_final r = box_sums ar out boxes /\
          um_vtk r = (if vtk : bool then Some (map out (col_major [0; 0; 0] dims)) else None) /\
          length boxes = Z.to_nat sz) /\
      ((0 < k)%nat -> ~ sound_stencil dims (cd_getDecomp c) st -> um_body ar v lengths sz m (Z.of_nat k) vtk = Undef OobRead) /\
      ((forall x, In x v -> a_lt ar (a_ofZ ar 0) x = true) -> (sound_stencil dims (cd_getDecomp c) st <-> stays m (cd_getDecomp c))) /\
      ((forall x, In x v -> a_lt ar (a_ofZ ar 0) x = false) -> sound_stencil dims (cd_getDecomp c) st).
Proof.
  intros D ar v lengths sz m k vtk c dims Lv Ll Hg Hn Ec Hk.
  destruct v as [|v0 [|v1 [|v2 [|? ?]]]]; try discriminate Lv. destruct lengths as [|l0 [|l1 [|l2 [|? ?]]]]; try discriminate Ll.
  destruct (um_axes_eq ar v0 v1 v2 l0 l1 l2 m) as (dt & Edt & Eax).
  set (st := insert_all (um_entries ar v0 v1 v2 l0 l1 l2 m dt) []).
  set (x0 := repeat (a_dec ar 0 1) (Z.to_nat 3)). set (x1 := [l0; l1; l2]) in *.
  assert (Hax : axis_stencil dims st) by apply um_axis.
  assert (Hust : unit_stencil dims st) by (split; [apply Hax|]; intros off w Hin; apply (proj2 Hax off w Hin)).
  destruct (ustart ar sz dims x0 x1 st c (SetByIndices (um_init ar)) [] Hg Hn Ec Hust eq_refl eq_refl I)
    as (b & w0 & w1 & Eb & Hb & E0 & Hw0 & E1 & H1 & _ & _).
  rewrite Eb in *. cbn [run_op unsigned_meaning meaning fst snd] in E1, H1.
  apply (wholds_ext dims sz b st x0 x1 Hg Hn Hb _ (origin_field ar dims) _ (fun _ => a_zero ar)) in H1; [|intros; apply (um_init_eq ar m); auto|reflexivity].
  assert (Hmr : 0 < m < 2 ^ 31).
  { destruct Hg as (_ & _ & Hpos & Hpr). pose proof (Hpos 0%nat ltac:(simpl; lia)) as H0. cbn [dims nth] in H0.
    assert (Ep : prodZ [m; m; m] = m * m * m) by (rewrite !prodZ_cons; change (prodZ []) with 1; ring). unfold dims in Hpr. rewrite Ep in Hpr. nia. }
  assert (EB : um_body ar [v0; v1; v2] x1 sz m (Z.of_nat k) vtk =
     (' (w, sums) <- for_upto (Z.of_nat k) (fun _ => um_step ar) (w1, []) ;;
      vtk <- (if vtk then g <- world_saveVTK ar w ;; Ok (Some g) else Ok None) ;;
      outSum <- world_localSums ar w false ;; Ok (Some (mkUm w vtk sums outSum)))).
  { unfold um_body. rewrite (u64_id m) by (unfold two64; lia). rewrite (u64_id (Z.of_nat k)) by (unfold two64; lia).
    rewrite Eax. cbn [bind]. rewrite um_stencil_eq. cbn [bind]. change (repeat m (Z.to_nat 3)) with dims. fold st x0. rewrite E0. cbn [bind].
    destruct Hw0 as (Lw & Hw0). destruct w0 as [|f w0]; [cbn [length] in Lw; lia|].
    change (vget (f :: w0) 0) with (Ok f). cbn [bind]. unfold filter_isDecompValid.
    rewrite (fo_valid _ _ _ _ _ _ _ _ _ (proj1 (Hw0 0%nat f eq_refl))). cbn [negb]. rewrite E1. reflexivity. }
  eexists _, _, dt, st. split; [exact Eax|]. split; [apply um_stencil_eq|]. split; [|split; [|split]].
  - intros Hs. destruct (u_loop_ok ar dims sz b st x0 x1 Hg Hn Hb (proj2 Hust) _ _ w1 k Hs H1) as (w' & El & H').
    set (out := match k with O => fun _ => a_zero ar | _ => unsigned_iter ar k dims st (origin_field ar dims) end) in *.
    pose proof (wholds_wfok _ _ _ _ _ _ _ _ _ H') as Hw.
    pose proof (saveVTK_ok ar dims sz b st x0 x1 Hg Hn Hb _ w' Hw) as EV.
    pose proof (wfok_boxes dims sz b st x0 x1 Hn _ w' Hw) as EBx.
    eexists (mkUm w' (if vtk then Some (map out (col_major [0; 0; 0] dims)) else None) _ (box_sums ar out (um_boxes dims sz b))). split.
    + rewrite EB, El. cbn [bind]. rewrite (wholds_sums ar dims sz b st x0 x1 Hg Hn Hb _ _ w' false H'). rewrite EV. destruct vtk; reflexivity.
    + cbv zeta. cbn [um_world um_vtk um_sums um_final]. fold out. unfold in_pieces at 2 3 4 5. rewrite map_map. cbn [fst]. rewrite EBx.
      split; [apply (in_ok dims sz b st x0 x1 Hg Hn Hb _ out); auto|]. split; [apply (out_ok dims sz b st x0 x1 Hg Hn Hb); auto|].
      split; [reflexivity|]. split; [reflexivity|]. split; [reflexivity|]. unfold um_boxes. rewrite map_length, seq_length. reflexivity.
  - intros Hpos Hs. rewrite EB. rewrite (u_loop_oob ar dims sz b st x0 x1 Hg Hn Hb (proj2 Hust) _ _ w1 k Hpos Hs H1). reflexivity.
  - intros Hv. change dims with (repeat m 3). apply square_sound; [lia|apply Hb|exact Hax|].
    assert (Hsg : forall x, In x [v0; v1; v2] -> um_sign ar x = 1) by (intros x Hx; unfold um_sign; rewrite (Hv x Hx); reflexivity).
    pose proof (proj1 (um_perm ar v0 v1 v2 l0 l1 l2 m dt)) as P. fold st in P. apply Permutation_sym in P.
    unfold um_entries in P. rewrite !Hsg in P by (cbn; auto).
    intros [|[|[|j]]] Hj; [| | |lia]; eexists; eexists; (split; [apply (Permutation_in _ P)|]).
    + right; left; reflexivity.
    + cbn; lia.
    + right; right; left; reflexivity.
    + cbn; lia.
    + right; right; right; left; reflexivity.
    + cbn; lia.
  - intros Hv. apply (C71_axis_stencils D dims b st Hax). intros off w j Hin Hneg. exfalso.
    assert (Hsg : forall x, In x [v0; v1; v2] -> um_sign ar x = -1) by (intros x Hx; unfold um_sign; rewrite (Hv x Hx); reflexivity).
    pose proof (proj1 (um_perm ar v0 v1 v2 l0 l1 l2 m dt)) as P. fold st in P. apply (Permutation_in _ P) in Hin.
    unfold um_entries in Hin. rewrite !Hsg in Hin by (cbn; auto).
    destruct Hin as [E|[E|[E|[E|[]]]]]; inversion E; subst off; destruct j as [|[|[|[|j]]]]; cbn in Hneg; lia.
Qed.
Print Assumptions C71_upwindMpi.

(** testStencil2d: the step to the left is along the second axis *)
Theorem C71_testStencil2d :
  forall D (ar : arith D) sz m vtk c,
    grid_ok [m; m] -> 1 <= sz <= 2 ^ 30 -> cd_build cd_empty sz [m; m] = Ok (true, c) ->
    let d := nth 1 (cd_getDecomp c) 0 in
    let F g := a_add ar (a_add ar (a_add ar (a_zero ar)
        (a_mul ar (a_neg ar (a_dec ar 10 1)) (edge_field ar (unsigned_cell [m; m] (shift g [0; -1])))))
        (a_mul ar (a_dec ar 0 1) (edge_field ar (unsigned_cell [m; m] (shift g [0; 0])))))
        (a_mul ar (a_dec ar 10 1) (edge_field ar (unsigned_cell [m; m] (shift g [1; 0])))) in
    ((m | 2 ^ 64) \/ d = 1 \/ (2 ^ 64 - 1) mod m < m / d ->
       exists pieces, distributed [m; m] F pieces /\ length pieces = Z.to_nat sz /\
         st2_body ar sz m vtk = Ok (map (fun p => combine (col_major (fst (fst p)) (snd (fst p))) (snd p)) pieces,
           if vtk : bool then Some (map F (col_major [0; 0] [m; m])) else None)) /\
    (~ ((m | 2 ^ 64) \/ d = 1 \/ (2 ^ 64 - 1) mod m < m / d) -> st2_body ar sz m vtk = Undef OobRead).
Proof.
  intros D ar sz m vtk c Hg Hn Ec d F. destruct (square_nd m 2 Hg) as (_ & Hmr).
  assert (Hd : decomposable sz [m; m]).
  { destruct (cd_build_true cd_empty sz [m; m] c Hg ltac:(unfold two31; lia) Ec) as (b & Hb & _). exists b. exact Hb. }
  destruct (st2_setting ar sz m Hg Hn Hd) as (_ & _ & _ & L0 & L1 & Hax).
  set (x0 := [a_dec ar 0 1; a_dec ar 0 1]) in *. set (x1 := [a_dec ar 10 1; a_dec ar 10 1]) in *. set (st := st2_stencil ar) in *.
  assert (Hust : unit_stencil [m; m] st) by (split; [apply Hax|]; intros off w Hin; apply (proj2 Hax off w Hin)).
  destruct (ustart ar sz [m; m] x0 x1 st c (SetByIndices (st2_func ar)) [Apply] Hg Hn Ec Hust L0 L1 I)
    as (b & w0 & w1 & Eb & Hb & E0 & Hw0 & E1 & _ & Hok & Hno).
  assert (HS : sound_stencil [m; m] b st <-> ((m | 2 ^ 64) \/ d = 1 \/ (2 ^ 64 - 1) mod m < m / d)).
  { rewrite (C71_axis_stencils D [m; m] b st Hax). unfold d. rewrite Eb.
    assert (Pb : 1 <= nth 1 b 0) by (destruct Hb as (_ & P & _); destruct (P 1%nat ltac:(cbn; lia)); lia). split.
    - intros X. destruct (Z.eq_dec (nth 1 b 0) 1) as [Y|Y]; [tauto|].
      specialize (X [0; -1] (a_neg ar (a_dec ar 10 1)) 1%nat (or_introl eq_refl)). cbn [nth] in X. destruct X; [lia|lia|tauto|tauto].
    - intros X off w j Hin Hneg Hj. unfold st, st2_stencil in Hin. cbn in Hin.
      destruct Hin as [E|[E|[E|[]]]]; inversion E; subst off; destruct j as [|[|[|j]]]; cbn [nth] in Hneg; try lia.
      cbn [nth]. destruct X as [X|[X|X]]; [left; exact X|lia|right; exact X]. }
  assert (EB : st2_body ar sz m vtk = (w <- run ar [Apply] w1 ;;
    lines <- mapM (fun f => ' (l, _) <- filter_print f false ;; Ok l) w ;;
    vtk <- (if vtk then g <- world_saveVTK ar w ;; Ok (Some g) else Ok None) ;; Ok (lines, vtk))).
  { unfold st2_body. rewrite (u64_id m) by (unfold two64; lia). fold x0 x1 st. rewrite E0. cbn [bind]. destruct Hw0 as (Lw & Hw0).
    destruct w0 as [|f w0]; [cbn [length] in Lw; lia|].
    change (vget (f :: w0) 0) with (Ok f). cbn [bind]. unfold filter_isDecompValid.
    rewrite (fo_valid _ _ _ _ _ _ _ _ _ (proj1 (Hw0 0%nat f eq_refl))). cbn [run_op] in E1. rewrite E1.
    unfold run. cbn [bind for_each run_op]. destruct (world_apply ar w1); reflexivity. }
  split.
  - intros Hs. destruct (Hok (fun _ => proj2 HS Hs)) as (w & E & H). cbv zeta in H. cbn [fold_left unsigned_meaning meaning fst snd] in H.
    assert (HF : forall g, in_grid [m; m] g -> unsigned_sum ar [m; m] st (st2_func ar) g = F g).
    { intros g Hgr. unfold unsigned_sum, F, st, st2_stencil. cbn [omap_insert lexcmp Z.compare fold_left fst snd].
      apply in_grid_nth in Hgr as [L Hgr]. destruct g as [|x [|y [|z g]]]; try discriminate L.
      assert (HU : forall a b, in_grid [m; m] (unsigned_cell [m; m] [a; b])).
      { intros a a'. apply in_grid_nth. split; [reflexivity|]. intros [|[|j]] Hj; cbn [unsigned_cell combine map nth fst snd]; try (apply Z.mod_pos_bound; lia). simpl in Hj; lia. }
      unfold shift. cbn [combine map fst snd]. rewrite !(st2_func_eq ar m) by auto. reflexivity. }
    apply (wholds_ext [m; m] sz b _ x0 x1 Hg Hn Hb _ (st2_func ar) _ F) in H; auto.
    pose proof (wholds_wfok _ _ _ _ _ _ _ _ _ H) as Hw.
    exists (out_pieces w). split; [apply (out_ok [m; m] sz b st x0 x1 Hg Hn Hb); auto|].
    split; [unfold out_pieces; rewrite map_length; exact (proj1 Hw)|].
    assert (EL : mapM (fun f0 => ' (l, _) <- filter_print f0 false;; Ok l) w =
       Ok (map (fun p => combine (col_major (fst (fst p)) (snd (fst p))) (snd p)) (out_pieces w))).
    { unfold out_pieces. rewrite map_map. cbn [fst snd]. apply mapM_ok. intros f' Hf. apply In_nth_error in Hf as (i & Hi).
      destruct (proj2 Hw i f' Hi) as (Hf' & _).
      destruct (print_ok ar [m; m] sz b st x0 x1 Hg Hn Hb (Z.of_nat i) f' false _ Hf' eq_refl) as (k & ->).
      rewrite (fo_lo _ _ _ _ _ _ _ _ _ Hf'), (fo_hi _ _ _ _ _ _ _ _ _ Hf'). reflexivity. }
    rewrite EB, E. cbn [bind]. rewrite EL. cbn [bind]. rewrite (saveVTK_ok ar [m; m] sz b st x0 x1 Hg Hn Hb F w Hw). destruct vtk; reflexivity.
  - intros Hs. rewrite EB, Hno; [reflexivity|left; reflexivity|]. intros X. apply Hs, HS, X.
Qed.
Print Assumptions C71_testStencil2d.

(** ** Examples *)

(** One axis of 12 cells, the left neighbour: (2^64 - 1) mod 12 = 3. *)
Definition shift_left : list (list Z * Z) := [([-1], 1)].

Example C71_example_sound : grid_ok [12] /\ unit_stencil [12] shift_left /\
  (exists c, cd_build cd_empty 2 [12] = Ok (true, c) /\ cd_getDecomp c = [2]) /\ sound_stencil [12] [2] shift_left /\
  ~ periodic_stencil [12] shift_left.
Proof.
  split; [|split; [|split; [|split]]].
  - split; [discriminate|]. split; [cbn; lia|]. split; [|reflexivity]. intros [|j] Hj; cbn in *; lia.
  - split; [repeat constructor|]. intros off w [E|[]]. inversion E. split; [reflexivity|]. intros [|j] Hj; cbn in *; lia.
  - eexists. vm_compute. split; reflexivity.
  - intros off w [E|[]]. inversion E. split.
    + intros [|[|i]] [|[|j]] (X & Y) Hi Hij; cbn in *; try lia; destruct j; cbn in *; lia.
    + intros [|[|j]] (X & Y) Hneg; cbn [nth] in *; try lia. right. split; [reflexivity|].
      intros [|[|i]] (X' & _); cbn in *; [reflexivity|lia|destruct i; cbn in *; lia].
  - intros H. specialize (H [-1] 1 (or_introl eq_refl) 0%nat ltac:(cbn; lia) ltac:(cbn; lia)). destruct H as (q & H). cbn [nth] in H.
    change (2 ^ 64) with 18446744073709551616 in H. lia.
Qed.

(** On two processes cell 0 gets the value of cell 3. *)
Example C71_example_wrong_value :
  exists w0 w1 w2, world_new arZ 2 [12] [0] [12] shift_left = Ok w0 /\ world_setInDataByIndices w0 (fun g => nth 0 g 0) = Ok w1 /\
    world_apply arZ w1 = Ok w2 /\ map snd (out_pieces w2) = [[3; 0; 1; 2; 3; 4]; [5; 6; 7; 8; 9; 10]] /\
    map (unsigned_sum arZ [12] shift_left (fun g => nth 0 g 0)) [[0]; [1]; [11]] = [3; 0; 10].
Proof. eexists. eexists. eexists. split; [vm_compute; reflexivity|]. split; [vm_compute; reflexivity|]. split; [vm_compute; reflexivity|]. split; [vm_compute; reflexivity|vm_compute; reflexivity]. Qed.

(** On four processes cell 3 is with the next process: out-of-bounds read. *)
Example C71_example_unsound :
  exists c w0 w1, cd_build cd_empty 4 [12] = Ok (true, c) /\ ~ sound_stencil [12] (cd_getDecomp c) shift_left /\
    world_new arZ 4 [12] [0] [12] shift_left = Ok w0 /\ world_setInDataByIndices w0 (fun g => nth 0 g 0) = Ok w1 /\
    world_apply arZ w1 = Undef OobRead.
Proof.
  eexists. eexists. eexists. split; [vm_compute; reflexivity|]. split; [|split; [vm_compute; reflexivity|split; [vm_compute; reflexivity|vm_compute; reflexivity]]].
  cbn [cd_getDecomp c_decomp]. intros H. destruct (H [-1] 1 (or_introl eq_refl)) as (_ & H2).
  destruct (H2 0%nat) as [(q & X)|(X & _)]; cbn; try lia.
  - split; cbn; lia.
  - cbn [nth] in X. change (2 ^ 64) with 18446744073709551616 in X. lia.
  - vm_compute in X. discriminate.
Qed.

(** The diagonal neighbour on four processes: out of bounds with 2 x 2 cells per process, right with one. *)
Definition diagonal : list (list Z * Z) := [([1; 1], 1)].
Example C71_example_diagonal :
  (exists w0 w1, world_new arZ 4 [4; 4] [0; 0] [4; 4] diagonal = Ok w0 /\ world_setInDataByIndices w0 (fun g => nth 0 g 0 + 10 * nth 1 g 0) = Ok w1 /\
     world_apply arZ w1 = Undef OobRead) /\
  (exists w0 w1 w2, world_new arZ 4 [2; 2] [0; 0] [2; 2] diagonal = Ok w0 /\ world_setInDataByIndices w0 (fun g => nth 0 g 0 + 10 * nth 1 g 0) = Ok w1 /\
     world_apply arZ w1 = Ok w2 /\ map snd (out_pieces w2) = [[11]; [1]; [10]; [0]]) /\
  sound_stencil [2; 2] [2; 2] diagonal.
Proof.
  split; [eexists; eexists; split; [vm_compute; reflexivity|]; split; [vm_compute; reflexivity|vm_compute; reflexivity]|]. split.
  - eexists. eexists. eexists. split; [vm_compute; reflexivity|]. split; [vm_compute; reflexivity|]. split; [vm_compute; reflexivity|vm_compute; reflexivity].
  - intros off w [E|[]]. inversion E. split.
    + intros [|[|[|i]]] [|[|[|j]]] (X & Y) Hi Hij; cbn in *; try lia; try reflexivity; try (destruct i; cbn in *; lia); destruct j; cbn in *; lia.
    + intros [|[|[|j]]] (X & Y) Hneg; cbn in *; try lia; destruct j; cbn in *; lia.
Qed.

(** laplacian with 12 x 12 cells: defined on one and two processes, out of bounds on sixteen. *)
Example C71_example_laplacian :
  (exists c, cd_build cd_empty 2 (repeat 12 2) = Ok (true, c) /\ stays 12 (cd_getDecomp c)) /\
  (exists c, cd_build cd_empty 16 (repeat 12 2) = Ok (true, c) /\ ~ stays 12 (cd_getDecomp c)) /\
  (exists r, lap_body arZ (fun x => x) 1 2 12 2 1 false = Ok (Some r)) /\
  lap_body arZ (fun x => x) 1 16 12 2 1 false = Undef OobRead.
Proof.
  split; [|split; [|split]].
  - eexists. split; [vm_compute; reflexivity|]. right. intros [|[|[|j]]] Hj; cbn [cd_getDecomp c_decomp nth] in *; vm_compute; try reflexivity; try (vm_compute in Hj; discriminate Hj).
  - eexists. split; [vm_compute; reflexivity|]. cbn [cd_getDecomp c_decomp].
    intros [(q & X)|X]; [change (2 ^ 64) with 18446744073709551616 in X; lia|]. specialize (X 0%nat ltac:(cbn; lia)). vm_compute in X. discriminate.
  - eexists. vm_compute. reflexivity.
  - vm_compute. reflexivity.
Qed.

(** upwindMpi with 6 x 6 x 6 cells on two processes; testStencil2d with 10 x 10 cells on four. *)
Example C71_example_upwindMpi : um_body arZ [1; 1; 1] [60; 60; 60] 2 6 1 false = Undef OobRead.
Proof. vm_compute. reflexivity. Qed.
Example C71_example_testStencil2d : st2_body arZ 4 10 false = Undef OobRead /\ exists r, st2_body arZ 4 12 false = Ok r.
Proof. split; [vm_compute; reflexivity|eexists; vm_compute; reflexivity]. Qed.

Example C71_example_default_decomposable : decomposable 2 [8000; 8000].
Proof. exists [2; 1]. split; [reflexivity|]. split; [|reflexivity]. intros [|[|j]] Hj; cbn [nth length] in *; try lia; (split; [lia|]); [exists 4000|exists 8000]; reflexivity. Qed.
