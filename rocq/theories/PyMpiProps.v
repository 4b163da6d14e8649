(** * Properties of the MPI version in Python of the upwind benchmark: C85 *)
From Coq Require Import List ZArith Bool Lia Permutation Reals Lra String SpecFloat.
From Verif Require Import Cpp CppProof MaiModel MaiSpec Radix MaiProof CmdModel CdModel CdSpec CdProof FilterModel FilterSpec FilterProof
  FilterSum RealArith Ieee Double LapSpec LapProof UpModel UpSpec UpProof UpExact UpProps AccModel AccSpec AccProof AccProps
  UpMpiProof UpMpiProps LangSpec FortModel FortProof FortProps NumModel NumProof TextModel TextProof PySpec PyModel PyProof PyProps PyMpiSpec PyMpiModel PyMpiProof.
From Coq Require Import List.
Import ListNotations.
Local Open Scope Z_scope.
Local Arguments prodZ : simpl never.
Local Arguments Z.of_nat : simpl never.

(** Three axes, fewer than 2^31 cells, and a uniform decomposition for [sz] processes. *)
Definition pm_args {D} (sz : Z) (dims dec : list Z) (v lengths : list D) : Prop :=
  grid_ok dims /\ is_decomp sz dims dec /\ List.length dims = 3%nat /\ List.length v = 3%nat /\ List.length lengths = 3%nat.

(** What the processes own: the box between iBeg and iEnd and the values there. *)
Definition pm_pieces {D} (w : list (pm D)) : list (list Z * list Z * list D) := map (fun p => (pm_iBeg p, pm_iEnd p, pm_f p)) w.

(** Processes whose objects were built by the constructor, the fields being arbitrary. *)
Definition pm_object {D} (ar : arith D) (sz : Z) (dims dec : list Z) (v lengths : list D) (w : list (pm D)) : Prop :=
  exists w0, pm_world ar sz dec v lengths dims = Ok w0 /\ Forall2 (fun p0 p => exists f fOld, p = pm_setF p0 f fOld) w0 w.

Section Objects.
  Context {D : Type} (ar : arith D).
  Variables (sz : Z) (dims dec : list Z) (v lengths : list D).
  Hypothesis Ha : pm_args sz dims dec v lengths.
  Let ns := local_dims dims dec.
  Let W := all_of ar sz dims dec v lengths.
  Let Sh := share (D := D) dims dec.

  Lemma args_parts : grid_ok dims /\ is_decomp sz dims dec /\ List.length dims = 3%nat /\ List.length v = 3%nat /\ List.length lengths = 3%nat.
  Proof using Ha. exact Ha. Qed.

  Lemma W_pieces F O : pm_pieces (W F O) = map (fun k => (beg_of dims dec (Z.of_nat k), end_of dims dec (Z.of_nat k), F (Z.of_nat k))) (seq 0 (Z.to_nat sz)).
  Proof using Type. clear. unfold pm_pieces, W, all_of. rewrite map_map. reflexivity. Qed.

  Lemma object_of w : pm_object ar sz dims dec v lengths w <-> exists F O, w = W F O.
  Proof using Ha.
    destruct args_parts as (Hg & Hd & H3 & Hv & Hl). unfold pm_object. rewrite world_eq by assumption. split.
    - intros (w0 & E & H). injection E as <-. exists (fun rk => nth (Z.to_nat rk) (map (@pm_f D) w) []), (fun rk => nth (Z.to_nat rk) (map (@pm_fOld D) w) []).
      assert (Hd0 : exists d : pm D, True) by (exists (pm_of ar dims dec v lengths 0 [] []); exact I). destruct Hd0 as [d _].
      pose proof (proj1 (Forall2_nth _ _ _ d d) H) as [L K]. clear H. unfold W. unfold all_of in *. rewrite map_length, seq_length in L, K.
      apply (nth_ext' d); [rewrite map_length, seq_length; symmetry; exact L|]. intros k Hk. rewrite <- L in Hk. rewrite map_seq_nth by lia. rewrite Nat2Z.id.
      rewrite (nth_indep (map (@pm_f D) w) [] (pm_f d)) by (rewrite map_length; lia). rewrite map_nth.
      rewrite (nth_indep (map (@pm_fOld D) w) [] (pm_fOld d)) by (rewrite map_length; lia). rewrite map_nth.
      destruct (K k ltac:(lia)) as (f & fo & E). rewrite map_seq_nth in E by lia. rewrite E. reflexivity.
    - intros (F & O & ->). eexists. split; [reflexivity|]. unfold W, all_of. generalize (seq 0 (Z.to_nat sz)). intros l. induction l as [|k l IH]; constructor; [|exact IH]. eexists _, _. reflexivity.
  Qed.

  Lemma W_distributed G O : distributed_c dims G (pm_pieces (W (Sh G) O)).
  Proof using Ha.
    destruct args_parts as (Hg & Hd & H3 & Hv & Hl). split.
    - rewrite W_pieces, map_map. cbn [fst]. apply tiling_boxes; assumption.
    - intros lo hi data H. rewrite W_pieces in H. apply in_map_iff in H as (k & E & Hk). inversion E; subst. rewrite (box_glob sz) by exact Hd. rewrite map_map. reflexivity.
  Qed.

  Lemma W_of G F O : distributed_c dims G (pm_pieces (W F O)) -> W F O = W (Sh G) O.
  Proof using Ha.
    destruct args_parts as (Hg & Hd & H3 & Hv & Hl). intros (_ & H). unfold W, all_of. apply map_ext_in. intros k Hk. f_equal.
    rewrite (H (beg_of dims dec (Z.of_nat k)) (end_of dims dec (Z.of_nat k)) (F (Z.of_nat k))).
    - rewrite (box_glob sz) by exact Hd. rewrite map_map. reflexivity.
    - rewrite W_pieces. apply in_map_iff. exists k. auto.
  Qed.

  (** Every field can be distributed over the processes. *)
  Lemma object_with G : exists w, pm_object ar sz dims dec v lengths w /\ distributed_c dims G (pm_pieces w).
  Proof using Ha. exists (W (Sh G) (fun _ => [])). split; [apply object_of; eauto|apply W_distributed]. Qed.
End Objects.

(** ** The constructor: the boxes of the processes tile the grid; one in the first cell, zero in the others. *)
Theorem C85_constructor {D} (ar : arith D) sz dims dec v lengths :
  pm_args sz dims dec v lengths ->
  exists w, pm_world ar sz dec v lengths dims = Ok w /\ pm_object ar sz dims dec v lengths w /\ vlen w = sz /\
    distributed_c dims (corner (a_ofZ ar 0) (a_ofZ ar 1) dims) (pm_pieces w).
Proof.
  intros Ha. pose proof Ha as (Hg & Hd & H3 & Hv & Hl). exists (all_of ar sz dims dec v lengths (share dims dec (corner (a_ofZ ar 0) (a_ofZ ar 1) dims)) (fun _ => zeros ar dims dec)).
  assert (E : all_of ar sz dims dec v lengths (init ar dims dec) (fun _ => zeros ar dims dec) =
    all_of ar sz dims dec v lengths (share dims dec (corner (a_ofZ ar 0) (a_ofZ ar 1) dims)) (fun _ => zeros ar dims dec)).
  { unfold all_of. apply map_ext_in. intros k Hk. apply in_seq in Hk. f_equal. apply (init_share ar sz); auto. lia. }
  split; [rewrite world_eq by assumption; f_equal; exact E|]. split; [apply (object_of ar); eauto|]. split; [|apply W_distributed; exact Ha].
  unfold vlen, all_of. rewrite map_length, seq_length. pose proof (sz_pos sz dims dec Hd). lia.
Qed.
Print Assumptions C85_constructor.

(** ** Any number of time steps, any arithmetic: what is computed, in the order in which it is computed *)
Theorem C85_formula {D} (ar : arith D) psum sz dims dec v lengths w G dt n :
  pm_args sz dims dec v lengths -> pm_object ar sz dims dec v lengths w -> distributed_c dims G (pm_pieces w) ->
  exists w', pm_run ar psum w n dt = Ok w' /\ pm_object ar sz dims dec v lengths w' /\
    distributed_c dims (mpi_iter ar (Z.to_nat n) psum dims dec v lengths dt G) (pm_pieces w').
Proof.
  intros Ha Ho HG. apply (object_of ar _ _ _ _ _ Ha) in Ho as (F & O & ->). rewrite (W_of ar _ _ _ _ _ Ha _ _ _ HG). pose proof Ha as (Hg & Hd & H3 & Hv & Hl).
  destruct (run_eq ar psum sz dims dec v lengths Hg Hd H3 dt G n O) as (O' & E). eexists. split; [exact E|]. split; [apply (object_of ar); eauto|apply W_distributed; exact Ha].
Qed.
Print Assumptions C85_formula.

(** ** gatherRoot: the values of the whole grid, in the order of the serial program *)
Theorem C85_gather {D} (ar : arith D) sz dims dec v lengths w G :
  pm_args sz dims dec v lengths -> pm_object ar sz dims dec v lengths w -> distributed_c dims G (pm_pieces w) ->
  pm_gather ar dec dims w = Ok (map G (cells dims)).
Proof.
  intros Ha Ho HG. apply (object_of ar _ _ _ _ _ Ha) in Ho as (F & O & ->). rewrite (W_of ar _ _ _ _ _ Ha _ _ _ HG). pose proof Ha as (Hg & Hd & H3 & Hv & Hl).
  apply gather_eq; assumption.
Qed.
Print Assumptions C85_gather.

(** ** In the real numbers *)
Lemma psum_real psum (l : list R) : sums arR psum -> psum l = sum_of arR l.
Proof. intros H. destruct (H l) as (zs & _ & Hz & Hr). apply (zeros_sum _ _ _ Hz Hr). Qed.

Definition reach_formula (dims dec : list Z) (v lengths : list R) (dt : R) (G : list Z -> R) (g : list Z) : R :=
  let t j := (courant arR dims v lengths dt j * (G (neighbour dims g j (reach arR dims dec v g j)) - G g))%R in
  (G g - t 0%nat - t 1%nat - t 2%nat)%R.

Lemma mpi_formula_real psum dims dec v lengths dt G g : sums arR psum -> List.length dims = 3%nat ->
  mpi_formula arR psum dims dec v lengths dt G g = reach_formula dims dec v lengths dt G g.
Proof.
  intros Hp H3. unfold mpi_formula, reach_formula. rewrite H3, (psum_real psum) by exact Hp.
  assert (C : forall j, (dt * rate arR dims v lengths j)%R = courant arR dims v lengths dt j).
  { intros j. unfold rate, courant. cbn [arR a_div a_mul]. unfold Rdiv. ring. }
  set (nb := fun j => G (neighbour dims g j (reach arR dims dec v g j))).
  change (seq 0 3) with [0; 1; 2]%nat. cbn [map].
  assert (Es : sum_of arR [rate arR dims v lengths 0; rate arR dims v lengths 1; rate arR dims v lengths 2] =
    (rate arR dims v lengths 0 + (rate arR dims v lengths 1 + (rate arR dims v lengths 2 + 0)))%R) by reflexivity.
  rewrite Es. rewrite <- !C. fold (nb 0%nat) (nb 1%nat) (nb 2%nat). cbn [filter].
  destruct (first_layer dims dec g 0), (first_layer dims dec g 1), (first_layer dims dec g 2); cbn [negb app fold_left arR a_sub a_mul a_add];
    fold (nb 0%nat) (nb 1%nat) (nb 2%nat); ring.
Qed.

Lemma upwind_formula_real dims v lengths dt G g : List.length dims = 3%nat ->
  upwind_formula arR dims v lengths dt G g =
  (let t j := (courant arR dims v lengths dt j * (G (neighbour dims g j (upwind_side arR (axis_velocity arR v j))) - G g))%R in
   G g - t 0%nat - t 1%nat - t 2%nat)%R.
Proof. intros H3. unfold upwind_formula. rewrite H3. reflexivity. Qed.

Lemma map_in_eq {A B} (f h : A -> B) l : map f l = map h l -> forall x, In x l -> f x = h x.
Proof. induction l as [|y l IH]; intros E x []; injection E as E1 E2; [subst; exact E1|apply IH; assumption]. Qed.

(** The velocity is not negative, or every process has one cell along the axis. *)
Definition served (dims dec : list Z) (v : list R) : Prop :=
  forall j, (j < 3)%nat -> (axis_velocity arR v j < 0)%R -> own_cells dims dec j = 1.

Lemma side_real x : upwind_side arR x = if Rlt_dec x 0 then 1 else -1.
Proof.
  unfold upwind_side. cbn [arR a_lt a_dec]. replace (IZR 0 / powerRZ 10 1)%R with 0%R by (simpl; lra). destruct (Rlt_dec x 0); reflexivity.
Qed.

Lemma reach_right dims dec v g j : ((axis_velocity arR v j < 0)%R -> own_cells dims dec j = 1) ->
  reach arR dims dec v g j = upwind_side arR (axis_velocity arR v j).
Proof.
  intros H. unfold reach, first_layer. rewrite side_real. destruct (Rlt_dec (axis_velocity arR v j) 0) as [N|N].
  - rewrite H by exact N. rewrite Z.mod_1_r. reflexivity.
  - rewrite andb_false_r. reflexivity.
Qed.

(** When the velocities are not negative the processes compute the upwind scheme, whatever the decomposition. *)
Theorem C85_right psum sz dims dec v lengths w G dt n :
  sums arR psum -> pm_args sz dims dec v lengths -> served dims dec v ->
  pm_object arR sz dims dec v lengths w -> distributed_c dims G (pm_pieces w) ->
  exists w', pm_run arR psum w n dt = Ok w' /\ pm_object arR sz dims dec v lengths w' /\
    distributed_c dims (upwind_iter arR (Z.to_nat n) dims v lengths dt G) (pm_pieces w').
Proof.
  intros Hp Ha Hs Ho HG. pose proof Ha as (Hg & Hd & H3 & Hv & Hl). destruct (C85_formula arR psum sz dims dec v lengths w G dt n Ha Ho HG) as (w' & E & Ho' & Hw).
  exists w'. split; [exact E|]. split; [exact Ho'|]. destruct Hw as [Ht Hw]. split; [exact Ht|]. intros lo hi data Hin. rewrite (Hw lo hi data Hin).
  apply map_ext_in. intros g Hgi. assert (Gg : in_grid dims g).
  { destruct Ht as [Ht _]. assert (Hb : In (lo, hi) (map fst (pm_pieces w'))) by (apply in_map_iff; exists (lo, hi, data); auto). destruct (Ht lo hi Hb) as (L1 & L2 & Hin2).
    apply Hin2. apply in_row_major in Hgi; [exact Hgi|congruence]. }
  assert (Hpos : pos_axes dims) by (intros j Hj; apply Hg; exact Hj). clear Hgi Hw E. revert g Gg. induction (Z.to_nat n) as [|k IH]; intros g Gg; [reflexivity|]. cbn [mpi_iter upwind_iter].
  rewrite mpi_formula_real, upwind_formula_real by assumption. unfold reach_formula.
  assert (R : forall j, (j < 3)%nat -> reach arR dims dec v g j = upwind_side arR (axis_velocity arR v j)).
  { intros j Hj. apply reach_right. apply Hs. exact Hj. }
  rewrite !R by lia. cbv zeta. rewrite (IH g Gg), !IH by (apply neighbour_in; auto). reflexivity.
Qed.
Print Assumptions C85_right.

(** ... and this is exactly the case in which they do: otherwise some field is advanced wrongly. *)
Theorem C85_exactly psum sz dims dec v lengths dt :
  sums arR psum -> pm_args sz dims dec v lengths -> dt <> 0%R -> (forall j, (j < 3)%nat -> nth j lengths 0%R <> 0%R) ->
  ((forall w G, pm_object arR sz dims dec v lengths w -> distributed_c dims G (pm_pieces w) ->
      exists w', pm_advect arR psum dt w = Ok w' /\ distributed_c dims (upwind_formula arR dims v lengths dt G) (pm_pieces w')) <->
   served dims dec v).
Proof.
  intros Hp Ha Hdt Hlen. pose proof Ha as (Hg & Hd & H3 & Hv & Hl). split.
  - intros H j Hj Hneg. destruct (Z.eq_dec (own_cells dims dec j) 1) as [|Hne]; [assumption|exfalso].
    assert (Hj3 : (j < List.length dims)%nat) by lia. pose proof (ns_pos sz dims dec Hg Hd j Hj3) as Np. pose proof (ns_mul sz dims dec Hd j Hj3) as Nm. pose proof (dec_pos sz dims dec Hd j Hj3) as Dp.
    unfold own_cells in Hne. set (l := nth j (local_dims dims dec) 0) in *. set (N := nth j dims 0) in *. assert (Hl2 : 2 <= l) by lia. assert (HlN : l <= N) by nia.
    assert (Hpos : pos_axes dims) by (intros k Hk; apply Hg; exact Hk).
    set (g := repeat 0 (List.length dims)). assert (Gg : in_grid dims g).
    { apply in_grid_nth. split; [apply repeat_length|]. intros k Hk. unfold g. rewrite nth_repeat0. specialize (Hpos k Hk). lia. }
    set (p := neighbour dims g j 1). assert (Gp : in_grid dims p) by (apply neighbour_in; auto).
    set (G := fun h => if list_eq_dec Z.eq_dec h p then 1%R else 0%R).
    destruct (object_with arR sz dims dec v lengths Ha G) as (w & Ho & HG). destruct (H w G Ho HG) as (w' & E & Hw').
    destruct (C85_formula arR psum sz dims dec v lengths w G dt 1 Ha Ho HG) as (w2 & E2 & Ho2 & Hw2).
    unfold pm_run, for_upto in E2. change (Z.to_nat 1) with 1%nat in E2. cbn [for_from] in E2. rewrite E in E2. cbn [bind] in E2. injection E2 as <-.
    pose proof (C85_gather arR sz dims dec v lengths w' _ Ha Ho2 Hw') as G1. pose proof (C85_gather arR sz dims dec v lengths w' _ Ha Ho2 Hw2) as G2. rewrite G1 in G2. injection G2 as G2.
    assert (Eg : upwind_formula arR dims v lengths dt G g = mpi_formula arR psum dims dec v lengths dt G g).
    { change (Z.to_nat 1) with 1%nat in G2. cbn [mpi_iter] in G2. apply (map_in_eq _ _ _ G2). apply in_cells. exact Gg. }
    rewrite mpi_formula_real, upwind_formula_real in Eg by assumption. unfold reach_formula in Eg. cbv zeta in Eg.
    assert (pj : nth j p 0 = 1). { unfold p. rewrite nbr_nth by assumption. rewrite Nat.eqb_refl. unfold g. rewrite nth_repeat0. apply Z.mod_small. fold N. lia. }
    assert (Gg0 : G g = 0%R). { unfold G. destruct (list_eq_dec Z.eq_dec g p) as [E0|]; [|reflexivity]. exfalso. assert (nth j g 0 = nth j p 0) by congruence. unfold g in H0. rewrite nth_repeat0, pj in H0. lia. }
    assert (Go : forall k d, (k < 3)%nat -> k <> j -> G (neighbour dims g k d) = 0%R).
    { intros k d Hk Hkj. unfold G. destruct (list_eq_dec Z.eq_dec (neighbour dims g k d) p) as [E0|]; [|reflexivity]. exfalso.
      assert (nth j (neighbour dims g k d) 0 = nth j p 0) by congruence. rewrite nbr_nth in H0 by (auto; lia). rewrite pj in H0. destruct (Nat.eqb_spec j k); [congruence|]. unfold g in H0. rewrite nth_repeat0 in H0. lia. }
    assert (Gr : G (neighbour dims g j (reach arR dims dec v g j)) = 0%R).
    { unfold reach, first_layer, own_cells. fold l. rewrite side_real. destruct (Rlt_dec (axis_velocity arR v j) 0) as [_|C]; [|contradiction].
      unfold g at 2. rewrite nth_repeat0, Z.mod_0_l by lia. cbn [Z.eqb andb Pos.eqb].
      unfold G. destruct (list_eq_dec Z.eq_dec (neighbour dims g j l) p) as [E0|]; [|reflexivity]. exfalso.
      assert (H0 : nth j (neighbour dims g j l) 0 = nth j p 0) by congruence. rewrite nbr_nth in H0 by assumption. rewrite pj, Nat.eqb_refl in H0. unfold g in H0. rewrite nth_repeat0 in H0. fold N in H0.
      destruct (Z.eq_dec l N) as [EN|EN]; [rewrite EN, Z.add_0_l, Z_mod_same_full in H0; lia|rewrite Z.mod_small in H0 by lia; lia]. }
    assert (Gs : G (neighbour dims g j (upwind_side arR (axis_velocity arR v j))) = 1%R).
    { rewrite side_real. destruct (Rlt_dec (axis_velocity arR v j) 0) as [_|C]; [|contradiction]. fold p. unfold G. destruct (list_eq_dec Z.eq_dec p p); [reflexivity|contradiction]. }
    assert (Cj : courant arR dims v lengths dt j <> 0%R).
    { unfold courant, cell_size. rewrite side_real. destruct (Rlt_dec (axis_velocity arR v j) 0) as [_|C]; [|contradiction]. cbn [arR a_div a_mul a_ofZ a_zero]. specialize (Hlen j Hj).
      assert (IZR (nth j dims 0) <> 0%R) by (apply not_0_IZR; fold N; lia). unfold Rdiv. repeat apply Rmult_integral_contrapositive_currified; try assumption; try lra.
      apply Rinv_neq_0_compat. apply Rmult_integral_contrapositive_currified; [exact Hlen|]. apply Rinv_neq_0_compat. assumption. }
    rewrite Gg0 in Eg. apply Cj. destruct j as [|[|[|j]]]; [..|lia].
    + rewrite !(Go 1%nat), !(Go 2%nat), Gr, Gs in Eg by lia. lra.
    + rewrite !(Go 0%nat), !(Go 2%nat), Gr, Gs in Eg by lia. lra.
    + rewrite !(Go 0%nat), !(Go 1%nat), Gr, Gs in Eg by lia. lra.
  - intros Hs w G Ho HG. destruct (C85_right psum sz dims dec v lengths w G dt 1 Hp Ha Hs Ho HG) as (w' & E & _ & Hw). exists w'. split; [|exact Hw].
    unfold pm_run, for_upto in E. change (Z.to_nat 1) with 1%nat in E. cbn [for_from] in E. destruct (pm_advect arR psum dt w); [exact E|discriminate].
Qed.
Print Assumptions C85_exactly.

(** ** main: velocity (1, 1, 1), lengths (1, 1, 1), n cells along each axis *)
Lemma cube_pm {D} (o : D) sz dec n : 1 <= n -> n * n * n < 2 ^ 31 -> is_decomp sz [n; n; n] dec -> pm_args sz [n; n; n] dec (repeat o 3) (repeat o 3).
Proof.
  intros H1 H2 Hd. split; [|split; [exact Hd|repeat split]]. split; [discriminate|]. split; [cbn; lia|]. split; [|rewrite cube_prod; exact H2].
  intros [|[|[|j]]] Hj; cbn in *; lia.
Qed.

(** Any arithmetic, any decomposition: the fields after the time steps. *)
Theorem C85_body {D} (ar : arith D) psum sz dec n steps : 1 <= n -> n * n * n < 2 ^ 31 -> is_decomp sz [n; n; n] dec ->
  let o3 := repeat (a_ofZ ar 1) 3 in
  let F := mpi_iter ar (Z.to_nat steps) psum [n; n; n] dec o3 o3 (py_step ar n) (corner (a_ofZ ar 0) (a_ofZ ar 1) [n; n; n]) in
  exists w, pm_body ar psum sz dec n steps = Ok w /\ pm_object ar sz [n; n; n] dec o3 o3 w /\ distributed_c [n; n; n] F (pm_pieces w) /\
    pm_gather ar dec [n; n; n] w = Ok (map F (cells [n; n; n])).
Proof.
  intros H1 H2 Hd o3 F. pose proof (cube_pm (a_ofZ ar 1) sz dec n H1 H2 Hd) as Ha. destruct (C85_constructor ar _ _ _ _ _ Ha) as (w & Ew & Ho & _ & HG).
  destruct (C85_formula ar psum _ _ _ _ _ w _ (py_step ar n) steps Ha Ho HG) as (w' & Ew' & Ho' & HG'). exists w'. split; [|split; [exact Ho'|split; [exact HG'|apply (C85_gather ar _ _ _ _ _ _ _ Ha Ho' HG')]]].
  unfold pm_body. rewrite py_dt_eq. cbn [bind]. change (repeat n 3) with [n; n; n]. rewrite Ew. cbn [bind]. exact Ew'.
Qed.
Print Assumptions C85_body.

Lemma loops_perm lo hi : List.length lo = List.length hi -> Permutation (row_major lo hi) (col_major lo hi).
Proof.
  intros H. apply NoDup_Permutation; [apply (NoDup_nested_loops true)|apply (NoDup_nested_loops false)|]. intros g.
  rewrite (in_nested_loops false) by exact H. apply (in_nested_loops true). exact H.
Qed.

Lemma perm_concat {A B} (f h : A -> list B) l : (forall x, In x l -> Permutation (f x) (h x)) -> Permutation (List.concat (map f l)) (List.concat (map h l)).
Proof. induction l as [|x l IH]; intros H; [constructor|]. cbn [map List.concat]. apply Permutation_app; [apply H; left; reflexivity|apply IH; intros y Hy; apply H; right; exact Hy]. Qed.

Lemma pieces_perm {D} dims (G : list Z -> D) pieces : distributed_c dims G pieces -> Permutation (List.concat (map snd pieces)) (map G (cells dims)).
Proof.
  intros [Ht Hd]. transitivity (map G (List.concat (map (fun b => row_major (fst b) (snd b)) (map fst pieces)))).
  - rewrite concat_map, !map_map. erewrite map_ext_in; [reflexivity|]. intros [[lo hi] data] Hin. cbn [fst snd]. apply Hd. exact Hin.
  - apply Permutation_map. transitivity (grid_cells dims).
    + rewrite <- (tiling_cells dims (map fst pieces) Ht). apply perm_concat. intros [lo hi] Hb. cbn [fst snd]. destruct Ht as [Ht _]. destruct (Ht lo hi Hb) as (L1 & L2 & _). apply loops_perm. congruence.
    + symmetry. apply loops_perm. apply repeat_length.
Qed.

Lemma adds_all_real red ls : adds_all arR red -> red ls = sum_of arR (List.concat ls).
Proof.
  intros H. destruct (H ls) as (zs & Hz & Hr). apply (zeros_sum _ zs); [|exact Hr]. intros z Hi. left. rewrite (Hz z Hi). cbn [arR a_dec a_ofZ]. simpl. lra.
Qed.

(** In the real numbers: whatever the decomposition, the gathered field is that of upwind.py and of upwind.cxx, and the check sum is 1. *)
Theorem C85_driver psum red sz dec n steps doVtk doStd : sums arR psum -> adds_all arR red ->
  1 <= n -> n * n * n < 2 ^ 31 -> is_decomp sz [n; n; n] dec ->
  exists w p r, pm_body arR psum sz dec n steps = Ok w /\ py_body arR n steps = Ok p /\ up_body arR sqrt n steps doVtk doStd = Ok r /\
    pm_gather arR dec [n; n; n] w = Ok (py_f p) /\ py_f p = up_f (ur_up r) /\ red (map (@pm_f R) w) = 1%R.
Proof.
  intros Hp Hr H1 H2 Hd. destruct (C85_body arR psum sz dec n steps H1 H2 Hd) as (w & Ew & Ho & _ & _). set (o3 := repeat (a_ofZ arR 1) 3) in *.
  destruct (C76_driver n steps doVtk doStd H1 H2) as (p & r & Ep & Er & Ef & Hs). exists w, p, r. split; [exact Ew|]. split; [exact Ep|]. split; [exact Er|].
  pose proof (cube_pm (a_ofZ arR 1) sz dec n H1 H2 Hd) as Ha. fold o3 in Ha. destruct (C85_constructor arR _ _ _ _ _ Ha) as (w0 & Ew0 & Ho0 & _ & HG0).
  assert (Sv : served [n; n; n] dec o3). { intros j Hj Hneg. exfalso. destruct j as [|[|[|j]]]; [..|lia]; unfold axis_velocity, o3 in Hneg; cbn in Hneg; lra. }
  destruct (C85_right psum _ _ _ _ _ w0 _ (py_step arR n) steps Hp Ha Sv Ho0 HG0) as (w' & Ew' & Ho' & HG').
  assert (Eq : w' = w).
  { unfold pm_body in Ew. rewrite py_dt_eq in Ew. cbn [bind] in Ew. change (repeat n 3) with [n; n; n] in Ew. fold o3 in Ew. rewrite Ew0 in Ew. cbn [bind] in Ew. rewrite Ew' in Ew. injection Ew. auto. }
  subst w'. destruct (py_body_eq arR n steps H1 H2) as (p' & Ep' & _ & Hf). rewrite Ep in Ep'. injection Ep' as <-. fold o3 in Hf.
  assert (Hfw : map (upwind_iter arR (Z.to_nat steps) [n; n; n] o3 o3 (py_step arR n) (corner (a_ofZ arR 0) (a_ofZ arR 1) [n; n; n])) (cells [n; n; n]) = py_f p).
  { rewrite Hf. rewrite upwind_iter_scheme. apply map_ext. intros g. apply scheme_iter_ext; [|reflexivity]. intros j a b. destruct C48_reals as (HR1 & HR2). unfold py_term, cxx_term. rewrite HR2, HR1. reflexivity. }
  split; [rewrite (C85_gather arR _ _ _ _ _ _ _ Ha Ho' HG'), Hfw; reflexivity|]. split; [exact Ef|].
  rewrite (adds_all_real red) by exact Hr. pose proof (pieces_perm _ _ _ HG') as P. unfold pm_pieces in P. rewrite map_map in P. cbn [snd] in P.
  transitivity (sum_of arR (py_f p)); [rewrite <- Hfw; apply (sum_perm arR (en_ring _ arR_exact)); exact P|]. rewrite <- (psum_real psum) by exact Hp. apply Hs. exact Hp.
Qed.
Print Assumptions C85_driver.

(** ** The file: the same text as upwind.py writes for the same field *)
Theorem C85_file {D} (ar : arith D) show sz dec n w p :
  (forall x y, a_mul ar x y = a_mul ar y x) -> 1 <= n -> n * n * n < 2 ^ 31 -> is_decomp sz [n; n; n] dec ->
  let o3 := repeat (a_ofZ ar 1) 3 in
  pm_object ar sz [n; n; n] dec o3 o3 w -> py_object ar [n; n; n] o3 o3 p -> pm_gather ar dec [n; n; n] w = Ok (py_f p) ->
  exists text, pm_vtk ar show dec [n; n; n] w = Ok text /\ py_saveVTK ar show p = Ok text.
Proof.
  intros Hc H1 H2 Hd o3 Ho Hp Hf. pose proof (cube_pm (a_ofZ ar 1) sz dec n H1 H2 Hd) as Ha. fold o3 in Ha. destruct (cube_args (a_ofZ ar 1) n H1 H2) as (Hu & _). fold o3 in Hu.
  apply (object_of ar _ _ _ _ _ Ha) in Ho as (F & O & ->). apply (py_object_of ar _ _ _ _ Hu) in Hp as (f & L & ->). cbn [py_of py_f] in Hf.
  exists (py_file ar show [n; n; n] o3 f). split; [|apply py_saveVTK_eq; [exact Hu|cbn; lia|exact L]].
  rewrite <- (py_saveVTK_eq ar show [n; n; n] o3 o3 f Hu ltac:(cbn; lia) L). unfold pm_vtk. rewrite Hf. cbn [bind].
  pose proof (sz_pos sz _ _ Hd) as Hsz. assert (E0 : exists f0 old, vget (all_of ar sz [n; n; n] dec o3 o3 F O) 0 = Ok (pm_of ar [n; n; n] dec o3 o3 0 f0 old)).
  { unfold all_of. destruct (Z.to_nat sz) eqn:Es; [lia|]. cbn [seq map]. eexists _, _. reflexivity. }
  destruct E0 as (f0 & old & ->). cbn [bind].
  assert (Et : forall d, tabulate (n + 1) (fun i => Ok (a_add ar (a_dec ar 0 1) (a_mul ar (a_ofZ ar i) d))) = tabulate (n + 1) (fun i => Ok (a_add ar (a_dec ar 0 1) (a_mul ar d (a_ofZ ar i))))).
  { intros d. unfold tabulate. generalize (Z.to_nat (n + 1)). intros m. generalize 0%nat. induction m as [|m IH]; intros a; [reflexivity|]. cbn [tab_from]. rewrite IH, Hc. reflexivity. }
  assert (E1 : pm_coords ar (pm_of ar [n; n; n] dec o3 o3 0 f0 old) [n; n; n] 0 0 = py_coords ar (py_of ar [n; n; n] o3 o3 f) 2) by exact (Et _).
  assert (E2 : pm_coords ar (pm_of ar [n; n; n] dec o3 o3 0 f0 old) [n; n; n] 1 1 = py_coords ar (py_of ar [n; n; n] o3 o3 f) 1) by exact (Et _).
  assert (E3 : pm_coords ar (pm_of ar [n; n; n] dec o3 o3 0 f0 old) [n; n; n] 1 2 = py_coords ar (py_of ar [n; n; n] o3 o3 f) 0) by exact (Et _).
  rewrite E1, E2, E3. unfold py_saveVTK. change (py_ndims (py_of ar [n; n; n] o3 o3 f)) with 3. change (2 <? 3) with true. change (1 <? 3) with true. change (0 <? 3) with true. cbv iota.
  change (fold_right Z.mul 1 (py_numCells (py_of ar [n; n; n] o3 o3 f))) with (prodZ [n; n; n]). change (py_f (py_of ar [n; n; n] o3 o3 f)) with f. rewrite L, Z.eqb_refl. reflexivity.
Qed.
Print Assumptions C85_file.

(** ** The program *)
Theorem C85_usage {D} (ar : arith D) psum show show_array read red cube time deleted sz argv : 0 <= sz -> (List.length argv <= 1)%nat ->
  exists rs, pm_main ar psum show show_array read red cube time deleted sz argv = Ok rs /\ vlen rs = sz /\
    (forall r, In r rs -> r_exit r = 1 /\ r_files r = [] /\ r_out r <> ""%string).
Proof.
  intros Hs H. eexists. split; [destruct argv as [|a [|b t]]; [reflexivity|reflexivity|cbn in H; lia]|]. split; [unfold vlen; rewrite !map_length, seq_length; lia|].
  intros r Hr. apply in_map_iff in Hr as (k & <- & _). repeat split; discriminate.
Qed.
Print Assumptions C85_usage.

(** When the library finds no decomposition every process says so and fails; nothing is computed. *)
Theorem C85_no_decomposition {D} (ar : arith D) psum show show_array read red cube time deleted sz exec a1 rest n steps vtk :
  0 <= sz -> read a1 = Some n -> py_rest read rest steps vtk -> 1 <= n -> cube sz [n; n; n] = [] ->
  exists rs, pm_main ar psum show show_array read red cube time deleted sz (exec :: a1 :: rest) = Ok rs /\ vlen rs = sz /\
    (forall r, In r rs -> r_exit r = 1 /\ r_files r = [] /\
       exists rest, r_out r = ("*** No uniform decomposition could be found for " ++ show_int sz ++ " processes" ++ rest)%string).
Proof.
  intros Hs R1 R2 H1 Hc. eexists. split.
  - unfold pm_main. rewrite R1. cbn [bind]. assert (Hn : (n <? 1) = false) by (apply Z.ltb_ge; lia).
    destruct rest as [|a2 [|a3 t]]; cbn [py_rest] in R2; destruct R2 as (R2 & Rv); [|rewrite R2|rewrite R2]; cbn [bind]; rewrite Hn; change (repeat n 3) with [n; n; n]; rewrite Hc; reflexivity.
  - split; [unfold vlen; rewrite !map_length, seq_length; lia|]. intros r Hr. apply in_map_iff in Hr as (k & <- & _). split; [reflexivity|]. split; [reflexivity|]. eexists. reflexivity.
Qed.
Print Assumptions C85_no_decomposition.

(** Otherwise (exact arithmetic) process 0 writes the check sum 1 and, if asked, the file that upwind.py writes. *)
Theorem C85_program psum show show_array read red cube time deleted sz exec a1 rest n steps vtk :
  sums arR psum -> adds_all arR red -> read a1 = Some n -> py_rest read rest steps vtk -> 1 <= n -> n * n * n < 2 ^ 31 ->
  is_decomp sz [n; n; n] (cube sz [n; n; n]) ->
  exists r0 rs serial text, pm_main arR psum show show_array read red cube time deleted sz (exec :: a1 :: rest) = Ok (r0 :: rs) /\ 1 + vlen rs = sz /\
    (forall r, In r rs -> r_exit r = 0 /\ r_files r = [] /\ r_err r = ""%string) /\ r_exit r0 = 0 /\ r_err r0 = ""%string /\
    (exists pre, r_out r0 = pre ++ "check sum: " ++ show 1%R ++ newline)%string /\
    r_files r0 = (if vtk then [("upMPI.vtk"%string, text)] else []) /\
    py_main arR show read psum (exec :: a1 :: rest) = Ok serial /\ r_files serial = (if vtk then [("up.vtk"%string, text)] else []).
Proof.
  intros Hp Hr R1 R2 H1 H2 Hd. set (dec := cube sz [n; n; n]) in *.
  destruct (C85_driver psum red sz dec n steps false false Hp Hr H1 H2 Hd) as (w & p & _ & Ew & Ep & _ & Eg & _ & Es).
  destruct (py_main_eq arR show read psum exec a1 rest n steps vtk R1 R2 H1 H2) as (p' & text & Ep' & Et & Hpo & Em). rewrite Ep in Ep'. injection Ep' as <-.
  destruct (C85_body arR psum sz dec n steps H1 H2 Hd) as (w2 & Ew2 & Ho & _). rewrite Ew in Ew2. injection Ew2 as <-.
  destruct (C85_file arR show sz dec n w p Rmult_comm H1 H2 Hd Ho Hpo Eg) as (text' & Ev & Et'). rewrite Et in Et'. injection Et' as <-.
  pose proof (sz_pos sz _ _ Hd) as Hsz. assert (Hdl : (vlen dec =? 0) = false) by (destruct Hd as (Ld & _); unfold vlen; rewrite Ld; reflexivity).
  assert (Hn : (n <? 1) = false) by (apply Z.ltb_ge; lia).
  set (all := map Z.of_nat (seq 0 (Z.to_nat sz))).
  set (own := fun rk => ("[" ++ show_int rk ++ "] local number of cells: " ++ show_array (mp_size [n; n; n] dec) ++ newline)%string).
  set (files := if vtk then [("upMPI.vtk"%string, text)] else []).
  set (out := fun rk => if rk =? 0 then
              mkRun (own rk ++ "number of cells: " ++ py_list_text [n; n; n] ++ newline ++
                     "Wall clock time spent in advection loop: " ++ time ++ " [sec]" ++ newline ++
                     "check sum: " ++ show (red (map (@pm_f R) w)) ++ newline) "" files 0
            else mkRun (own rk) "" [] 0).
  assert (E : pm_main arR psum show show_array read red cube time deleted sz (exec :: a1 :: rest) = Ok (map out all)).
  { unfold pm_main. rewrite R1. cbn [bind]. destruct rest as [|a2 [|a3 t]]; cbn [py_rest] in R2; destruct R2 as (R2 & Rv).
    - subst steps vtk. cbn [bind]. rewrite Hn. change (repeat n 3) with [n; n; n]. fold dec. rewrite Hdl, Ew. cbn [bind]. reflexivity.
    - subst vtk. rewrite R2. cbn [bind]. rewrite Hn. change (repeat n 3) with [n; n; n]. fold dec. rewrite Hdl, Ew. cbn [bind]. reflexivity.
    - rewrite R2. cbn [bind]. rewrite Hn. change (repeat n 3) with [n; n; n]. fold dec. rewrite Hdl, Ew. cbn [bind]. destruct (String.eqb_spec a3 "vtk") as [Ea|Ea]; destruct vtk.
      + rewrite Ev. reflexivity.
      + exfalso. apply Rv in Ea. discriminate.
      + exfalso. apply Ea, Rv. reflexivity.
      + reflexivity. }
  assert (Ea : all = 0 :: map Z.of_nat (seq 1 (Z.to_nat (sz - 1)))) by (unfold all; replace (Z.to_nat sz) with (S (Z.to_nat (sz - 1))) by lia; reflexivity).
  rewrite Ea in E. cbn [map] in E. eexists _, _, _, text. split; [exact E|]. split; [unfold vlen; rewrite !map_length, seq_length; lia|]. split.
  - intros r Hin. apply in_map_iff in Hin as (k & <- & Hk). apply in_map_iff in Hk as (m & <- & Hm). apply in_seq in Hm. unfold out. replace (Z.of_nat m =? 0) with false by (symmetry; apply Z.eqb_neq; lia). repeat split.
  - unfold out at 1 2 3 4. change (0 =? 0) with true. cbv iota. cbn [r_exit r_err r_out r_files]. split; [reflexivity|]. split; [reflexivity|]. split.
    + rewrite Es. exists (own 0 ++ "number of cells: " ++ py_list_text [n; n; n] ++ newline ++ "Wall clock time spent in advection loop: " ++ time ++ " [sec]" ++ newline)%string.
      rewrite !append_assoc. reflexivity.
    + split; [reflexivity|]. split; [exact Em|]. reflexivity.
Qed.
Print Assumptions C85_program.

(** ** What goes wrong *)
(** A velocity of -1 along the first axis, two cells along each axis, one process: a step is not that of the scheme. *)
Theorem C85_negative_refuted : exists sz dims dec v lengths dt, pm_args sz dims dec v lengths /\ (0 < dt)%R /\ lengths = [1; 1; 1]%R /\
  forall psum, sums arR psum ->
  ~ (forall w G, pm_object arR sz dims dec v lengths w -> distributed_c dims G (pm_pieces w) ->
       exists w', pm_advect arR psum dt w = Ok w' /\ distributed_c dims (upwind_formula arR dims v lengths dt G) (pm_pieces w')).
Proof.
  exists 1, [2; 2; 2], [1; 1; 1], [-1; 1; 1]%R, [1; 1; 1]%R, (1 / 20)%R.
  assert (Ha : pm_args 1 [2; 2; 2] [1; 1; 1] [-1; 1; 1]%R [1; 1; 1]%R).
  { split; [|split; [|repeat split]].
    - split; [discriminate|]. split; [cbn; lia|]. split; [intros [|[|[|j]]] Hj; cbn in *; lia|reflexivity].
    - split; [reflexivity|]. split; [|reflexivity]. intros [|[|[|j]]] Hj; cbn in Hj; try lia; (split; [cbn; lia|exists 2; reflexivity]). }
  split; [exact Ha|]. split; [lra|]. split; [reflexivity|]. intros psum Hp H.
  apply (C85_exactly psum _ _ _ _ _ _ Hp Ha) in H; [|lra|intros [|[|[|j]]] Hj; cbn; lra || lia].
  specialize (H 0%nat ltac:(lia) ltac:(cbn; lra)). vm_compute in H. discriminate.
Qed.
Print Assumptions C85_negative_refuted.

(** In double precision the bits of the result depend on the decomposition. *)
Theorem C85_decompositions_refuted : exists n steps w w' f f',
  let psum l := fold_left (a_add arD) l (a_ofZ arD 0) in
  is_decomp 1 [n; n; n] [1; 1; 1] /\ is_decomp 2 [n; n; n] [1; 2; 1] /\
  pm_body arD psum 1 [1; 1; 1] n steps = Ok w /\ pm_body arD psum 2 [1; 2; 1] n steps = Ok w' /\
  pm_gather arD [1; 1; 1] [n; n; n] w = Ok f /\ pm_gather arD [1; 2; 1] [n; n; n] w' = Ok f' /\ f <> f'.
Proof.
  exists 2, 5. set (psum := fun l => fold_left (a_add arD) l (a_ofZ arD 0)).
  assert (Hd : forall sz d, List.length d = 3%nat -> prodZ d = sz -> (forall x, In x d -> x = 1 \/ x = 2) -> is_decomp sz [2; 2; 2] d).
  { intros sz d L P H. split; [exact L|]. split; [|exact P]. intros j Hj. cbn in Hj. assert (Hi : In (nth j d 0) d) by (apply nth_In; lia). assert (E : nth j [2; 2; 2] 0 = 2) by (destruct j as [|[|[|j]]]; [..|lia]; reflexivity).
    rewrite E. destruct (H _ Hi) as [-> | ->]; (split; [lia|]); [exists 2|exists 1]; reflexivity. }
  assert (D1 : is_decomp 1 [2; 2; 2] [1; 1; 1]) by (apply Hd; [reflexivity..|intros x [<-|[<-|[<-|[]]]]; lia]).
  assert (D2 : is_decomp 2 [2; 2; 2] [1; 2; 1]) by (apply Hd; [reflexivity..|intros x [<-|[<-|[<-|[]]]]; lia]).
  destruct (pm_body arD psum 1 [1; 1; 1] 2 5) as [w|] eqn:E1; [|vm_compute in E1; discriminate]. destruct (pm_body arD psum 2 [1; 2; 1] 2 5) as [w'|] eqn:E2; [|vm_compute in E2; discriminate].
  exists w, w'. vm_compute in E1, E2. injection E1 as E1. injection E2 as E2. subst w w'. eexists _, _. split; [exact D1|]. split; [exact D2|]. split; [vm_compute; reflexivity|]. split; [vm_compute; reflexivity|].
  split; [vm_compute; reflexivity|]. split; [vm_compute; reflexivity|]. discriminate.
Qed.
Print Assumptions C85_decompositions_refuted.

(** ** Examples *)
Lemma cube4 : is_decomp 4 [4; 4; 4] [1; 2; 2].
Proof. split; [reflexivity|]. split; [|reflexivity]. intros [|[|[|j]]] Hj; cbn in Hj; try lia; (split; [cbn; lia|]); [exists 4|exists 2|exists 2]; reflexivity. Qed.

(** Four processes: the hypotheses of C85_constructor, C85_formula, C85_gather, C85_right, C85_body, C85_driver. *)
Example C85_example : pm_args 4 [4; 4; 4] [1; 2; 2] [1; 2; 0]%R [1; 1; 3]%R /\ served [4; 4; 4] [1; 2; 2] [1; 2; 0]%R /\
  exists w G, pm_object arR 4 [4; 4; 4] [1; 2; 2] [1; 2; 0]%R [1; 1; 3]%R w /\ distributed_c [4; 4; 4] G (pm_pieces w).
Proof.
  assert (Ha : pm_args 4 [4; 4; 4] [1; 2; 2] [1; 2; 0]%R [1; 1; 3]%R).
  { split; [|split; [exact cube4|repeat split]]. split; [discriminate|]. split; [cbn; lia|]. split; [intros [|[|[|j]]] Hj; cbn in *; lia|reflexivity]. }
  split; [exact Ha|]. split; [intros [|[|[|j]]] Hj; cbn; lra || lia|]. destruct (C85_constructor arR _ _ _ _ _ Ha) as (w & _ & Ho & _ & HG). eauto.
Qed.

(** With one cell per process along an axis a negative velocity is served too. *)
Example C85_example_served : served [2; 4; 4] [2; 1; 1] [-1; 2; 0]%R /\ is_decomp 2 [2; 4; 4] [2; 1; 1].
Proof.
  split; [intros [|[|[|j]]] Hj; cbn; [reflexivity|lra|lra|lia]|]. split; [reflexivity|]. split; [|reflexivity].
  intros [|[|[|j]]] Hj; cbn in Hj; try lia; (split; [cbn; lia|]); [exists 1|exists 4|exists 4]; reflexivity.
Qed.

(** numpy.sum and the reduction, as simple loops *)
Example C85_adds {D} (ar : arith D) : adds_all ar (fun ls => fold_left (a_add ar) (List.concat ls) (a_dec ar 0 1)).
Proof.
  intros ls. exists [a_dec ar 0 1]. split; [intros z [<-|[]]; reflexivity|]. cbn [app].
  assert (H : forall k x y, reduction (a_add ar) x y -> reduction (a_add ar) (x ++ k) (fold_left (a_add ar) k y)).
  { induction k as [|z k IH]; intros x y Hr; [rewrite app_nil_r; exact Hr|]. cbn [fold_left]. change (z :: k) with ([z] ++ k). rewrite app_assoc. apply IH.
    eapply red_node; [apply Permutation_refl|exact Hr|apply red_one]. }
  apply (H (List.concat ls) [a_dec ar 0 1]). apply red_one.
Qed.

(** One step on two processes computed by the model, exact arithmetic: a tenth of the unit moves to each upper neighbour. *)
Example C85_example_step : exists w, pm_body arQ (fun l => fold_left (a_add arQ) l (a_ofZ arQ 0)) 2 [1; 2; 1] 2 1 = Ok w /\
  pm_gather arQ [1; 2; 1] [2; 2; 2] w = Ok (map (fun k => Qreduction.Qred (QArith_base.Qmake k 10)) [7; 1; 1; 0; 1; 0; 0; 0]).
Proof. eexists. split; vm_compute; reflexivity. Qed.
