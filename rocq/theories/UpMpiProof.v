(** * The MPI upwind benchmark: stencil, loop, check sums *)
From Coq Require Import Sorted Permutation Ring_theory Ring Reals Lra.
From Verif Require Import Cpp CppProof OMap MaiModel MaiSpec Radix MaiProof CdModel CdSpec CdProof CdProps CmdModel
  FilterModel FilterSpec FilterProof FilterRank FilterWorld FilterSum FilterProg FilterProps RealArith LapModel LapSpec LapProof LapProps
  UpModel UpSpec UpProof UpExact UpProps AccProof UpMpiModel UpMpiSpec.
From Coq Require Import List.
Import ListNotations.
Local Open Scope Z_scope.
Local Arguments prodZ : simpl never.
Local Arguments Z.of_nat : simpl never.

Ltac three := unfold for_upto; change (Z.to_nat 3) with 3%nat; cbn [for_from];
  change (Z.of_nat 0) with 0; change (Z.of_nat 1) with 1; change (Z.of_nat 2) with 2.

(** ** Check sums over a tiling *)
Lemma tiling_cells dims boxes : tiling dims boxes ->
  Permutation (concat (map (fun b => col_major (fst b) (snd b)) boxes)) (grid_cells dims).
Proof.
  intros (Hin & Hex).
  assert (E : concat (map (fun b => col_major (fst b) (snd b)) boxes) =
     flat_map (fun i => let b := nth i boxes ([], []) in col_major (fst b) (snd b)) (seq 0 (length boxes))).
  { rewrite flat_map_concat_map. f_equal. apply (nth_ext' []); [rewrite !map_length, seq_length; reflexivity|].
    intros i Hi. rewrite map_length in Hi. rewrite map_seq_nth by exact Hi.
    erewrite (nth_error_nth (map _ boxes)); [|apply map_nth_error; apply (nth_error_nth' boxes ([], [])); exact Hi]. reflexivity. }
  rewrite E. clear E.
  assert (Hbox : forall i g, (i < length boxes)%nat -> (In g (let b := nth i boxes ([], []) in col_major (fst b) (snd b)) <->
     in_box (fst (nth i boxes ([], []))) (snd (nth i boxes ([], []))) g)).
  { intros i g Hi. cbv zeta. destruct (nth i boxes ([], [])) as [lo hi] eqn:Eb. cbn [fst snd].
    destruct (Hin lo hi) as (L1 & L2 & _); [rewrite <- Eb; apply nth_In; exact Hi|]. apply (in_nested_loops false). congruence. }
  apply NoDup_Permutation.
  - apply NoDup_flat_map; [apply seq_NoDup| |].
    + intros i Hi. apply (NoDup_nested_loops false).
    + intros i j g Hi Hj H1 H2. apply in_seq in Hi, Hj. apply Hbox in H1; [|lia]. apply Hbox in H2; [|lia].
      destruct (nth i boxes ([], [])) as [lo hi] eqn:Ei. destruct (nth j boxes ([], [])) as [lo' hi'] eqn:Ej. cbn [fst snd] in *.
      assert (Ni : nth_error boxes i = Some (lo, hi)) by (rewrite <- Ei; apply nth_error_nth'; lia).
      assert (Nj : nth_error boxes j = Some (lo', hi')) by (rewrite <- Ej; apply nth_error_nth'; lia).
      destruct (Hin lo hi (nth_error_In _ _ Ni)) as (_ & _ & Hg). destruct (Hex g (Hg g H1)) as (k & _ & Hu).
      transitivity k; [symmetry|]; apply Hu; eauto.
  - apply (NoDup_nested_loops false).
  - intros g. unfold grid_cells. rewrite (in_nested_loops false) by (rewrite repeat_length; reflexivity). rewrite in_flat_map. split.
    + intros (i & Hi & H). apply in_seq in Hi. apply Hbox in H; [|lia].
      destruct (nth i boxes ([], [])) as [lo hi] eqn:Ei. destruct (Hin lo hi) as (_ & _ & Hg); [rewrite <- Ei; apply nth_In; lia|].
      apply Hg, H.
    + intros Hg. destruct (Hex g Hg) as (i & (lo & hi & Ei & Hb) & _). exists i.
      assert (i < length boxes)%nat by (apply nth_error_Some; congruence). split; [apply in_seq; lia|]. apply Hbox; auto.
      rewrite (nth_error_nth _ _ _ Ei). exact Hb.
Qed.

Lemma fold_add {D} (ar : arith D) : exact_arith ar -> forall l a, fold_left (a_add ar) l a = a_add ar a (sum_of ar l).
Proof.
  intros HR. assert (HR' : ring_theory (a_zero ar) (a_one ar) (a_add ar) (a_mul ar) (a_sub ar) (a_neg ar) (@eq D)) by exact HR.
  destruct HR'. induction l as [|x l IH]; intros a; cbn [fold_left sum_of fold_right].
  - unfold sum_of. cbn [fold_right]. rewrite Radd_comm, Radd_0_l. reflexivity.
  - rewrite IH. change (sum_of ar (x :: l)) with (a_add ar x (sum_of ar l)). rewrite Radd_assoc. reflexivity.
Qed.

Lemma box_sums_total {D} (ar : arith D) dims F boxes : exact_arith ar -> tiling dims boxes ->
  forall r, reduction (a_add ar) (box_sums ar F boxes) r -> r = sum_of ar (map F (grid_cells dims)).
Proof.
  intros HR Ht r Hr. rewrite (sum_reduction ar HR _ _ Hr). unfold box_sums.
  rewrite (map_ext _ (fun b => sum_of ar (map F (col_major (fst b) (snd b))))).
  2:{ intros b. rewrite (fold_add ar HR). destruct HR. rewrite Radd_0_l. reflexivity. }
  rewrite <- (sum_perm ar HR _ _ (Permutation_map F (tiling_cells dims boxes Ht))).
  rewrite concat_map, map_map, <- (sum_concat ar HR), map_map. reflexivity.
Qed.

(** ** The stencil *)
Section Stencil.
  Context {D : Type} (ar : arith D) (v0 v1 v2 l0 l1 l2 : D) (m : Z).
  Notation v := [v0; v1; v2].
  Notation l := [l0; l1; l2].
  Definition um_sign (x : D) : Z := if a_lt ar (a_ofZ ar 0) x then 1 else -1.
  Definition um_size (x : D) : D := a_div ar x (a_ofZ ar m).
  Definition um_c (dt x len : D) : D := a_div ar (a_mul ar (a_mul ar (a_ofZ ar (um_sign x)) dt) x) (um_size len).

  Lemma um_sign_range x : um_sign x = 1 \/ um_sign x = -1.
  Proof. unfold um_sign. destruct (a_lt _ _ _); auto. Qed.

  Lemma um_axes_eq : exists dt, up_dt ar v l [m; m; m] = Ok dt /\
    um_axes ar v l 3 m = Ok ([um_size l0; um_size l1; um_size l2], [um_sign v0; um_sign v1; um_sign v2], dt).
  Proof.
    unfold up_dt, um_axes. change (vlen v) with 3. three. change (repeat (a_dec ar 0 1) 3) with [a_dec ar 0 1; a_dec ar 0 1; a_dec ar 0 1].
    change (repeat 0 3) with [0; 0; 0]. vec3. cbv zeta. vec3. eexists. split; reflexivity.
  Qed.

  Definition um_diag (dt : D) : D := a_sub ar (a_sub ar (a_sub ar (a_dec ar 10 1) (um_c dt v0 l0)) (um_c dt v1 l1)) (um_c dt v2 l2).
  Definition um_entries (dt : D) : list (list Z * D) :=
    [([0; 0; 0], um_diag dt); ([- um_sign v0; 0; 0], um_c dt v0 l0); ([0; - um_sign v1; 0], um_c dt v1 l1); ([0; 0; - um_sign v2], um_c dt v2 l2)].

  Lemma um_stencil_eq dt :
    um_stencil ar 3 v [um_size l0; um_size l1; um_size l2] [um_sign v0; um_sign v1; um_sign v2] dt = Ok (insert_all (um_entries dt) []).
  Proof.
    unfold um_stencil. change (vlen v) with 3. unfold um_weight. three. cbv zeta. vec3. change (repeat 0 3) with [0; 0; 0].
    assert (HI : forall x, int_op (- um_sign x) = Ok (- um_sign x)).
    { intros x. apply int_op_ok. destruct (um_sign_range x) as [-> | ->]; unfold two31; lia. }
    rewrite HI. cbn [bind]. vec3. rewrite HI. cbn [bind]. vec3. rewrite HI. cbn [bind]. vec3. reflexivity.
  Qed.

  Lemma um_keys dt : NoDup (map fst (um_entries dt)).
  Proof.
    unfold um_entries. cbn [map fst]. 
    destruct (um_sign_range v0) as [-> | ->], (um_sign_range v1) as [-> | ->], (um_sign_range v2) as [-> | ->];
      repeat (constructor; [simpl; intros H; repeat (destruct H as [H|H]; [discriminate H|]); exact H|]); constructor.
  Qed.

  Lemma um_perm dt : Permutation (insert_all (um_entries dt) []) (um_entries dt) /\ is_map (insert_all (um_entries dt) []).
  Proof. apply (insert_all_perm (um_entries dt) []); [constructor|apply um_keys]. Qed.

  Lemma um_axis dt : axis_stencil [m; m; m] (insert_all (um_entries dt) []).
  Proof.
    destruct (um_perm dt) as (P & S). split; [exact S|]. intros off w H. apply (Permutation_in _ P) in H.
    assert (HX : forall x, -1 <= um_sign x <= 1) by (intros x; destruct (um_sign_range x) as [-> | ->]; lia).
    pose proof (HX v0). pose proof (HX v1). pose proof (HX v2).
    destruct H as [E|[E|[E|[E|[]]]]]; inversion E; subst; (split; [split; [reflexivity|]; intros [|[|[|j]]] Hj; cbn [nth length] in *; lia|]);
      intros [|[|[|i]]] [|[|[|j]]]; cbn [nth]; intros; try lia;
      try (destruct i; cbn [nth] in *; lia); try (destruct j; cbn [nth] in *; lia).
  Qed.
End Stencil.

(** ** Over the real numbers the stencil is the upwind formula *)
Lemma um_real (v0 v1 v2 l0 l1 l2 dt : R) m G g : in_grid [m; m; m] g ->
  stencil_sum arR [m; m; m] (insert_all (um_entries arR v0 v1 v2 l0 l1 l2 m dt) []) G g =
  upwind_formula arR [m; m; m] [v0; v1; v2] [l0; l1; l2] dt G g.
Proof.
  intros Hg. rewrite (stencil_sum_as_sum arR arR_exact). destruct (um_perm arR v0 v1 v2 l0 l1 l2 m dt) as (P & _).
  rewrite (sum_perm arR (en_ring _ arR_exact) _ _ (Permutation_map _ P)). clear P.
  rewrite formula_convex. unfold um_entries. cbn [map fst snd length seq nth]. unfold sum_of. cbn [fold_right]. cbn [arR a_add a_mul a_zero].
  pose proof (wrap_id [m; m; m] g Hg) as E0. cbn [length repeat] in E0. rewrite E0. clear E0.
  assert (HC : forall x len, um_c arR m dt x len = (Rabs x * dt / (len / IZR m))%R).
  { intros x len. unfold um_c, um_size, um_sign. cbn [arR a_lt a_ofZ a_div a_mul].
    destruct (Rlt_dec 0 x) as [H|H]; [rewrite Rabs_right by lra|rewrite Rabs_left1 by lra; replace (IZR (-1)) with (-1)%R by reflexivity]; unfold Rdiv; ring. }
  assert (HN : forall j x len, (j < 3)%nat -> nth j [v0; v1; v2] 0%R = x ->
     (um_c arR m dt x len * G (wrap [m; m; m] (shift g (unit_vec 3 j (- um_sign arR x)))) =
      Rabs x * dt / (len / IZR m) * G (neighbour [m; m; m] g j (upwind_side arR (axis_velocity arR [v0; v1; v2] j))))%R).
  { intros j x len Hj Hx. rewrite HC. unfold axis_velocity. cbn [arR a_zero]. rewrite Hx. unfold neighbour. cbn [length].
    unfold um_sign, upwind_side. cbn [arR a_lt a_ofZ a_dec]. replace (0 / powerRZ 10 1)%R with 0%R by (simpl; lra).
    destruct (Rlt_dec 0 x), (Rlt_dec x 0); try reflexivity; [exfalso; lra|].
    replace x with 0%R by lra. rewrite Rabs_R0. unfold Rdiv. ring. }
  change [- um_sign arR v0; 0; 0] with (unit_vec 3 0 (- um_sign arR v0)).
  change [0; - um_sign arR v1; 0] with (unit_vec 3 1 (- um_sign arR v1)).
  change [0; 0; - um_sign arR v2] with (unit_vec 3 2 (- um_sign arR v2)).
  rewrite (HN 0%nat v0 l0), (HN 1%nat v1 l1), (HN 2%nat v2 l2) by (lia || reflexivity).
  unfold um_diag. rewrite !HC, dec10R. cbn [arR a_sub]. ring.
Qed.

(** ** The initial field *)
Lemma um_init_eq {D} (ar : arith D) m g : grid_ok [m; m; m] -> in_grid [m; m; m] g -> um_init ar g = origin_field ar [m; m; m] g.
Proof.
  intros Hgo Hg. apply in_grid_nth in Hg as [L H]. destruct g as [|x [|y [|z [|t g]]]]; try discriminate L.
  pose proof (H 0%nat ltac:(simpl; lia)) as Hx. pose proof (H 1%nat ltac:(simpl; lia)) as Hy. pose proof (H 2%nat ltac:(simpl; lia)) as Hz.
  cbn [nth] in Hx, Hy, Hz.
  destruct Hgo as (_ & _ & _ & Hp). assert (Ep : prodZ [m; m; m] = m * m * m) by (rewrite !prodZ_cons; change (prodZ []) with 1; ring).
  rewrite Ep in Hp. assert (m < 2000) by nia.
  unfold um_init, origin_field. cbn [fold_left].
  rewrite (u64_id 0) by (unfold two64; lia). rewrite (u64_id (0 + x)) by (unfold two64; lia). rewrite (i32_id (0 + x)) by (unfold two31; lia).
  rewrite (u64_id (0 + x)) by (unfold two64; lia). rewrite (u64_id (0 + x + y)) by (unfold two64; lia). rewrite (i32_id (0 + x + y)) by (unfold two31; lia).
  rewrite (u64_id (0 + x + y)) by (unfold two64; lia). rewrite (u64_id (0 + x + y + z)) by (unfold two64; lia). rewrite i32_id by (unfold two31; lia).
  cbn [length repeat]. destruct (list_eq_dec Z.eq_dec [x; y; z] [0; 0; 0]) as [E|E].
  - inversion E; subst. reflexivity.
  - destruct (Z.eqb_spec (0 + x + y + z) 0); [|reflexivity]. exfalso. apply E. f_equal; [lia|]. f_equal; [lia|]. f_equal; lia.
Qed.

(** ** The loop *)
Section Loop.
  Context {D : Type} (ar : arith D) (dims : list Z) (n : Z) (b : list Z).
  Context (st : list (list Z * D)) (xmins xmaxs : list D).
  Hypothesis Hg : grid_ok dims.
  Hypothesis Hn : 1 <= n <= 2 ^ 30.
  Hypothesis Hb : is_decomp n dims b.
  Hypothesis Hoff : forall off w, In (off, w) st -> good_off dims b off.
  Hypothesis Hp : periodic_stencil dims st.
  Notation wholds := (wholds dims n b st xmins xmaxs).
  Notation wfok := (wfok dims n b st xmins xmaxs).

  Definition um_boxes : list (list Z * list Z) := map (fun i => (beg_of dims b (Z.of_nat i), end_of dims b (Z.of_nat i))) (seq 0 (Z.to_nat n)).

  Lemma wfok_boxes F w : wfok F w -> map (fun f => (f_lo f, f_hi f)) w = um_boxes.
  Proof using Hn.
    intros (Hl & Hw). unfold um_boxes. apply (nth_ext' ([], [])); [rewrite !map_length, seq_length; exact Hl|].
    intros i Hi. rewrite map_length in Hi. rewrite map_seq_nth by lia.
    destruct (nth_error w i) as [f|] eqn:E; [|apply nth_error_None in E; lia].
    erewrite nth_error_nth by (apply map_nth_error; exact E). destruct (Hw i f E) as (H & _).
    rewrite (fo_lo _ _ _ _ _ _ _ _ _ H), (fo_hi _ _ _ _ _ _ _ _ _ H). reflexivity.
  Qed.

  Lemma wholds_sums G F w (input : bool) : wholds G F w -> world_localSums ar w input = Ok (box_sums ar (if input then G else F) um_boxes).
  Proof using Hg Hn Hb.
    intros H. pose proof (wholds_wfok _ _ _ _ _ _ _ _ _ H) as Hw. rewrite (localSums_eq ar dims n b st xmins xmaxs Hg Hn Hb F w input Hw).
    f_equal. rewrite <- (wfok_boxes F w Hw). unfold box_sums. rewrite map_map. apply map_ext_in. intros f Hf. cbn [fst snd]. f_equal.
    apply In_nth_error in Hf as (i & Hi). destruct (proj2 H i f Hi) as ((H1 & H2 & _) & H3).
    rewrite (fo_lo _ _ _ _ _ _ _ _ _ H1), (fo_hi _ _ _ _ _ _ _ _ _ H1). destruct input; assumption.
  Qed.

  Lemma um_step_ok G F w sums : wholds G F w -> exists w', um_step ar (w, sums) =
      Ok (w', sums ++ [(box_sums ar G um_boxes, box_sums ar (stencil_sum ar dims st G) um_boxes)]) /\
      wholds (stencil_sum ar dims st G) (stencil_sum ar dims st G) w'.
  Proof using Hg Hn Hb Hoff Hp.
    intros H. destruct (run_op_ok ar dims n b st xmins xmaxs Hg Hn Hb Hoff Hp Apply G F w) as (w1 & E1 & H1); [discriminate|exact H|].
    destruct (run_op_ok ar dims n b st xmins xmaxs Hg Hn Hb Hoff Hp Copy G (stencil_sum ar dims st G) w1) as (w2 & E2 & H2); [discriminate|exact H1|].
    cbn [run_op meaning fst snd] in *. exists w2. split; [|exact H2]. unfold um_step. rewrite E1. cbn [bind].
    rewrite (wholds_sums _ _ w1 true H1). cbn [bind]. rewrite (wholds_sums _ _ w1 false H1). cbn [bind]. rewrite E2. reflexivity.
  Qed.

  Lemma um_loop_ok G F w k : wholds G F w -> exists w', for_upto (Z.of_nat k) (fun _ => um_step ar) (w, []) =
      Ok (w', map (fun i => (box_sums ar (stencil_iter ar i dims st G) um_boxes, box_sums ar (stencil_iter ar (S i) dims st G) um_boxes)) (seq 0 k)) /\
      wholds (stencil_iter ar k dims st G) (match k with O => F | _ => stencil_iter ar k dims st G end) w'.
  Proof using Hg Hn Hb Hoff Hp.
    intros H.
    destruct (for_upto_inv (fun i (p : list (FilterModel.filter D) * list (list D * list D)) =>
       snd p = map (fun i => (box_sums ar (stencil_iter ar i dims st G) um_boxes, box_sums ar (stencil_iter ar (S i) dims st G) um_boxes)) (seq 0 i) /\
       wholds (stencil_iter ar i dims st G) (match i with O => F | _ => stencil_iter ar i dims st G end) (fst p))
       (fun _ => um_step ar) (Z.of_nat k) (w, [])) as ([w' sums] & E & Es & Hw).
    - split; [reflexivity|exact H].
    - intros i [w' sums] Hi (Es & Hw). cbn [fst snd] in *. destruct (um_step_ok _ _ w' sums Hw) as (w2 & E2 & H2).
      eexists. split; [exact E2|]. cbn [fst snd]. split; [|exact H2]. rewrite seq_S, map_app, <- Es. reflexivity.
    - cbn [fst snd] in *. rewrite Nat2Z.id in *. exists w'. split; [rewrite E, Es; reflexivity|exact Hw].
  Qed.
End Loop.
