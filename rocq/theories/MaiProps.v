(** * Properties C01-C04: MultiArrayIter *)
From Verif Require Import Cpp CppProof MaiModel MaiSpec Radix MaiProof.
Local Open Scope Z_scope.

(** ** C01: the idiomatic loop visits the nested-loop sequence. *)
Theorem C01_visits_nested_loops :
  forall lo hi rowMajor,
    wf_box lo hi -> nonempty_box lo hi -> prodZ (extents lo hi) < 2 ^ 64 ->
    exists m m',
      mai_build lo hi rowMajor = Ok m /\
      mai_getNumberOfTerms m = prodZ (extents lo hi) /\
      mai_visit m = Ok (nested_loops rowMajor lo hi, m').
Proof.
  intros lo hi rm H1 H2 H3. pose proof (conj H1 (conj H2 H3) : good_box lo hi) as H.
  destruct (mai_visit_of lo hi rm H) as (m' & Hm').
  exists (mai_of lo hi rm 0), m'. split; [apply mai_build_good, H|]. split; [reflexivity|exact Hm'].
Qed.
Print Assumptions C01_visits_nested_loops.

(** Every tuple of the box, once. *)
Theorem C01_every_cell_once :
  forall lo hi rowMajor,
    wf_box lo hi -> nonempty_box lo hi -> prodZ (extents lo hi) < 2 ^ 64 ->
    exists m visited m',
      mai_build lo hi rowMajor = Ok m /\ mai_visit m = Ok (visited, m') /\
      NoDup visited /\ forall v, In v visited <-> in_box lo hi v.
Proof.
  intros lo hi rm H1 H2 H3. pose proof (conj H1 (conj H2 H3) : good_box lo hi) as H.
  destruct (mai_visit_of lo hi rm H) as (m' & Hm').
  exists (mai_of lo hi rm 0), (nested_loops rm lo hi), m'.
  split; [apply mai_build_good, H|]. split; [exact Hm'|].
  split; [apply NoDup_nested_loops|]. intros v. apply in_nested_loops. apply H1.
Qed.
Print Assumptions C01_every_cell_once.

Definition ex_lo := [2; 0; 5]. Definition ex_hi := [4; 3; 7].

Example C01_example_hyps : wf_box ex_lo ex_hi /\ nonempty_box ex_lo ex_hi /\ prodZ (extents ex_lo ex_hi) < 2 ^ 64.
Proof.
  split; [|split].
  - split; [reflexivity|]. split; [discriminate|]. split; [reflexivity|].
    intros [|[|[|j]]] Hj; simpl in *; lia.
  - intros [|[|[|j]]] Hj; simpl in *; lia.
  - reflexivity.
Qed.

Example C01_example_row :
  (m <- mai_build ex_lo ex_hi true ;; r <- mai_visit m ;; Ok (fst r)) =
  Ok [[2;0;5];[2;0;6];[2;1;5];[2;1;6];[2;2;5];[2;2;6];[3;0;5];[3;0;6];[3;1;5];[3;1;6];[3;2;5];[3;2;6]].
Proof. reflexivity. Qed.

Example C01_example_col :
  (m <- mai_build ex_lo ex_hi false ;; r <- mai_visit m ;; Ok (fst r)) =
  Ok [[2;0;5];[3;0;5];[2;1;5];[3;1;5];[2;2;5];[3;2;5];[2;0;6];[3;0;6];[2;1;6];[3;1;6];[2;2;6];[3;2;6]].
Proof. reflexivity. Qed.

(** ** C02: flat index and index tuple determine each other. *)
Theorem C02_flat_to_indices_to_flat :
  forall lo hi rowMajor k,
    wf_box lo hi -> nonempty_box lo hi -> prodZ (extents lo hi) < 2 ^ 64 ->
    0 <= k < prodZ (extents lo hi) ->
    exists m v,
      mai_build lo hi rowMajor = Ok m /\
      mai_getIndices (mai_move m k) = Ok v /\ in_box lo hi v /\
      mai_computeBigIndex m v = Ok k /\ mai_computeBigIndex (mai_move m k) v = Ok k.
Proof.
  intros lo hi rm k H1 H2 H3 Hk. pose proof (conj H1 (conj H2 H3) : good_box lo hi) as H.
  assert (Hl : length lo = length hi) by apply H1. pose proof (good_allpos lo hi H) as Hp.
  exists (mai_of lo hi rm 0), (vadd lo (digs rm (extents lo hi) k)).
  assert (Hv : in_box lo hi (vadd lo (digs rm (extents lo hi) k))).
  { apply digit_vec_in_box; [exact Hl|]. apply digs_digit_vec, Hp. }
  assert (HL : length lo = length (digs rm (extents lo hi) k)) by (rewrite digs_length, extents_length; auto).
  split; [apply mai_build_good, H|]. split; [exact (mai_getIndices_of lo hi rm k H)|]. split; [exact Hv|].
  destruct (mai_computeBig_in lo hi rm 0 _ H Hv) as [E1 _].
  destruct (mai_computeBig_in lo hi rm k _ H Hv) as [E2 _].
  rewrite vsub_vadd, dot_digs, Z.mod_small in E1, E2 by assumption.
  split; assumption.
Qed.
Print Assumptions C02_flat_to_indices_to_flat.

Theorem C02_indices_to_flat_to_indices :
  forall lo hi rowMajor v,
    wf_box lo hi -> nonempty_box lo hi -> prodZ (extents lo hi) < 2 ^ 64 ->
    in_box lo hi v ->
    exists m k,
      mai_build lo hi rowMajor = Ok m /\ mai_computeBigIndex m v = Ok k /\
      0 <= k < mai_getNumberOfTerms m /\ mai_getIndices (mai_move m k) = Ok v.
Proof.
  intros lo hi rm v H1 H2 H3 Hv. pose proof (conj H1 (conj H2 H3) : good_box lo hi) as H.
  assert (Hl : length lo = length hi) by apply H1.
  destruct (mai_computeBig_in lo hi rm 0 v H Hv) as [E1 R].
  exists (mai_of lo hi rm 0), (dot (strd rm (extents lo hi)) (vsub v lo)).
  split; [apply mai_build_good, H|]. split; [exact E1|]. split; [exact R|].
  change (mai_move (mai_of lo hi rm 0) ?k) with (mai_of lo hi rm k).
  rewrite (mai_getIndices_of lo hi rm) by exact H.
  rewrite digs_dot by (apply in_box_digit_vec; assumption). rewrite vadd_vsub; [reflexivity|].
  symmetry. apply Hv.
Qed.
Print Assumptions C02_indices_to_flat_to_indices.

(** The flat index is the position in the nested-loop sequence. *)
Theorem C02_flat_index_is_position :
  forall lo hi rowMajor v,
    wf_box lo hi -> nonempty_box lo hi -> prodZ (extents lo hi) < 2 ^ 64 ->
    in_box lo hi v ->
    exists m k, mai_build lo hi rowMajor = Ok m /\ mai_computeBigIndex m v = Ok k /\
      nth_error (nested_loops rowMajor lo hi) (Z.to_nat k) = Some v.
Proof.
  intros lo hi rm v H1 H2 H3 Hv. pose proof (conj H1 (conj H2 H3) : good_box lo hi) as H.
  assert (Hl : length lo = length hi) by apply H1.
  destruct (mai_computeBig_in lo hi rm 0 v H Hv) as [E1 R].
  exists (mai_of lo hi rm 0), (dot (strd rm (extents lo hi)) (vsub v lo)).
  split; [apply mai_build_good, H|]. split; [exact E1|].
  rewrite nth_nested_loops by assumption.
  rewrite digs_dot by (apply in_box_digit_vec; assumption). rewrite vadd_vsub; [reflexivity|].
  symmetry. apply Hv.
Qed.
Print Assumptions C02_flat_index_is_position.

Theorem C02_int_instance_agrees :
  forall lo hi rowMajor v,
    wf_box lo hi -> nonempty_box lo hi -> prodZ (extents lo hi) < 2 ^ 31 ->
    in_box lo hi v ->
    exists m k, mai_build lo hi rowMajor = Ok m /\
      mai_computeBigIndex m v = Ok k /\ mai_computeBigIndex_int m v = Ok k.
Proof.
  intros lo hi rm v H1 H2 H3 Hv.
  assert (H : good_box lo hi) by (split; [exact H1|split; [exact H2|]]; change (2 ^ 31) with two31 in H3;
    unfold two31 in H3; change (2 ^ 64) with two64; unfold two64; lia).
  destruct (mai_computeBig_in lo hi rm 0 v H Hv) as [E1 R].
  exists (mai_of lo hi rm 0), (dot (strd rm (extents lo hi)) (vsub v lo)).
  split; [apply mai_build_good, H|]. split; [exact E1|].
  unfold mai_computeBigIndex_int. unfold mai_computeBigIndex in E1. rewrite E1. cbn [bind].
  rewrite i32_id; [reflexivity|]. change (2 ^ 31) with two31 in H3. unfold two31 in *. lia.
Qed.
Print Assumptions C02_int_instance_agrees.

Example C02_example :
  in_box ex_lo ex_hi [3; 1; 5] /\
  (m <- mai_build ex_lo ex_hi true ;; k <- mai_computeBigIndex m [3; 1; 5] ;;
   v <- mai_getIndices (mai_move m k) ;; Ok (k, v)) = Ok (8, [3; 1; 5]).
Proof.
  split; [|reflexivity]. split; [reflexivity|]. split; [reflexivity|].
  intros [|[|[|j]]] Hj; simpl in *; lia.
Qed.

(** ** C03: arbitrary histories of begin / next / move. *)
Inductive mai_op : Type := OpBegin | OpNext | OpMove (k : Z).

Definition mai_step (m : mai) (o : mai_op) : mai :=
  match o with OpBegin => mai_begin m | OpNext => mai_next m | OpMove k => mai_move m k end.

(** Spec: the position is a counter modulo 2^64. *)
Definition pos_step (p : Z) (o : mai_op) : Z :=
  match o with OpBegin => 0 | OpNext => (p + 1) mod 2 ^ 64 | OpMove k => k end.

Definition valid_op (o : mai_op) : Prop :=
  match o with OpMove k => 0 <= k < 2 ^ 64 | _ => True end.

Lemma run_of lo hi rm h b :
  fold_left mai_step h (mai_of lo hi rm b) = mai_of lo hi rm (fold_left pos_step h b).
Proof.
  revert b; induction h as [|o h IH]; intros b; simpl; auto.
  destruct o; apply IH.
Qed.

Theorem C03_any_history :
  forall lo hi rowMajor h,
    wf_box lo hi -> nonempty_box lo hi -> prodZ (extents lo hi) < 2 ^ 64 ->
    Forall valid_op h ->
    exists m v,
      mai_build lo hi rowMajor = Ok m /\
      mai_getIndices (fold_left mai_step h m) = Ok v /\
      nth_error (nested_loops rowMajor lo hi)
        (Z.to_nat (fold_left pos_step h 0 mod prodZ (extents lo hi))) = Some v.
Proof.
  intros lo hi rm h H1 H2 H3 _. pose proof (conj H1 (conj H2 H3) : good_box lo hi) as H.
  exists (mai_of lo hi rm 0), (vadd lo (digs rm (extents lo hi) (fold_left pos_step h 0))).
  split; [apply mai_build_good, H|]. rewrite run_of. split; [apply mai_getIndices_of, H|].
  rewrite nth_nested_loops.
  - rewrite digs_mod by apply good_allpos, H. reflexivity.
  - exact H.
  - apply Z.mod_pos_bound. apply good_prod, H.
Qed.
Print Assumptions C03_any_history.

Theorem C03_begin_restarts :
  forall lo hi rowMajor h,
    wf_box lo hi -> nonempty_box lo hi -> prodZ (extents lo hi) < 2 ^ 64 ->
    exists m, mai_build lo hi rowMajor = Ok m /\
      mai_getIndices (mai_begin (fold_left mai_step h m)) = Ok lo /\
      mai_getLBegIndices (fold_left mai_step h m) = lo /\
      mai_getEndIndices (fold_left mai_step h m) = hi /\
      mai_getNumberOfTerms (fold_left mai_step h m) = prodZ (extents lo hi).
Proof.
  intros lo hi rm h H1 H2 H3. pose proof (conj H1 (conj H2 H3) : good_box lo hi) as H.
  exists (mai_of lo hi rm 0). split; [apply mai_build_good, H|]. rewrite run_of.
  change (mai_begin (mai_of lo hi rm ?b)) with (mai_of lo hi rm 0).
  rewrite mai_getIndices_of by exact H. split; [|repeat split].
  f_equal. apply (nth_ext' 0).
  - apply vadd_length. rewrite digs_length, good_len; auto.
  - intros i Hi. rewrite vadd_length in Hi by (rewrite digs_length, good_len; auto).
    rewrite vadd_nth by (rewrite ?digs_length, ?good_len; auto).
    rewrite digs_nth by (rewrite good_len; auto). rewrite Z.div_0_l, Z.mod_0_l; try lia.
    + pose proof (proj1 (allpos_nth _) (good_allpos lo hi H) i ltac:(rewrite good_len; auto)). lia.
    + pose proof (proj1 (allpos_nth _) (strd_pos rm _ (good_allpos lo hi H)) i
                    ltac:(rewrite strd_length, good_len; auto)). lia.
Qed.
Print Assumptions C03_begin_restarts.

Lemma fold_next_pos n b : 0 <= b -> b + Z.of_nat n < 2 ^ 64 ->
  fold_left pos_step (repeat OpNext n) b = b + Z.of_nat n.
Proof.
  revert b; induction n as [|n IH]; intros b Hb Hn; [simpl; lia|].
  cbn [repeat fold_left pos_step]. rewrite Z.mod_small by lia. rewrite IH by lia. lia.
Qed.

Theorem C03_past_end_wraps :
  forall lo hi rowMajor k n,
    wf_box lo hi -> nonempty_box lo hi -> prodZ (extents lo hi) = Z.of_nat n ->
    Z.of_nat k + Z.of_nat n < 2 ^ 64 ->
    exists m, mai_build lo hi rowMajor = Ok m /\
      mai_getIndices (fold_left mai_step (repeat OpNext (k + n)) m) =
      mai_getIndices (fold_left mai_step (repeat OpNext k) m) /\
      is_ok (mai_getIndices (fold_left mai_step (repeat OpNext k) m)) = true.
Proof.
  intros lo hi rm k n H1 H2 Hn Hk.
  assert (H : good_box lo hi) by (split; [exact H1|split; [exact H2|lia]]).
  exists (mai_of lo hi rm 0). split; [apply mai_build_good, H|]. rewrite !run_of.
  rewrite !fold_next_pos by lia. rewrite !mai_getIndices_of by exact H.
  split; [|reflexivity]. f_equal. f_equal.
  rewrite <- (digs_shift rm (extents lo hi) (0 + Z.of_nat k) 1) by apply good_allpos, H.
  f_equal. lia.
Qed.
Print Assumptions C03_past_end_wraps.

Example C03_example :
  prodZ (extents ex_lo ex_hi) = Z.of_nat 12 /\
  (m <- mai_build ex_lo ex_hi true ;;
   mai_getIndices (fold_left mai_step ([OpMove 7; OpNext] ++ repeat OpNext 12) m)) = Ok [3; 1; 5].
Proof. split; reflexivity. Qed.

(** ** C04: degenerate boxes. *)
Theorem C04_zero_extent_empty_loop :
  forall lo hi rowMajor i,
    wf_box lo hi -> (i < length lo)%nat -> nth i lo 0 = nth i hi 0 ->
    exists m, mai_build lo hi rowMajor = Ok m /\
      mai_getNumberOfTerms m = 0 /\ mai_visit m = Ok ([], m) /\
      nested_loops rowMajor lo hi = [].
Proof.
  intros lo hi rm i H Hi Heq. rewrite mai_build_wf by exact H. eexists; split; [reflexivity|].
  assert (Hl : length lo = length hi) by apply H.
  assert (E : prodZ (extents lo hi) = 0).
  { apply prodZ_zero. replace 0 with (nth i (extents lo hi) 0).
    - apply nth_In. rewrite extents_length; auto.
    - rewrite extents_nth by auto. lia. }
  rewrite E. split; [reflexivity|]. split; [reflexivity|].
  rewrite nested_loops_enum, E; [reflexivity|exact Hl|].
  intros j Hj. destruct H as (_ & _ & _ & Hb). specialize (Hb j Hj). lia.
Qed.
Print Assumptions C04_zero_extent_empty_loop.

Theorem C04_zero_extent_getIndices_undefined :
  forall lo hi rowMajor i h,
    wf_box lo hi -> (i < length lo)%nat -> nth i lo 0 = nth i hi 0 ->
    exists m, mai_build lo hi rowMajor = Ok m /\
      mai_getIndices (fold_left mai_step h m) = Undef DivZero.
Proof.
  intros lo hi rm i h H Hi Heq. rewrite mai_build_wf by exact H. eexists; split; [reflexivity|].
  generalize 0 at 1. induction h as [|o h IH]; intros b.
  - apply mai_getIndices_zero with (i0 := i); assumption.
  - destruct o; apply IH.
Qed.
Print Assumptions C04_zero_extent_getIndices_undefined.

Theorem C04_no_axes_undefined :
  forall hi rowMajor, mai_build [] hi rowMajor = Undef OobWrite.
Proof. intros hi [|]; reflexivity. Qed.
Print Assumptions C04_no_axes_undefined.

(** ... although the empty product has exactly one tuple. *)
Theorem C04_no_axes_empty_product_refuted :
  exists lo hi rowMajor, lo = [] /\ hi = [] /\ nested_loops rowMajor lo hi = [[]] /\
    forall m, mai_build lo hi rowMajor <> Ok m.
Proof. exists [], [], true. repeat split. discriminate. Qed.
Print Assumptions C04_no_axes_empty_product_refuted.

Example C04_example :
  wf_box [1; 4] [3; 4] /\
  (m <- mai_build [1; 4] [3; 4] true ;; Ok (m_ntot m)) = Ok 0.
Proof.
  split; [|reflexivity]. split; [reflexivity|]. split; [discriminate|]. split; [reflexivity|].
  intros [|[|j]] Hj; simpl in *; lia.
Qed.
