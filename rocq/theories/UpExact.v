(** * The upwind scheme in exact arithmetic *)
From Coq Require Import Permutation Ring_theory Ring List Reals Lra RealField.
From Verif Require Import Cpp CppProof MaiModel MaiSpec Radix MaiProof CdModel CdSpec FilterModel FilterSpec FilterProof
  FilterSum RealArith LapSpec LapProof UpModel UpSpec UpProof.
Import ListNotations.
Local Open Scope Z_scope.
Local Arguments prodZ : simpl never.
Local Arguments Z.of_nat : simpl never.

Definition pos_axes (dims : list Z) : Prop := forall j, (j < length dims)%nat -> 0 < nth j dims 0.

Lemma cells_col dims : Permutation (cells dims) (col_major (repeat 0 (length dims)) dims).
Proof.
  apply NoDup_Permutation; [apply NoDup_row_major|apply (NoDup_nested_loops false)|].
  intros g. unfold cells. rewrite in_row_major by apply repeat_length. symmetry. apply (in_nested_loops false). apply repeat_length.
Qed.

Lemma neighbour_perm dims j d : pos_axes dims ->
  Permutation (map (fun g => neighbour dims g j d) (cells dims)) (cells dims).
Proof.
  intros Hp. eapply Permutation_trans; [apply Permutation_map, cells_col|]. eapply Permutation_trans; [|symmetry; apply cells_col].
  apply shift_perm; [exact Hp|apply unit_vec_length].
Qed.

Lemma neighbour_in dims g j d : pos_axes dims -> in_grid dims g -> in_grid dims (neighbour dims g j d).
Proof.
  intros Hp Hg. apply in_grid_nth in Hg as [L _]. apply wrap_in_grid; [exact Hp|].
  rewrite shift_length; rewrite ?unit_vec_length; auto.
Qed.

(** The scheme only looks at cells of the grid. *)
Lemma upwind_formula_ext {D} (ar : arith D) dims v lengths dt G G' g :
  pos_axes dims -> (forall g, in_grid dims g -> G g = G' g) -> in_grid dims g ->
  upwind_formula ar dims v lengths dt G g = upwind_formula ar dims v lengths dt G' g.
Proof.
  intros Hp H Hg. unfold upwind_formula. rewrite (H g Hg). generalize (G' g) at 2 4 as x. generalize (seq 0 (length dims)) as l.
  induction l as [|j l IH]; intros x; [reflexivity|]. cbn [fold_left].
  rewrite (H (neighbour dims g j _)) by (apply neighbour_in; auto). apply IH.
Qed.

Section Ring.
  Context {D : Type} (ar : arith D).
  Hypothesis HR : exact_arith ar.
  Let HR' : ring_theory (a_zero ar) (a_one ar) (a_add ar) (a_mul ar) (a_sub ar) (a_neg ar) (@eq D) := HR.
  Add Ring Dring : HR'.
  Variables (dims : list Z) (v lengths : list D) (dt : D).
  Let c := courant ar dims v lengths dt.
  Let nb g j := neighbour dims g j (upwind_side ar (axis_velocity ar v j)).
  Let axes := seq 0 (length dims).

  Lemma formula_sum G g : upwind_formula ar dims v lengths dt G g =
    a_sub ar (G g) (sum_of ar (map (fun j => a_mul ar (c j) (a_sub ar (G (nb g j)) (G g))) axes)).
  Proof using HR HR'.
    unfold upwind_formula. fold axes. generalize (G g) at 2 3 as x. induction axes as [|j l IH]; intros x.
    - simpl. ring.
    - cbn [fold_left]. rewrite IH. cbn [map]. unfold sum_of; cbn [fold_right]. fold c. fold (nb g j). ring.
  Qed.

  Lemma formula_const k g : upwind_formula ar dims v lengths dt (fun _ => k) g = k.
  Proof using HR HR'.
    rewrite formula_sum. rewrite (map_ext _ (fun _ => a_zero ar)) by (intros; ring). rewrite (sum_zero ar HR). ring.
  Qed.

  Lemma iter_const n k g : upwind_iter ar n dims v lengths dt (fun _ => k) g = k.
  Proof using HR HR'.
    revert g. induction n as [|n IH]; intros g; [reflexivity|]. cbn [upwind_iter].
    rewrite formula_sum. rewrite (map_ext _ (fun _ => a_zero ar)) by (intros; rewrite !IH; ring). rewrite (sum_zero ar HR), IH. ring.
  Qed.

  Lemma formula_conserves G : pos_axes dims ->
    sum_of ar (map (upwind_formula ar dims v lengths dt G) (cells dims)) = sum_of ar (map G (cells dims)).
  Proof using HR HR'.
    intros Hp.
    assert (E : forall l, sum_of ar (map (fun g => sum_of ar (map (fun j => a_mul ar (c j) (a_sub ar (G (nb g j)) (G g))) l)) (cells dims)) = a_zero ar).
    { induction l as [|j l IH].
      - simpl. apply (sum_zero ar HR).
      - rewrite (map_ext _ (fun g => a_add ar (a_mul ar (c j) (a_sub ar (G (nb g j)) (G g)))
          (sum_of ar (map (fun j => a_mul ar (c j) (a_sub ar (G (nb g j)) (G g))) l)))) by reflexivity.
        rewrite (sum_add ar HR), IH. rewrite (sum_scale ar HR (c j) (fun g => a_sub ar (G (nb g j)) (G g))).
        rewrite (map_ext _ (fun g => a_add ar (G (nb g j)) (a_mul ar (a_neg ar (a_one ar)) (G g)))) by (intros; ring).
        rewrite (sum_add ar HR (fun g => G (nb g j))), (sum_scale ar HR). rewrite <- (map_map (fun g => nb g j) G).
        unfold nb. rewrite (sum_perm ar HR _ _ (Permutation_map G (neighbour_perm dims j _ Hp))). ring. }
    rewrite (map_ext _ (fun g => a_add ar (G g) (a_mul ar (a_neg ar (a_one ar)) (sum_of ar (map (fun j => a_mul ar (c j) (a_sub ar (G (nb g j)) (G g))) axes)))))
      by (intros; rewrite formula_sum; ring).
    rewrite (sum_add ar HR), (sum_scale ar HR), E. ring.
  Qed.

  Lemma iter_conserves G n : pos_axes dims ->
    sum_of ar (map (upwind_iter ar n dims v lengths dt G) (cells dims)) = sum_of ar (map G (cells dims)).
  Proof using HR HR'. intros Hp. induction n as [|n IH]; [reflexivity|]. cbn [upwind_iter]. rewrite formula_conserves; auto. Qed.
End Ring.

(** ** Real numbers *)
Section Reals.
  Local Open Scope R_scope.
  Variables (dims : list Z) (v lengths : list R) (dt : R).
  Hypothesis Hp : pos_axes dims.
  Hypothesis HL : forall j, (j < length dims)%nat -> 0 < nth j lengths 0.
  Hypothesis Hdt : 0 <= dt.
  Let nd := length dims.
  Let axes := seq 0 nd.
  Let w (j : nat) : R := Rabs (nth j v 0) * dt / (nth j lengths 0 / IZR (nth j dims 0%Z)).
  Let nb g j := neighbour dims g j (upwind_side arR (axis_velocity arR v j)).
  Hypothesis HC : sum_of arR (map w axes) <= 1.

  Lemma w_nn j : (j < nd)%nat -> 0 <= w j.
  Proof using Hp HL Hdt.
    intros Hj. unfold w. assert (0 < IZR (nth j dims 0%Z)) by (apply IZR_lt; apply Hp; exact Hj). specialize (HL j Hj).
    apply Rmult_le_pos; [apply Rmult_le_pos; [apply Rabs_pos|exact Hdt]|].
    left. apply Rinv_0_lt_compat. apply Rdiv_lt_0_compat; auto.
  Qed.

  Lemma side_abs x : x * IZR (upwind_side arR x) = - Rabs x.
  Proof using Type.
    unfold upwind_side. cbn [arR a_lt a_dec]. replace (0 / powerRZ 10 1) with 0 by (simpl; lra).
    destruct (Rlt_dec x 0).
    - rewrite Rabs_left by auto. simpl. lra.
    - rewrite Rabs_right by lra. simpl. lra.
  Qed.

  Lemma courant_w j : courant arR dims v lengths dt j = - w j.
  Proof using Type.
    unfold courant, cell_size, w, axis_velocity. cbn [arR a_mul a_div a_ofZ a_zero].
    set (x := nth j v 0). rewrite Rmult_assoc, side_abs. unfold Rdiv. ring.
  Qed.

  Lemma formula_convex G g : upwind_formula arR dims v lengths dt G g =
    (1 - sum_of arR (map w axes)) * G g + sum_of arR (map (fun j => w j * G (nb g j)) axes).
  Proof using Type.
    clear HC. rewrite (formula_sum arR (en_ring _ arR_exact)). fold nd axes.
    change (fun j => a_mul arR (courant arR dims v lengths dt j) (a_sub arR (G (neighbour dims g j (upwind_side arR (axis_velocity arR v j)))) (G g)))
      with (fun j => courant arR dims v lengths dt j * (G (nb g j) - G g)).
    cbn [arR a_sub]. unfold sum_of. cbn [arR a_add a_zero]. induction axes as [|j l IH]; cbn [map fold_right]; [ring|].
    rewrite courant_w.
    set (a := fold_right Rplus 0 (map (fun j0 => courant arR dims v lengths dt j0 * (G (nb g j0) - G g)) l)) in *.
    set (b := fold_right Rplus 0 (map w l)) in *. set (d := fold_right Rplus 0 (map (fun j0 => w j0 * G (nb g j0)) l)) in *.
    assert (E : a = b * G g - d) by lra. rewrite E. ring.
  Qed.

  Lemma formula_bounds G m M g : in_grid dims g -> (forall g, in_grid dims g -> m <= G g <= M) ->
    m <= upwind_formula arR dims v lengths dt G g <= M.
  Proof using Hp HL Hdt HC.
    intros Hg H. rewrite formula_convex.
    assert (B : forall l, (forall j, In j l -> (j < nd)%nat) ->
      m * sum_of arR (map w l) <= sum_of arR (map (fun j => w j * G (nb g j)) l) <= M * sum_of arR (map w l)).
    { unfold sum_of. cbn [arR a_add a_zero]. induction l as [|j l IH]; intros Hl; cbn [map fold_right]; [lra|].
      destruct (IH (fun k Hk => Hl k (or_intror Hk))) as [I1 I2]. pose proof (w_nn j (Hl j (or_introl eq_refl))).
      destruct (H (nb g j)) as [B1 B2]; [apply neighbour_in; auto|].
      assert (m * w j <= w j * G (nb g j) <= M * w j) by (split; nra). split; lra. }
    specialize (B axes). destruct B as [B1 B2]; [intros j Hj; apply in_seq in Hj; lia|].
    set (S := sum_of arR (map w axes)) in *. set (T := sum_of arR (map (fun j => w j * G (nb g j)) axes)) in *.
    destruct (H g Hg). split; nra.
  Qed.

  Lemma iter_bounds G m M n g : in_grid dims g -> (forall g, in_grid dims g -> m <= G g <= M) ->
    m <= upwind_iter arR n dims v lengths dt G g <= M.
  Proof using Hp HL Hdt HC.
    intros Hg H. revert g Hg. induction n as [|n IH]; intros g Hg; [apply H; exact Hg|]. cbn [upwind_iter]. apply formula_bounds; auto.
  Qed.

  (** Jensen's inequality for the square. *)
  Lemma square_convex {A} (W X : A -> R) l : (forall a, In a l -> 0 <= W a) ->
    (sum_of arR (map (fun a => W a * X a) l)) ^ 2 <=
    sum_of arR (map W l) * sum_of arR (map (fun a => W a * (X a) ^ 2) l).
  Proof using Type.
    unfold sum_of. cbn [arR a_add a_zero]. induction l as [|a l IH]; intros H; cbn [map fold_right]; [simpl; lra|].
    specialize (IH (fun b Hb => H b (or_intror Hb))). specialize (H a (or_introl eq_refl)) as Ha.
    assert (PW : 0 <= fold_right Rplus 0 (map W l)).
    { clear IH. induction l as [|b l IH']; cbn [map fold_right]; [lra|]. 
      assert (0 <= W b) by (apply H; right; left; auto). assert (0 <= fold_right Rplus 0 (map W l)); [|lra].
      apply IH'. intros d [Hd|Hd]; apply H; [left; auto|right; right; auto]. }
    assert (PQ : forall t, 0 <= fold_right Rplus 0 (map W l) * t ^ 2 - 2 * t * fold_right Rplus 0 (map (fun a => W a * X a) l)
                       + fold_right Rplus 0 (map (fun a => W a * X a ^ 2) l)).
    { intros t. clear IH PW Ha. induction l as [|b l IH']; cbn [map fold_right]; [simpl; lra|].
      assert (Hb : 0 <= W b) by (apply H; right; left; auto).
      assert (I : forall d, In d (a :: l) -> 0 <= W d) by (intros d [Hd|Hd]; apply H; [left; auto|right; right; auto]).
      specialize (IH' I). pose proof (pow2_ge_0 (X b - t)). pose proof (Rmult_le_pos _ _ Hb H0).
      set (p := fold_right _ _ (map W l)) in *. set (q := fold_right _ _ (map (fun a => W a * X a) l)) in *.
      set (r := fold_right _ _ (map (fun a => W a * X a ^ 2) l)) in *. simpl in *. nra. }
    specialize (PQ (X a)). set (p := fold_right _ _ (map W l)) in *. set (q := fold_right _ _ (map (fun a => W a * X a) l)) in *.
    set (r := fold_right _ _ (map (fun a => W a * X a ^ 2) l)) in *.
    pose proof (Rmult_le_pos _ _ Ha PQ). simpl in *. nra.
  Qed.

  Lemma formula_square G m g :
    (upwind_formula arR dims v lengths dt G g - m) ^ 2 <=
    (1 - sum_of arR (map w axes)) * (G g - m) ^ 2 + sum_of arR (map (fun j => w j * (G (nb g j) - m) ^ 2) axes).
  Proof using Hp HL Hdt HC.
    pose proof (square_convex (fun o => match o with None => 1 - sum_of arR (map w axes) | Some j => w j end)
      (fun o => match o with None => G g - m | Some j => G (nb g j) - m end) (None :: map Some axes)) as Q.
    cbn [map] in Q. rewrite !map_map in Q. unfold sum_of in Q. cbn [fold_right arR a_add] in Q.
    change (fold_right Rplus (a_zero arR) (map (fun x => w x) axes)) with (sum_of arR (map w axes)) in Q.
    change (fold_right Rplus (a_zero arR) (map (fun x => w x * (G (nb g x) - m)) axes)) with (sum_of arR (map (fun x => w x * (G (nb g x) - m)) axes)) in Q.
    change (fold_right Rplus (a_zero arR) (map (fun x => w x * (G (nb g x) - m) ^ 2) axes)) with (sum_of arR (map (fun x => w x * (G (nb g x) - m) ^ 2) axes)) in Q.
    rewrite formula_convex.
    assert (E : sum_of arR (map (fun x => w x * (G (nb g x) - m)) axes) = sum_of arR (map (fun x => w x * G (nb g x)) axes) - m * sum_of arR (map w axes)).
    { clear. unfold sum_of. cbn [arR a_add a_zero]. generalize axes as l. induction l as [|j l IH]; cbn [map fold_right]; [ring|]. rewrite IH. ring. }
    rewrite E in Q. clear E. set (S := sum_of arR (map w axes)) in *.
    change (fold_right Rplus (a_zero arR) (map w axes)) with S in Q.
    replace ((1 - S) * G g + sum_of arR (map (fun j => w j * G (nb g j)) axes) - m) with
      ((1 - S) * (G g - m) + (sum_of arR (map (fun x => w x * G (nb g x)) axes) - m * S)) by ring.
    eapply Rle_trans; [apply Q|].
    - intros [j|] [H|H]; try discriminate.
      + apply in_map_iff in H as (k & E & H). inversion E; subst. apply in_seq in H. apply w_nn. lia.
      + lra.
      + apply in_map_iff in H as (k & E & H). discriminate.
    - right. ring.
  Qed.

  Lemma sumR_le {A} (F G : A -> R) l : (forall a, In a l -> F a <= G a) -> sum_of arR (map F l) <= sum_of arR (map G l).
  Proof using Type.
    unfold sum_of. cbn [arR a_add a_zero]. induction l as [|a l IH]; intros H; cbn [map fold_right]; [lra|].
    specialize (IH (fun b Hb => H b (or_intror Hb))). specialize (H a (or_introl eq_refl)). lra.
  Qed.

  Lemma formula_spread G m :
    sum_of arR (map (fun g => (upwind_formula arR dims v lengths dt G g - m) ^ 2) (cells dims)) <=
    sum_of arR (map (fun g => (G g - m) ^ 2) (cells dims)).
  Proof using Hp HL Hdt HC.
    pose proof (en_ring _ arR_exact) as HR.
    eapply Rle_trans; [apply sumR_le; intros g _; apply formula_square|]. set (S := sum_of arR (map w axes)). right.
    rewrite (sum_add arR HR (fun g => (1 - S) * (G g - m) ^ 2)).
    rewrite (sum_scale arR HR (1 - S) (fun g => (G g - m) ^ 2)). set (V := sum_of arR (map (fun g => (G g - m) ^ 2) (cells dims))).
    assert (E : forall l, sum_of arR (map (fun g => sum_of arR (map (fun j => w j * (G (nb g j) - m) ^ 2) l)) (cells dims)) = sum_of arR (map w l) * V).
    { induction l as [|j l IH].
      - cbn [map]. rewrite (map_ext _ (fun _ => a_zero arR)) by reflexivity. rewrite (sum_zero arR HR). unfold sum_of. simpl. ring.
      - rewrite (map_ext _ (fun g => a_add arR (a_mul arR (w j) ((G (nb g j) - m) ^ 2)) (sum_of arR (map (fun j => w j * (G (nb g j) - m) ^ 2) l)))) by reflexivity.
        rewrite (sum_add arR HR), IH, (sum_scale arR HR (w j) (fun g => (G (nb g j) - m) ^ 2)).
        rewrite <- (map_map (fun g => nb g j) (fun g => (G g - m) ^ 2)).
        unfold nb. rewrite (sum_perm arR HR _ _ (Permutation_map _ (neighbour_perm dims j _ Hp))). fold V.
        unfold sum_of; cbn [map fold_right arR a_add a_mul]. ring. }
    rewrite E. fold S. cbn [arR a_add a_mul]. ring.
  Qed.

  Lemma iter_spread G m n :
    sum_of arR (map (fun g => (upwind_iter arR n dims v lengths dt G g - m) ^ 2) (cells dims)) <=
    sum_of arR (map (fun g => (G g - m) ^ 2) (cells dims)).
  Proof using Hp HL Hdt HC.
    induction n as [|n IH]; [right; reflexivity|]. cbn [upwind_iter]. eapply Rle_trans; [apply formula_spread|exact IH].
  Qed.
End Reals.
