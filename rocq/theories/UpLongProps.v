(** * For which axes one advection step of class Upwind is the upwind scheme (C58) *)
From Coq Require Import List Reals Lra Znumtheory.
From Verif Require Import Cpp CppProof MaiModel MaiSpec Radix MaiProof CdModel CdSpec FilterModel FilterSpec FilterProof
  FilterSum RealArith LapSpec LapProof UpModel UpSpec UpProof UpExact UpProps.
From Coq Require Import List.
Import ListNotations.
Local Open Scope Z_scope.
Local Arguments prodZ : simpl never.
Local Arguments Z.of_nat : simpl never.

(** The number of cells of an axis is harmless: short, or a divisor of 2^64 - 2^32 (by so much the sum of upwind.cxx:92,
    taken back from int to size_t, is off once it reaches 2^31). *)
Definition harmless_axis (n : Z) : Prop := n <= 2 ^ 30 \/ (2 ^ 64 - 2 ^ 32) mod n = 0.

Lemma index_long o d n : 0 <= o < n -> d = 1 \/ d = -1 -> n < 2 ^ 31 -> 2 ^ 31 <= o + d + n ->
  code_index o d n = (o + d + (2 ^ 64 - 2 ^ 32)) mod n.
Proof.
  intros Ho Hd Hn Hx. unfold code_index.
  assert (E : i32 (o + d + n) = o + d + n - 2 ^ 32).
  { unfold i32, two31, two32. rewrite <- (Z.mod_add _ (-1)) by lia. rewrite Z.mod_small by lia. lia. }
  rewrite E. unfold u64, two64. rewrite <- (Z.mod_add (o + d + n - 2 ^ 32) 1) by lia.
  rewrite (Z.mod_small (_ + _)) by lia. rewrite <- (Z.mod_add (o + d + _) 1 n) by lia. f_equal. lia.
Qed.

Lemma index_short o d n : 0 <= o < n -> d = 1 \/ d = -1 -> n < 2 ^ 31 -> o + d + n < 2 ^ 31 ->
  code_index o d n = (o + d) mod n.
Proof.
  intros Ho Hd Hn Hx. unfold code_index. rewrite i32_id by (unfold two31; lia). rewrite u64_id by (unfold two64; lia).
  rewrite <- (Z.mod_add (o + d) 1 n) by lia. f_equal. lia.
Qed.

Lemma index_harmless o d n : 0 <= o < n -> d = 1 \/ d = -1 -> n < 2 ^ 31 -> harmless_axis n ->
  code_index o d n = (o + d) mod n.
Proof.
  intros Ho Hd Hn [Hh|Hh]; [apply code_index_ok; auto|].
  destruct (Z.lt_ge_cases (o + d + n) (2 ^ 31)) as [H|H]; [apply index_short; auto|].
  rewrite index_long by auto. rewrite Z.add_mod, Hh, Z.add_0_r, Z.mod_mod by lia. reflexivity.
Qed.

Lemma index_harmful d n : d = 1 \/ d = -1 -> n < 2 ^ 31 -> ~ harmless_axis n ->
  0 <= n - 1 < n /\ code_index (n - 1) d n <> (n - 1 + d) mod n.
Proof.
  intros Hd Hn Hh. assert (Hl : 2 ^ 30 < n) by (destruct (Z.le_gt_cases n (2 ^ 30)); [contradict Hh; left; auto|auto]).
  split; [lia|]. rewrite index_long by lia. intros E. apply Hh. right.
  set (k := 2 ^ 64 - 2 ^ 32) in *. replace k with (n - 1 + d + k - (n - 1 + d)) by lia.
  rewrite Zminus_mod, E, Z.sub_diag. apply Z.mod_0_l. lia.
Qed.

Lemma axis_small dims : up_grid dims -> forall j, (j < length dims)%nat -> 1 <= nth j dims 0 < 2 ^ 31.
Proof.
  intros Hg j Hj. destruct (axis_range dims (up_big dims Hg) j Hj) as [H1 H2]. destruct Hg as (_ & _ & _ & H).
  split; lia.
Qed.

(** In any arithmetic: when every axis is harmless one step is the upwind formula. *)
Theorem C58_harmless_axes {D} (ar : arith D) dims v lengths u G dt :
  up_args dims v lengths -> (forall j, (j < length dims)%nat -> harmless_axis (nth j dims 0)) ->
  up_object ar dims v lengths u -> holds u dims G ->
  exists u', up_step ar (vlen dims) u dt = Ok u' /\ up_object ar dims v lengths u' /\
             holds u' dims (upwind_formula ar dims v lengths dt G).
Proof.
  intros Ha Hax Hu Hh. destruct (holds_of ar _ _ _ _ _ Ha Hu Hh) as (old & Lo & ->). pose proof Ha as (Hg & Hv & Hl).
  pose proof (up_big dims Hg) as Hb. unfold vlen. rewrite up_step_eq; auto; [|apply Hg|unfold vlen in Lo; lia].
  eexists; split; [reflexivity|]. split; [apply of_object; auto; apply cells_vlen; auto|].
  unfold holds. cbn [up_of up_f]. apply map_ext_in. intros g Hin. apply in_cells in Hin.
  unfold code_step, cell_value, upwind_formula.
  assert (E : forall l x, (forall j, In j l -> (j < length dims)%nat) ->
      fold_left (fun acc j => a_sub ar acc (a_mul ar (courant ar dims v lengths dt j) (a_sub ar (G (code_neighbour ar dims v g j)) (G g)))) l x =
      fold_left (fun acc j => a_sub ar acc (a_mul ar (courant ar dims v lengths dt j)
        (a_sub ar (G (neighbour dims g j (upwind_side ar (axis_velocity ar v j)))) (G g)))) l x).
  { induction l as [|j l IH]; intros x H; [reflexivity|]. cbn [fold_left]. assert (Hj : (j < length dims)%nat) by (apply H; left; auto).
    rewrite IH by (intros k Hk; apply H; right; auto). do 4 f_equal. f_equal. unfold neighbour. rewrite wrap_unit by auto.
    pose proof (proj1 (in_grid_nth dims g) Hin) as [L Hin']. unfold code_neighbour. f_equal.
    apply index_harmless; auto; [apply side_range|apply axis_small; auto]. }
  apply E. intros j Hj. apply in_seq in Hj. lia.
Qed.
Print Assumptions C58_harmless_axes.

(** In real arithmetic nothing more can be said: with the time step, the velocities and the lengths different from zero,
    one step is the upwind formula for all fields exactly when every axis is harmless. *)
Theorem C58_exactly {v lengths : list R} dims dt :
  up_args dims v lengths -> dt <> 0%R ->
  (forall j, (j < length dims)%nat -> nth j v 0%R <> 0%R /\ nth j lengths 0%R <> 0%R) ->
  ((forall j, (j < length dims)%nat -> harmless_axis (nth j dims 0)) <->
   (forall u G u', up_object arR dims v lengths u -> holds u dims G -> up_step arR (vlen dims) u dt = Ok u' ->
      holds u' dims (upwind_formula arR dims v lengths dt G))).
Proof.
  intros Ha Hdt Hnz. split.
  { intros Hax u G u' Hu Hh E. destruct (C58_harmless_axes arR dims v lengths u G dt Ha Hax Hu Hh) as (w & Ew & _ & H). congruence. }
  intros Hall j Hj. pose proof Ha as (Hg & Hv & Hl). pose proof (up_big dims Hg) as Hb.
  destruct (Z.le_gt_cases (nth j dims 0) (2 ^ 30)) as [|Hlong]; [left; auto|].
  destruct (Z.eq_dec ((2 ^ 64 - 2 ^ 32) mod nth j dims 0) 0) as [|Hbad]; [right; auto|]. exfalso.
  assert (Hharm : ~ harmless_axis (nth j dims 0)) by (intros [H|H]; [lia|contradiction]).
  pose proof (side_range arR v j) as Hd.
  destruct (index_harmful (side arR v j) (nth j dims 0) Hd (proj2 (axis_small dims Hg j Hj)) Hharm) as (Hn1 & Hne).
  set (n := nth j dims 0) in *. set (d := side arR v j) in *.
  set (g := upd (repeat 0 (length dims)) j (n - 1)).
  assert (Lg : length g = length dims) by (unfold g; rewrite upd_length, repeat_length; reflexivity).
  assert (Hgn : forall k, nth k g 0 = if (k =? j)%nat then n - 1 else 0).
  { intros k. unfold g. rewrite upd_nth by (rewrite repeat_length; auto). destruct (Nat.eqb_spec k j); auto. apply nth_repeat. }
  assert (Hing : in_grid dims g).
  { apply in_grid_nth. split; [exact Lg|]. intros k Hk. rewrite Hgn. destruct (Nat.eqb_spec k j) as [->|]; [fold n; lia|].
    pose proof (axis_small dims Hg k Hk). lia. }
  set (t := neighbour dims g j d).
  assert (Ht : t = upd g j ((n - 1 + d) mod n)).
  { unfold t, neighbour. rewrite wrap_unit by auto. f_equal. rewrite Hgn, Nat.eqb_refl. reflexivity. }
  assert (Hc : code_neighbour arR dims v g j = upd g j (code_index (n - 1) d n)).
  { unfold code_neighbour. rewrite Hgn, Nat.eqb_refl. reflexivity. }
  set (G := fun h : list Z => if list_eq_dec Z.eq_dec h t then 1%R else 0%R).
  set (old := map G (cells dims)).
  assert (Lo : vlen old = prodZ dims) by (apply cells_vlen; auto).
  assert (Lo' : length old = Z.to_nat (prodZ dims)) by (unfold vlen in Lo; lia).
  pose proof (up_step_eq arR dims v lengths Hb Hv Hl dt G old (proj2 (proj2 (proj2 Hg))) Lo') as E.
  assert (Hh := Hall _ G _ (of_object arR dims v lengths G old Ha Lo) eq_refl E). clear E Hall.
  unfold holds in Hh. cbn [up_of up_f] in Hh. apply in_cells in Hing.
  assert (Eg : code_step arR dims v lengths dt G g = upwind_formula arR dims v lengths dt G g).
  { clear - Hh Hing. induction (cells dims) as [|h l IH]; [destruct Hing|]. cbn [map] in Hh.
    assert (E1 := f_equal (fun l => nth 0 l 0%R) Hh). assert (E2 := f_equal (@tl R) Hh). cbn [nth tl] in E1, E2.
    destruct Hing as [<-|Hing]; auto. }
  clear Hh. apply in_cells in Hing. unfold code_step, cell_value, upwind_formula in Eg.
  (* the two folds differ by the difference at axis j *)
  assert (Eo : forall k, (k < length dims)%nat -> k <> j ->
    code_neighbour arR dims v g k = neighbour dims g k (upwind_side arR (axis_velocity arR v k))).
  { intros k Hk Hkj. unfold neighbour. rewrite wrap_unit by auto. unfold code_neighbour. f_equal.
    apply index_harmless; [apply in_grid_nth in Hing; apply Hing; auto|apply side_range|apply axis_small; auto|].
    left. destruct (Z.le_gt_cases (nth k dims 0) (2 ^ 30)) as [|Hl2]; auto. exfalso.
    assert (Hle : nth k dims 0 * n <= prodZ dims).
    { destruct Hg as (_ & _ & Hpos & _). clear - Hpos Hk Hj Hkj. subst n. revert k j Hk Hj Hkj.
      assert (Hone : forall l : list Z, (forall k, (k < length l)%nat -> 1 <= nth k l 0) -> 1 <= prodZ l /\
                forall k, (k < length l)%nat -> nth k l 0 <= prodZ l).
      { induction l as [|a l IH]; intros H; [split; [change (prodZ []) with 1; lia|simpl; intros; lia]|].
        destruct IH as [I1 I2]; [intros k Hk; apply (H (S k)); simpl; lia|]. pose proof (H O ltac:(simpl; lia)) as H0. simpl in H0.
        rewrite prodZ_cons. split; [nia|]. intros [|k] Hk; simpl in *; [nia|]. specialize (I2 k ltac:(lia)). nia. }
      induction dims as [|a l IH]; [simpl; intros; lia|]. intros k j Hk Hj Hkj.
      assert (H0 : 1 <= a) by (specialize (Hpos O ltac:(simpl; lia)); simpl in Hpos; lia).
      assert (Hl : forall k, (k < length l)%nat -> 1 <= nth k l 0) by (intros i Hi; specialize (Hpos (S i) ltac:(simpl; lia)); simpl in Hpos; lia).
      destruct (Hone l Hl) as [P1 P2]. rewrite prodZ_cons.
      destruct k as [|k], j as [|j]; simpl in *; try congruence.
      - specialize (P2 j ltac:(lia)). nia.
      - specialize (P2 k ltac:(lia)). nia.
      - specialize (IH ltac:(intros i Hi; specialize (Hl i Hi); lia) k j ltac:(lia) ltac:(lia) ltac:(lia)).
        assert (1 <= nth k l 0) by (apply Hl; lia). assert (1 <= nth j l 0) by (apply Hl; lia).
        assert (0 <= prodZ l) by lia. nia. }
    destruct Hg as (_ & _ & _ & Hs). nia. }
  set (c := courant arR dims v lengths dt) in *.
  set (F1 := fun k => G (code_neighbour arR dims v g k)) in *.
  set (F2 := fun k => G (neighbour dims g k (upwind_side arR (axis_velocity arR v k)))) in *.
  assert (Ef : forall l x y, (forall k, In k l -> (k < length dims)%nat) -> NoDup l ->
    (fold_left (fun acc k => a_sub arR acc (a_mul arR (c k) (a_sub arR (F1 k) (G g)))) l x
     - fold_left (fun acc k => a_sub arR acc (a_mul arR (c k) (a_sub arR (F2 k) (G g)))) l y
     = x - y - (if in_dec Nat.eq_dec j l then c j * (F1 j - F2 j) else 0))%R).
  { induction l as [|k l IH]; intros x y Hin Hnd; cbn [fold_left].
    - destruct (in_dec _ _ _) as [[]|]; lra.
    - inversion Hnd as [|? ? Hnk Hnd']; subst. rewrite IH by (auto; intros; apply Hin; right; auto).
      cbn [arR a_sub a_mul]. destruct (in_dec Nat.eq_dec j l) as [Hi|Hi]; destruct (in_dec Nat.eq_dec j (k :: l)) as [Hi'|Hi'].
      + assert (k <> j) by (intros ->; contradiction). unfold F1 at 1, F2 at 1. rewrite Eo by (auto; apply Hin; left; auto). lra.
      + contradict Hi'; right; auto.
      + destruct Hi' as [->|Hi']; [lra|contradiction].
      + assert (k <> j) by (intros ->; apply Hi'; left; auto). unfold F1 at 1, F2 at 1. rewrite Eo by (auto; apply Hin; left; auto). lra. }
  specialize (Ef (seq 0 (length dims)) (G g) (G g) (fun k Hk => proj2 (proj1 (in_seq _ _ _) Hk)) (seq_NoDup _ _)).
  unfold F1 at 1, F2 at 1 in Ef. cbv beta in Ef.
  assert (Eg' := Eg). fold c in Eg'. rewrite Eg' in Ef.
  destruct (in_dec Nat.eq_dec j (seq 0 (length dims))) as [_|Hi]; [|apply Hi, in_seq; lia].
  assert (E2 : F2 j = 1%R).
  { unfold F2, G. fold d. change (upwind_side arR (axis_velocity arR v j)) with d. fold t. destruct (list_eq_dec Z.eq_dec t t); congruence. }
  assert (E1 : F1 j = 0%R).
  { unfold F1, G. rewrite Hc. destruct (list_eq_dec Z.eq_dec _ t) as [Q|]; [|reflexivity]. exfalso. rewrite Ht in Q.
    assert (Q' := f_equal (fun l => nth j l 0) Q). cbv beta in Q'. rewrite !upd_nth, !Nat.eqb_refl in Q' by (rewrite Lg; auto).
    contradiction. }
  rewrite E1, E2 in Ef.
  assert (Hcj : (c j <> 0)%R).
  { unfold c, courant, cell_size, axis_velocity. destruct (Hnz j Hj) as [Hvj Hlj]. cbn [arR a_div a_mul a_ofZ a_zero].
    fold n. assert (IZR n <> 0)%R by (apply not_0_IZR; lia).
    assert (IZR (upwind_side arR (nth j v 0%R)) <> 0)%R.
    { apply not_0_IZR. unfold upwind_side. destruct (a_lt _ _ _); lia. }
    unfold Rdiv. repeat apply Rmult_integral_contrapositive_currified; auto.
    apply Rinv_neq_0_compat. apply Rmult_integral_contrapositive_currified; auto. apply Rinv_neq_0_compat; auto. }
  lra.
Qed.
Print Assumptions C58_exactly.

(** ** Examples *)

(** Axes of 3 * 2^29 and of 2^30 + 1 cells: longer than 2^30, and only the first divides 2^64 - 2^32. *)
Example C58_harmless : 2 ^ 30 < 3 * 2 ^ 29 < 2 ^ 31 /\ harmless_axis (3 * 2 ^ 29).
Proof. split; [lia|]. right. reflexivity. Qed.
Example C58_harmful : ~ harmless_axis (2 ^ 30 + 1).
Proof. intros [H|H]; [lia|]. vm_compute in H. discriminate. Qed.
Example C58_hypotheses : up_args [1; 3 * 2 ^ 29] [1%R; (-2)%R] [1%R; 3%R] /\
  (forall j, (j < 2)%nat -> harmless_axis (nth j [1; 3 * 2 ^ 29] 0)) /\
  (forall j, (j < 2)%nat -> nth j [1%R; (-2)%R] 0%R <> 0%R /\ nth j [1%R; 3%R] 0%R <> 0%R).
Proof.
  repeat split; try discriminate; try reflexivity.
  - intros [|[|j]] Hj; simpl in *; lia.
  - intros [|[|j]] Hj; [left; simpl; lia|right; reflexivity|lia].
  - destruct j as [|[|j]]; simpl; try lra; lia.
  - destruct j as [|[|j]]; simpl; try lra; lia.
Qed.
