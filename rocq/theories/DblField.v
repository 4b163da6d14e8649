(** * A field advected in double precision *)
From Coq Require Import Reals ZArith Lia Lra Psatz Floats.SpecFloat List Permutation.
From Flocq Require Import Core BinarySingleNaN.
From Verif Require Import Cpp CdModel FilterSpec FilterSum RealArith UpSpec UpProof UpExact Ieee Double DblSpec DblProof.
Import ListNotations.
Local Open Scope R_scope.

Lemma rsum_le {A} (F G : A -> R) l : (forall a, In a l -> F a <= G a) -> rsum (map F l) <= rsum (map G l).
Proof. apply (sumR_le F G l). Qed.
Lemma rsum_add {A} (F G : A -> R) l : rsum (map (fun a => F a + G a) l) = rsum (map F l) + rsum (map G l).
Proof. apply (sum_add arR (en_ring _ arR_exact)). Qed.
Lemma rsum_scale {A} c (F : A -> R) l : rsum (map (fun a => c * F a) l) = c * rsum (map F l).
Proof. apply (sum_scale arR (en_ring _ arR_exact)). Qed.
Lemma rsum_perm l l' : Permutation l l' -> rsum l = rsum l'.
Proof. apply (sum_perm arR (en_ring _ arR_exact)). Qed.
Lemma rsum_const {A} c (l : list A) : rsum (map (fun _ => c) l) = INR (length l) * c.
Proof. induction l as [|a l IH]; [simpl; lra|]. cbn [map length]. rewrite S_INR. unfold rsum in *. cbn [fold_right]. rewrite IH. lra. Qed.
Lemma rsum_abs {A} (F : A -> R) l : Rabs (rsum (map F l)) <= rsum (map (fun a => Rabs (F a)) l).
Proof.
  unfold rsum. induction l as [|a l IH]; cbn [map fold_right]; [rewrite Rabs_R0; lra|].
  eapply Rle_trans; [apply Rabs_triang|]. lra.
Qed.
Lemma rsum_swap {A B} (F : A -> B -> R) l m :
  rsum (map (fun a => rsum (map (fun b => F a b) m)) l) = rsum (map (fun b => rsum (map (fun a => F a b) l)) m).
Proof.
  induction l as [|a l IH].
  - cbn [map]. rewrite rsum_const. unfold rsum; simpl. lra.
  - cbn [map]. change (rsum (?x :: ?k)) with (x + rsum k). rewrite IH. rewrite <- rsum_add. f_equal.
Qed.

(** the scheme with arbitrary coefficients and sides *)
Section Scheme.
  Context {D : Type} (ar : arith D).
  Variables (dims : list Z) (C : nat -> D) (sd : nat -> Z).
  Definition coef_formula (G : list Z -> D) (g : list Z) : D :=
    fold_left (fun acc j => a_sub ar acc (a_mul ar (C j) (a_sub ar (G (neighbour dims g j (sd j))) (G g)))) (seq 0 (length dims)) (G g).
  Fixpoint coef_iter (n : nat) (G : list Z -> D) : list Z -> D :=
    match n with O => G | S m => coef_formula (coef_iter m G) end.
End Scheme.

Section Field.
  Variables (dims : list Z) (C : nat -> spec_float) (sd : nat -> Z) (c : nat -> R).
  Hypotheses (Hp : pos_axes dims) (H3 : (length dims <= 3)%nat).
  Hypothesis HC : forall j, (j < length dims)%nat -> double_value (C j) (c j) /\ - / 8 <= c j <= 0.
  Let axes := seq 0 (length dims).
  Let nb g j := neighbour dims g j (sd j).
  Notation step := (coef_formula arD dims C sd).

  (** the values of the cells are the doubles [F], between 0 and 1 *)
  Definition field_is (G : list Z -> spec_float) (F : list Z -> R) : Prop :=
    forall g, in_grid dims g -> double_value (G g) (F g) /\ 0 <= F g <= 1.

  Definition pairs (F : list Z -> R) (g : list Z) (l : list nat) : list (R * R) := map (fun j => (c j, F (nb g j))) l.
  Definition rounded (F : list Z -> R) (g : list Z) : R := fold_left (cell_step (F g)) (pairs F g axes) (F g).
  Definition unrounded (F : list Z -> R) (g : list Z) : R := fold_left (exact_step (F g)) (pairs F g axes) (F g).

  Lemma axes_lt j : In j axes -> (j < length dims)%nat.
  Proof using Type. intros H. apply in_seq in H. destruct H as [_ H]. exact H. Qed.

  Lemma pairs_ok G F g l : field_is G F -> in_grid dims g -> incl l axes ->
    forall p, In p (pairs F g l) -> - / 8 <= fst p <= 0 /\ fmt (snd p) /\ 0 <= snd p <= 1.
  Proof using Hp HC.
    intros HF Hg Hl p Hin. apply in_map_iff in Hin as (j & <- & Hj). cbn [fst snd].
    destruct (HC j (axes_lt _ (Hl _ Hj))) as [_ Hc]. destruct (HF (nb g j)) as [V R]; [apply neighbour_in; assumption|].
    split; [exact Hc|]. split; [exact (dv_fmt _ _ V)|exact R].
  Qed.

  Lemma axes_length : (length axes <= 3)%nat.
  Proof using H3. unfold axes. rewrite seq_length. exact H3. Qed.

  Lemma step_double G F g : field_is G F -> in_grid dims g ->
    double_value (step G g) (rounded F g) /\ 0 <= rounded F g <= 1.
  Proof using Hp H3 HC.
    intros HF Hg. destruct (HF g Hg) as [Vg Rg].
    assert (P : forall l, incl l axes -> (length l <= 3)%nat ->
      double_value (fold_left (fun acc j => a_sub arD acc (a_mul arD (C j) (a_sub arD (G (nb g j)) (G g)))) l (G g)) (fold_left (cell_step (F g)) (pairs F g l) (F g)) /\
      0 <= fold_left (cell_step (F g)) (pairs F g l) (F g) <= 1).
    { intros l Hl L3. split; [|apply cell_range; [exact (dv_fmt _ _ Vg)|exact Rg|unfold pairs; rewrite map_length; exact L3|exact (pairs_ok G F g l HF Hg Hl)]].
      induction l as [|j l IH] using rev_ind; [exact Vg|].
      assert (Hl' : incl l axes) by (intros x Hx; apply Hl, in_or_app; auto). rewrite app_length in L3. cbn [length] in L3.
      specialize (IH Hl' ltac:(lia)). unfold pairs. rewrite map_app, !fold_left_app. cbn [map fold_left]. fold (pairs F g l).
      assert (RA : 0 <= fold_left (cell_step (F g)) (pairs F g l) (F g) <= 1)
        by (apply cell_range; [exact (dv_fmt _ _ Vg)|exact Rg|unfold pairs; rewrite map_length; lia|exact (pairs_ok G F g l HF Hg Hl')]).
      set (acc := fold_left (cell_step (F g)) (pairs F g l) (F g)) in *.
      assert (Ij : In j axes) by (apply Hl, in_or_app; right; left; reflexivity).
      destruct (HC j (axes_lt _ Ij)) as [Vc Rc]. destruct (HF (nb g j)) as [Vn Rn]; [apply neighbour_in; assumption|].
      pose proof (flow_range (F g) (dv_fmt _ _ Vg) Rg (c j) (F (nb g j)) Rc (dv_fmt _ _ Vn) Rn) as FR.
      pose proof (diff_range (F g) (dv_fmt _ _ Vg) (F (nb g j)) (dv_fmt _ _ Vn) Rn) as DR.
      pose proof (inflow_small (F g) (dv_fmt _ _ Vg) Rg) as IS. pose proof (third_of_eighth (F g) (dv_fmt _ _ Vg) ltac:(lra)) as TE.
      assert (B1 : rnd64 (1 - F g) <= 1) by (rewrite <- (rnd_fmt 1 fmt_1) at 2; apply rnd_le; lra).
      assert (T53 : 10 <= 2 ^ 53) by (simpl; lra).
      unfold cell_step. cbn [fst snd]. unfold flow in *.
      set (t := rnd64 (c j * rnd64 (F (nb g j) - F g))) in *. fold (Rminus acc t).
      assert (A0 : 0 <= rnd64 (F g * / 8)) by (apply rnd_nn; lra).
      apply dv_sub; [exact IH| |apply Rabs_le; lra]. unfold t. apply dv_mul; [exact Vc| |].
      - apply dv_sub; [exact Vn|exact Vg|apply Rabs_le; lra].
      - rewrite Rabs_mult. apply Rle_trans with (/ 8 * 1); [|lra].
        apply Rmult_le_compat; try apply Rabs_pos; apply Rabs_le; lra. }
    apply P; [intros x Hx; exact Hx|apply axes_length].
  Qed.

  Lemma step_field G F : field_is G F -> field_is (step G) (rounded F).
  Proof using Hp H3 HC. intros HF g Hg. apply step_double; assumption. Qed.

  Fixpoint rounded_iter (n : nat) (F : list Z -> R) : list Z -> R :=
    match n with O => F | S m => rounded (rounded_iter m F) end.

  Lemma iter_field n G F : field_is G F -> field_is (coef_iter arD dims C sd n G) (rounded_iter n F).
  Proof using Hp H3 HC. intros HF. induction n as [|n IH]; [exact HF|]. apply step_field, IH. Qed.

  (** ** The sum of the values *)
  Definition total (F : list Z -> R) : R := rsum (map F (cells dims)).
  Notation N := (INR (length (cells dims))).

  Lemma unrounded_sum F g : unrounded F g = F g - rsum (map (fun j => c j * (F (nb g j) - F g)) axes).
  Proof using Type.
    unfold unrounded. generalize (F g) at 2 3 as x. induction axes as [|j l IH]; intros x.
    - simpl. unfold rsum; simpl. lra.
    - cbn [pairs map fold_left]. fold (pairs F g l). rewrite IH. unfold exact_step. cbn [fst snd]. change (rsum (?a :: ?k)) with (a + rsum k). lra.
  Qed.

  Lemma unrounded_total F : total (unrounded F) = total F.
  Proof using Hp.
    unfold total. rewrite (map_ext _ (fun g => F g + - 1 * rsum (map (fun j => c j * (F (nb g j) - F g)) axes))) by (intros; rewrite unrounded_sum; ring).
    rewrite rsum_add, rsum_scale, rsum_swap.
    rewrite (map_ext (fun j => rsum (map (fun g => c j * (F (nb g j) - F g)) (cells dims))) (fun _ => 0)); [rewrite rsum_const; ring|]. intros j.
    rewrite rsum_scale. rewrite (map_ext _ (fun g => F (nb g j) + - 1 * F g)) by (intros; ring).
    rewrite rsum_add, rsum_scale. rewrite <- (map_map (fun g => nb g j) F).
    unfold nb. rewrite (rsum_perm _ _ (Permutation_map F (neighbour_perm dims j (sd j) Hp))). ring.
  Qed.

  Lemma total_nn G F : field_is G F -> 0 <= total F.
  Proof using Type. intros HF. apply rsum_nn. intros x Hx. apply in_map_iff in Hx as (g & <- & Hg). apply HF, in_cells, Hg. Qed.

  Lemma step_total G F : field_is G F -> Rabs (total (rounded F) - total F) <= 6 * eps * total F + 12 * eta * N.
  Proof using Hp H3 HC.
    intros HF. rewrite <- (unrounded_total F) at 1. unfold total.
    replace (rsum (map (rounded F) (cells dims)) - rsum (map (unrounded F) (cells dims)))
      with (rsum (map (fun g => rounded F g + - 1 * unrounded F g) (cells dims))) by (rewrite rsum_add, rsum_scale; ring).
    eapply Rle_trans; [apply rsum_abs|].
    pose proof eps_small as E. pose proof eta_tiny as T.
    eapply Rle_trans; [apply (rsum_le _ (fun g => 4 * eps * F g + (2 / 3 * eps * rsum (map (fun j => F (nb g j)) axes) + 12 * eta)))|].
    - intros g Hg. apply in_cells in Hg. destruct (HF g Hg) as [Vg Rg].
      replace (rounded F g + -1 * unrounded F g) with (rounded F g - unrounded F g) by ring.
      eapply Rle_trans; [apply cell_error; [exact (dv_fmt _ _ Vg)|exact Rg|unfold pairs; rewrite map_length; apply axes_length|exact (pairs_ok G F g axes HF Hg (incl_refl _))]|].
      unfold pairs. rewrite map_length, map_map. cbn [snd].
      assert (L : INR (length axes) <= 3) by (replace 3 with (INR 3) by (simpl; lra); apply le_INR, axes_length).
      assert (L0 : 0 <= INR (length axes)) by apply pos_INR.
      assert (U0 : 0 <= rsum (map (fun j => F (nb g j)) axes)).
      { apply rsum_nn. intros x Hx. apply in_map_iff in Hx as (j & <- & Hj). apply HF. apply neighbour_in; assumption. }
      set (U := rsum (map (fun j => F (nb g j)) axes)) in *. set (k := INR (length axes)) in *.
      assert (A : 13 / 10 * k * F g <= 4 * F g) by (apply Rmult_le_compat_r; lra).
      assert (B : (27 / 100 + 13 / 100 * k) * U <= 2 / 3 * U) by (apply Rmult_le_compat_r; lra).
      assert (D : 4 * k * eta <= 12 * eta) by (apply Rmult_le_compat_r; lra).
      assert (F' : eps * (13 / 10 * k * F g + (27 / 100 + 13 / 100 * k) * U) <= eps * (4 * F g + 2 / 3 * U)) by (apply Rmult_le_compat_l; lra).
      lra.
    - rewrite rsum_add, rsum_scale, rsum_add, rsum_scale, rsum_const, rsum_swap.
      assert (U : rsum (map (fun j => rsum (map (fun g => F (nb g j)) (cells dims))) axes) <= 3 * total F).
      { rewrite (map_ext _ (fun _ => total F)).
        - rewrite rsum_const. apply Rmult_le_compat_r; [exact (total_nn G F HF)|]. replace 3 with (INR 3) by (simpl; lra). apply le_INR, axes_length.
        - intros j. rewrite <- (map_map (fun g => nb g j) F). apply rsum_perm, Permutation_map, neighbour_perm, Hp. }
      fold (total F). set (W := rsum (map (fun j => rsum (map (fun g => F (nb g j)) (cells dims))) axes)) in *.
      assert (2 / 3 * eps * W <= 2 / 3 * eps * (3 * total F)) by (apply Rmult_le_compat_l; lra).
      lra.
  Qed.

  Lemma iter_total n G F : field_is G F -> total F = 1 -> N <= 2 ^ 31 -> INR n <= 2 ^ 31 ->
    Rabs (total (rounded_iter n F) - 1) <= 7 * INR n * eps.
  Proof using Hp H3 HC.
    intros HF H1 HN. pose proof eps_small as E. pose proof eta_tiny as T.
    assert (T31 : 2 ^ 31 * eps <= / 1000000) by (unfold eps; simpl; lra).
    assert (ET : 12 * eta * N <= eps / 2).
    { apply Rle_trans with (12 * (eps * eps * eps) * 2 ^ 31).
      - apply Rmult_le_compat; try lra. apply pos_INR.
      - replace (12 * (eps * eps * eps) * 2 ^ 31) with (12 * eps * (eps * (2 ^ 31 * eps))) by ring.
        assert (eps * (2 ^ 31 * eps) <= / 1000000 * / 1000000) by (apply Rmult_le_compat; lra).
        apply Rle_trans with (12 * eps * (/ 1000000 * / 1000000)); [apply Rmult_le_compat_l; lra|lra]. }
    induction n as [|n IH]; intros Hn.
    - cbn [rounded_iter]. rewrite H1. simpl INR. rewrite Rminus_eq_0, Rabs_R0. lra.
    - rewrite S_INR in *. pose proof (pos_INR n) as N0. specialize (IH ltac:(lra)).
      pose proof (step_total _ _ (iter_field n _ _ HF)) as St. cbn [rounded_iter].
      set (S0 := total (rounded_iter n F)) in *. set (S1 := total (rounded (rounded_iter n F))) in *.
      assert (Ne : INR n * eps <= / 1000000) by (apply Rle_trans with (2 ^ 31 * eps); [apply Rmult_le_compat_r; lra|exact T31]).
      assert (B : S0 <= 1 + / 100000) by (apply Rabs_le_inv in IH; lra).
      replace (S1 - 1) with ((S1 - S0) + (S0 - 1)) by ring. eapply Rle_trans; [apply Rabs_triang|].
      assert (6 * eps * S0 <= 6 * eps * (1 + / 100000)) by (apply Rmult_le_compat_l; lra). lra.
  Qed.
End Field.

(** ** Adding up the values *)
Lemma sum_double l : forall L s r S k,
  Forall2 (fun x y => double_value x y /\ 0 <= y) l L -> double_value s r -> 0 <= r -> rsum L <= S ->
  S <= 2 -> Rabs (r - (S - rsum L)) <= INR k * (11 / 10 * eps * S + 2 * eta) -> INR (k + length l) <= 2 ^ 31 ->
  exists r', double_value (fold_left (a_add arD) l s) r' /\ 0 <= r' /\ Rabs (r' - S) <= INR (k + length l) * (11 / 10 * eps * S + 2 * eta).
Proof.
  pose proof eps_small as E. pose proof eta_tiny as T.
  assert (T31 : 2 ^ 31 * eps <= / 1000000) by (unfold eps; simpl; lra).
  assert (T53 : 10 <= 2 ^ 53) by (simpl; lra).
  induction l as [|x l IH]; intros L s r S k HL Hs Hr HS HS2 He Hk; inversion HL; subst.
  - exists r. split; [exact Hs|]. split; [exact Hr|]. rewrite Nat.add_0_r. change (rsum []) with 0 in He. rewrite Rminus_0_r in He. exact He.
  - destruct H1 as [Vx Px]. cbn [fold_left length] in *. change (rsum (y :: l')) with (y + rsum l') in *.
    assert (R0 : 0 <= rsum l').
    { apply rsum_nn. clear - H3. induction H3 as [|a b ? ? [_ ?] ? IHF]; [intros ? []|]. intros z [<-|Hz]; auto. }
    set (d := 11 / 10 * eps * S + 2 * eta) in *. assert (S0 : 0 <= S) by lra.
    assert (eS : 0 <= eps * S) by (apply Rmult_le_pos; lra).
    assert (D0 : 0 <= d) by (unfold d; lra).
    assert (K0 : 0 <= INR k) by apply pos_INR.
    assert (Kb : INR k <= 2 ^ 31) by (apply Rle_trans with (INR (k + Datatypes.S (length l))); [apply le_INR; lia|exact Hk]).
    assert (K1 : INR k * d * eps <= / 1000000 * d).
    { replace (INR k * d * eps) with (INR k * eps * d) by ring. apply Rmult_le_compat_r; [exact D0|].
      apply Rle_trans with (2 ^ 31 * eps); [apply Rmult_le_compat_r; lra|exact T31]. }
    assert (Dd : d <= 1) by (unfold d; assert (eps * S <= / 1000000 * 2) by (apply Rmult_le_compat; lra); assert (eps * eps * eps <= eps) by nra; lra).
    assert (Kd : INR k * d <= 1).
    { assert (d <= 3 * eps) by (unfold d; assert (eps * S <= eps * 2) by (apply Rmult_le_compat_l; lra); assert (eps * eps * eps <= / 100 * eps) by nra; lra).
      apply Rle_trans with (2 ^ 31 * (3 * eps)); [apply Rmult_le_compat; lra|lra]. }
    pose proof (Rabs_le_inv _ _ He) as He'.
    assert (V : double_value (a_add arD s x) (rnd64 (r + y))) by (apply dv_add; [exact Hs|exact Vx|apply Rabs_le; lra]).
    pose proof (rnd_error (r + y)) as RE. rewrite (Rabs_pos_eq (r + y)) in RE by lra.
    destruct (IH l' _ _ S (Datatypes.S k) H3 V (rnd_nn (r + y) ltac:(lra)) ltac:(lra) HS2) as (r' & V' & P' & B').
    + rewrite S_INR. replace (rnd64 (r + y) - (S - rsum l')) with ((rnd64 (r + y) - (r + y)) + (r - (S - (y + rsum l')))) by ring.
      eapply Rle_trans; [apply Rabs_triang|].
      assert (eps * (r + y) <= eps * (S + INR k * d)) by (apply Rmult_le_compat_l; lra).
      unfold d in *. lra.
    + rewrite Nat.add_succ_l, <- Nat.add_succ_r. exact Hk.
    + exists r'. split; [exact V'|]. split; [exact P'|]. rewrite Nat.add_succ_r. exact B'.
Qed.
