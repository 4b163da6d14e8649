(** * Distance between the field computed in double precision and the field of exact arithmetic *)
From Coq Require Import Reals ZArith Lia Lra Psatz Floats.SpecFloat List Permutation.
From Flocq Require Import Core BinarySingleNaN.
From Verif Require Import Cpp CdModel FilterSpec FilterSum RealArith UpSpec UpProof UpExact Ieee Double DblSpec DblProof DblField.
Import ListNotations.
Local Open Scope R_scope.

(** the sum of the absolute differences *)
Definition gap (dims : list Z) (F H : list Z -> R) : R := rsum (map (fun g => Rabs (F g - H g)) (cells dims)).

Lemma gap_triang dims F G H : gap dims F H <= gap dims F G + gap dims G H.
Proof.
  unfold gap. rewrite <- rsum_add. apply rsum_le. intros g _. replace (F g - H g) with ((F g - G g) + (G g - H g)) by ring. apply Rabs_triang.
Qed.

Section Gap.
  Variables (dims : list Z) (C : nat -> spec_float) (sd : nat -> Z) (c e : nat -> R) (kappa : R).
  Hypotheses (Hp : pos_axes dims) (H3 : (length dims <= 3)%nat) (K0 : 0 <= kappa).
  Hypothesis HC : forall j, (j < length dims)%nat -> double_value (C j) (c j) /\ - / 8 <= c j <= 0.
  Hypothesis He : forall j, (j < length dims)%nat -> - / 8 <= e j <= 0 /\ Rabs (c j - e j) <= kappa.
  Notation axes := (seq 0 (length dims)).
  Notation nb g j := (neighbour dims g j (sd j)).

  Lemma unrounded_coef F g : coef_formula arR dims e sd F g = unrounded dims sd e F g.
  Proof using Type.
    unfold coef_formula, unrounded, pairs. generalize (F g) at 2 4 as x. generalize axes as l. induction l as [|j l IH]; intros x; [reflexivity|].
    cbn [map fold_left]. rewrite <- IH. reflexivity.
  Qed.

  Lemma sum_of_neighbours F : rsum (map (fun g => rsum (map (fun j => F (nb g j)) axes)) (cells dims)) = INR (length dims) * total dims F.
  Proof using Hp.
    rewrite rsum_swap, (map_ext _ (fun _ => total dims F)); [rewrite rsum_const, seq_length; reflexivity|].
    intros j. rewrite <- (map_map (fun g => nb g j) F). apply rsum_perm, Permutation_map, neighbour_perm, Hp.
  Qed.

  (** the exact step does not move two fields apart *)
  Lemma step_contracts F H : gap dims (unrounded dims sd e F) (unrounded dims sd e H) <= gap dims F H.
  Proof using Hp H3 He.
    unfold gap. pose proof (unrounded_total dims sd e Hp (fun g => Rabs (F g - H g))) as T. unfold total in T. rewrite <- T. apply rsum_le. intros g _.
    rewrite !unrounded_sum. set (D := fun g => F g - H g).
    replace (F g - rsum (map (fun j => e j * (F (nb g j) - F g)) axes) - (H g - rsum (map (fun j => e j * (H (nb g j) - H g)) axes)))
      with (D g + rsum (map (fun j => - e j * (D (nb g j) - D g)) axes)).
    2: { assert (Q : rsum (map (fun j => - e j * (D (nb g j) - D g)) axes) =
        -1 * rsum (map (fun j => e j * (F (nb g j) - F g)) axes) + 1 * rsum (map (fun j => e j * (H (nb g j) - H g)) axes)).
      { rewrite <- !rsum_scale, <- rsum_add. f_equal. apply map_ext. intros j. unfold D. ring. } rewrite Q. unfold D. ring. }
    (* the weight left to the cell *)
    assert (W : rsum (map (fun j => - e j) axes) <= 1).
    { apply Rle_trans with (rsum (map (fun _ => / 8) axes)).
      - apply rsum_le. intros j Hj. apply in_seq in Hj. destruct (He j) as [? _]; [lia|]. lra.
      - rewrite rsum_const, seq_length. assert (INR (length dims) <= 3) by (replace 3 with (INR 3) by (simpl; lra); apply le_INR, H3). lra. }
    assert (S1 : rsum (map (fun j => - e j * (D (nb g j) - D g)) axes) = rsum (map (fun j => - e j * D (nb g j)) axes) - D g * rsum (map (fun j => - e j) axes)).
    { rewrite <- (rsum_scale (D g)). replace (rsum (map (fun j => - e j * D (nb g j)) axes) - rsum (map (fun j => D g * - e j) axes))
        with (rsum (map (fun j => - e j * D (nb g j)) axes) + -1 * rsum (map (fun j => D g * - e j) axes)) by ring.
      rewrite <- rsum_scale, <- rsum_add. f_equal. apply map_ext. intros j. ring. }
    assert (S2 : rsum (map (fun j => e j * (Rabs (F (nb g j) - H (nb g j)) - Rabs (F g - H g))) axes) =
      - (rsum (map (fun j => - e j * Rabs (D (nb g j))) axes) - Rabs (D g) * rsum (map (fun j => - e j) axes))).
    { rewrite <- (rsum_scale (Rabs (D g))). replace (- (rsum (map (fun j => - e j * Rabs (D (nb g j))) axes) - rsum (map (fun j => Rabs (D g) * - e j) axes)))
        with (-1 * rsum (map (fun j => - e j * Rabs (D (nb g j))) axes) + 1 * rsum (map (fun j => Rabs (D g) * - e j) axes)) by ring.
      rewrite <- !rsum_scale, <- rsum_add. f_equal. apply map_ext. intros j. unfold D. ring. }
    rewrite S1, S2. fold (D g).
    replace (D g + (rsum (map (fun j => - e j * D (nb g j)) axes) - D g * rsum (map (fun j => - e j) axes)))
      with (D g * (1 - rsum (map (fun j => - e j) axes)) + rsum (map (fun j => - e j * D (nb g j)) axes)) by ring.
    eapply Rle_trans; [apply Rabs_triang|]. rewrite Rabs_mult, (Rabs_pos_eq (1 - _)) by lra.
    assert (S3 : Rabs (rsum (map (fun j => - e j * D (nb g j)) axes)) <= rsum (map (fun j => - e j * Rabs (D (nb g j))) axes)).
    { eapply Rle_trans; [apply rsum_abs|]. apply rsum_le. intros j Hj. apply in_seq in Hj. destruct (He j) as [? _]; [lia|].
      rewrite Rabs_mult, (Rabs_pos_eq (- e j)) by lra. apply Rle_refl. }
    lra.
  Qed.

  (** rounding one step *)
  Lemma step_rounds G F : field_is dims G F -> gap dims (rounded dims sd c F) (unrounded dims sd c F) <= 6 * eps * total dims F + 12 * eta * INR (length (cells dims)).
  Proof using Hp H3 HC.
    intros HF. unfold gap. pose proof eps_small as E. pose proof eta_tiny as T.
    eapply Rle_trans; [apply (rsum_le _ (fun g => 4 * eps * F g + (2 / 3 * eps * rsum (map (fun j => F (nb g j)) axes) + 12 * eta)))|].
    - intros g Hg. apply in_cells in Hg. destruct (HF g Hg) as [Vg Rg].
      assert (LA : (length axes <= 3)%nat) by (rewrite seq_length; exact H3).
      eapply Rle_trans; [apply cell_error; [exact (dv_fmt _ _ Vg)|exact Rg|unfold pairs; rewrite map_length; exact LA|exact (pairs_ok dims C sd c Hp HC G F g axes HF Hg (incl_refl _))]|].
      unfold pairs. rewrite map_length, map_map. cbn [snd].
      assert (L : INR (length axes) <= 3) by (replace 3 with (INR 3) by (simpl; lra); apply le_INR, LA).
      assert (L0 : 0 <= INR (length axes)) by apply pos_INR.
      assert (U0 : 0 <= rsum (map (fun j => F (nb g j)) axes)).
      { apply rsum_nn. intros x Hx. apply in_map_iff in Hx as (j & <- & Hj). apply HF. apply neighbour_in; assumption. }
      set (U := rsum (map (fun j => F (nb g j)) axes)) in *. set (k := INR (length axes)) in *.
      assert (A : 13 / 10 * k * F g <= 4 * F g) by (apply Rmult_le_compat_r; lra).
      assert (B : (27 / 100 + 13 / 100 * k) * U <= 2 / 3 * U) by (apply Rmult_le_compat_r; lra).
      assert (D : 4 * k * eta <= 12 * eta) by (apply Rmult_le_compat_r; lra).
      assert (F' : eps * (13 / 10 * k * F g + (27 / 100 + 13 / 100 * k) * U) <= eps * (4 * F g + 2 / 3 * U)) by (apply Rmult_le_compat_l; lra).
      lra.
    - rewrite rsum_add, rsum_scale, rsum_add, rsum_scale, rsum_const, sum_of_neighbours. fold (total dims F).
      pose proof (total_nn dims G F HF) as T0.
      assert (L : INR (length dims) <= 3) by (replace 3 with (INR 3) by (simpl; lra); apply le_INR, H3).
      assert (INR (length dims) * total dims F <= 3 * total dims F) by (apply Rmult_le_compat_r; assumption).
      assert (2 / 3 * eps * (INR (length dims) * total dims F) <= 2 / 3 * eps * (3 * total dims F)) by (apply Rmult_le_compat_l; lra). lra.
  Qed.

  (** other coefficients *)
  Lemma step_coefs G F : field_is dims G F -> gap dims (unrounded dims sd c F) (unrounded dims sd e F) <= 6 * kappa * total dims F.
  Proof using Hp H3 He K0.
    intros HF. unfold gap. pose proof (total_nn dims G F HF) as T0.
    eapply Rle_trans; [apply (rsum_le _ (fun g => kappa * (rsum (map (fun j => F (nb g j)) axes) + INR (length dims) * F g)))|].
    - intros g Hg. apply in_cells in Hg. rewrite !unrounded_sum.
      replace (F g - rsum (map (fun j => c j * (F (nb g j) - F g)) axes) - (F g - rsum (map (fun j => e j * (F (nb g j) - F g)) axes)))
        with (-1 * rsum (map (fun j => c j * (F (nb g j) - F g)) axes) + 1 * rsum (map (fun j => e j * (F (nb g j) - F g)) axes)) by ring.
      rewrite <- !rsum_scale, <- rsum_add. eapply Rle_trans; [apply rsum_abs|].
      replace (INR (length dims) * F g) with (rsum (map (fun _ => F g) axes)) by (rewrite rsum_const, seq_length; reflexivity).
      rewrite <- rsum_add, <- rsum_scale. apply rsum_le. intros j Hj. apply in_seq in Hj. destruct (He j) as [_ K]; [lia|].
      replace (-1 * (c j * (F (nb g j) - F g)) + 1 * (e j * (F (nb g j) - F g))) with (- ((c j - e j) * (F (nb g j) - F g))) by ring.
      rewrite Rabs_Ropp, Rabs_mult. destruct (HF g Hg) as [_ Rg]. destruct (HF (nb g j)) as [_ Rn]; [apply neighbour_in; assumption|].
      apply Rmult_le_compat; try apply Rabs_pos; [exact K|]. apply Rabs_le. lra.
    - rewrite rsum_scale, rsum_add, rsum_scale, sum_of_neighbours. fold (total dims F).
      assert (L : INR (length dims) <= 3) by (replace 3 with (INR 3) by (simpl; lra); apply le_INR, H3).
      assert (INR (length dims) * total dims F <= 3 * total dims F) by (apply Rmult_le_compat_r; assumption).
      replace (6 * kappa * total dims F) with (kappa * (3 * total dims F + 3 * total dims F)) by ring. apply Rmult_le_compat_l; lra.
  Qed.

  Lemma iter_gap n G F : field_is dims G F -> total dims F = 1 -> INR (length (cells dims)) <= 2 ^ 31 -> INR n <= 2 ^ 31 -> kappa <= 42 / 100 * eps ->
    gap dims (rounded_iter dims sd c n F) (coef_iter arR dims e sd n F) <= 9 * INR n * eps.
  Proof using Hp H3 HC He K0.
    intros HF H1 HN Hn Hk. pose proof eps_small as E. pose proof eta_tiny as T.
    assert (T31 : 2 ^ 31 * eps <= / 1000000) by (unfold eps; simpl; lra).
    assert (ET : 12 * eta * INR (length (cells dims)) <= eps / 100).
    { apply Rle_trans with (12 * (eps * eps * eps) * 2 ^ 31).
      - apply Rmult_le_compat; try lra. apply pos_INR.
      - replace (12 * (eps * eps * eps) * 2 ^ 31) with (12 * eps * (eps * (2 ^ 31 * eps))) by ring.
        assert (eps * (2 ^ 31 * eps) <= / 1000000 * / 1000000) by (apply Rmult_le_compat; lra).
        apply Rle_trans with (12 * eps * (/ 1000000 * / 1000000)); [apply Rmult_le_compat_l; lra|lra]. }
    induction n as [|n IH].
    - cbn [rounded_iter coef_iter]. unfold gap. rewrite (map_ext _ (fun g => 0)) by (intros g; rewrite Rminus_eq_0; apply Rabs_R0). rewrite rsum_const. simpl INR. lra.
    - rewrite S_INR in *. pose proof (pos_INR n) as N0. specialize (IH ltac:(lra)). cbn [rounded_iter coef_iter].
      pose proof (iter_field dims C sd c Hp H3 HC n _ _ HF) as HFn. pose proof (iter_total dims C sd c Hp H3 HC n _ _ HF H1 HN ltac:(lra)) as HT.
      set (Fn := rounded_iter dims sd c n F) in *. set (Hn' := coef_iter arR dims e sd n F) in *.
      assert (Ne : INR n * eps <= / 1000000) by (apply Rle_trans with (2 ^ 31 * eps); [apply Rmult_le_compat_r; lra|exact T31]).
      assert (B : total dims Fn <= 1 + / 100000) by (apply Rabs_le_inv in HT; lra).
      pose proof (total_nn _ _ _ HFn) as T0.
      assert (X : gap dims (rounded dims sd c Fn) (unrounded dims sd e Hn') <= (6 * eps * total dims Fn + 12 * eta * INR (length (cells dims))) + (6 * kappa * total dims Fn + gap dims Fn Hn')).
      { eapply Rle_trans; [apply (gap_triang dims _ (unrounded dims sd c Fn))|]. apply Rplus_le_compat; [exact (step_rounds _ _ HFn)|].
        eapply Rle_trans; [apply (gap_triang dims _ (unrounded dims sd e Fn))|]. apply Rplus_le_compat; [exact (step_coefs _ _ HFn)|apply step_contracts]. }
      assert (Y : gap dims (rounded dims sd c Fn) (coef_formula arR dims e sd Hn') = gap dims (rounded dims sd c Fn) (unrounded dims sd e Hn')).
      { unfold gap. f_equal. apply map_ext. intros g. rewrite unrounded_coef. reflexivity. }
      rewrite Y. eapply Rle_trans; [exact X|].
      assert (6 * eps * total dims Fn <= 6 * eps * (1 + / 100000)) by (apply Rmult_le_compat_l; lra).
      assert (kappa * total dims Fn <= 42 / 100 * eps * (1 + / 100000)) by (apply Rmult_le_compat; lra). lra.
  Qed.
End Gap.
