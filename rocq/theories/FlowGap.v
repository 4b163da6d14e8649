(** * Distance between a field computed in double precision and the field of exact arithmetic, for schemes that add one term per axis

    The counterpart of RoundProof.v for the order of operations of the Fortran versions. *)
From Coq Require Import Reals ZArith Lia Lra Psatz Floats.SpecFloat List Permutation String.
From Flocq Require Import Core BinarySingleNaN.
From Verif Require Import Cpp CppProof MaiModel MaiSpec Radix MaiProof CdModel CdSpec FilterModel FilterSpec FilterProof FilterSum RealArith LapSpec
  UpModel UpSpec UpProof UpExact UpProps LangSpec Ieee Double DblSpec DblProof DblField DblProps FlowProof RoundProof.
From Coq Require Import List.
Import ListNotations.
Local Open Scope R_scope.
Local Arguments prodZ : simpl never.
Local Arguments Z.of_nat : simpl never.

Section Flow.
  Variables (dims : list Z) (T : nat -> spec_float -> spec_float -> spec_float) (sd : nat -> Z).
  (** what axis [j] adds to a cell of value [f] whose neighbour has the value [u]; the exact coefficient; the bounds *)
  Variables (fl : nat -> R -> R -> R) (c : nat -> R) (low up : R -> R) (K : R).
  Hypotheses (Hp : pos_axes dims) (H3 : (length dims <= 3)%nat) (HK : 0 <= K <= 2 ^ 20).
  Hypothesis Hc : forall j, (j < length dims)%nat -> - / 8 <= c j <= 0.
  Hypothesis HT : forall j a b u f, (j < length dims)%nat -> double_value a u -> double_value b f -> 0 <= u <= 1 -> 0 <= f <= 1 ->
    double_value (T j a b) (- fl j f u).
  Hypothesis Hlow : forall f, fmt f -> 0 <= f <= 1 -> fmt (low f) /\ 0 <= low f /\ 3 * low f <= f.
  Hypothesis Hup : forall f, fmt f -> 0 <= f <= 1 -> 0 <= up f <= (1 - f) * / 7.
  Hypothesis Hfl : forall j f u, (j < length dims)%nat -> fmt f -> 0 <= f <= 1 -> fmt u -> 0 <= u <= 1 -> - low f <= fl j f u <= up f.
  Hypothesis Herr : forall j f u, (j < length dims)%nat -> fmt f -> 0 <= f <= 1 -> fmt u -> 0 <= u <= 1 ->
    Rabs (fl j f u + c j * (u - f)) <= 39 / 100 * eps * (u + f) + K * eta.

  Variables (e : nat -> R) (kappa : R).
  Hypothesis K0 : 0 <= kappa.
  Hypothesis He : forall j, (j < length dims)%nat -> - / 8 <= e j <= 0 /\ Rabs (c j - e j) <= kappa.
  Notation axes := (seq 0 (length dims)).
  Notation nb g j := (neighbour dims g j (sd j)).
  Notation N := (INR (length (cells dims))).
  Notation flowed := (flowed dims sd fl).
  Notation unflowed := (unflowed dims sd c).

  Lemma LA : (length axes <= 3)%nat.
  Proof using H3. rewrite seq_length. exact H3. Qed.

  Lemma flow_gap G F : field_is dims G F -> gap dims (flowed F) (unflowed F) <= 7 * eps * total dims F + (K + 2) * 3 * eta * N.
  Proof using Hp H3 HK Hc HT Hlow Hup Hfl Herr.
    clear K0 He. intros HF. unfold gap. pose proof LA as LA.
    pose proof eps_small as E. pose proof eta_tiny as Te.
    eapply Rle_trans; [apply (rsum_le _ (fun g => 42 / 10 * eps * F g + (8 / 10 * eps * rsum (map (fun j => F (nb g j)) axes) + (K + 2) * 3 * eta)))|].
    - intros g Hg. apply in_cells in Hg. destruct (HF g Hg) as [Vg Rg].
      eapply Rle_trans; [apply (axis_error dims T fl c low up K Hp H3 HK Hc HT Hlow Hup Hfl Herr); [exact (dv_fmt _ _ Vg)|exact Rg|unfold around; rewrite map_length; exact LA|exact (around_fine dims T sd fl c low up K Hp H3 HK Hc HT Hlow Hup Hfl Herr G F g axes HF Hg (incl_refl _))]|].
      unfold around. rewrite map_length, map_map. cbn [snd].
      assert (L : INR (length axes) <= 3) by (replace 3 with (INR 3) by (simpl; lra); apply le_INR, LA).
      assert (L0 : 0 <= INR (length axes)) by apply pos_INR.
      assert (U0 : 0 <= rsum (map (fun j => F (nb g j)) axes)).
      { apply rsum_nn. intros x Hx. apply in_map_iff in Hx as (j & <- & Hj). apply HF. apply neighbour_in; assumption. }
      set (U := rsum (map (fun j => F (nb g j)) axes)) in *. set (k := INR (length axes)) in *.
      assert (A : 14 / 10 * k * F g <= 42 / 10 * F g) by (apply Rmult_le_compat_r; lra).
      assert (B : (40 / 100 + 13 / 100 * k) * U <= 8 / 10 * U) by (apply Rmult_le_compat_r; lra).
      assert (D : (K + 2) * k * eta <= (K + 2) * 3 * eta) by (apply Rmult_le_compat_r; [lra|apply Rmult_le_compat_l; lra]).
      assert (F' : eps * (14 / 10 * k * F g + (40 / 100 + 13 / 100 * k) * U) <= eps * (42 / 10 * F g + 8 / 10 * U)) by (apply Rmult_le_compat_l; lra).
      lra.
    - rewrite rsum_add, rsum_scale, rsum_add, rsum_scale, rsum_const, rsum_swap.
      assert (U : rsum (map (fun j => rsum (map (fun g => F (nb g j)) (cells dims))) axes) <= 3 * total dims F).
      { rewrite (map_ext _ (fun _ => total dims F)).
        - rewrite rsum_const. apply Rmult_le_compat_r; [exact (total_nn dims G F HF)|]. replace 3 with (INR 3) by (simpl; lra). apply le_INR, LA.
        - intros j. rewrite <- (map_map (fun g => nb g j) F). apply rsum_perm, Permutation_map, neighbour_perm, Hp. }
      fold (total dims F). set (W := rsum (map (fun j => rsum (map (fun g => F (nb g j)) (cells dims))) axes)) in *.
      pose proof (total_nn dims G F HF) as P0.
      assert (8 / 10 * eps * W <= 8 / 10 * eps * (3 * total dims F)) by (apply Rmult_le_compat_l; lra).
      assert (0 <= eps * total dims F) by (apply Rmult_le_pos; lra).
      lra.
  Qed.


  Lemma unflowed_unrounded F g : unflowed F g = unrounded dims sd c F g.
  Proof using Type. rewrite unflowed_sum, unrounded_sum. reflexivity. Qed.

  Lemma flow_iter_gap n G F : field_is dims G F -> total dims F = 1 -> N <= 2 ^ 31 -> INR n <= 2 ^ 31 -> kappa <= 23 / 100 * eps ->
    gap dims (flowed_iter dims sd fl n F) (coef_iter arR dims e sd n F) <= 9 * INR n * eps.
  Proof using Hp H3 HK Hc HT Hlow Hup Hfl Herr He K0.
    intros HF H1 HN Hn Hk. pose proof eps_small as E. pose proof eta_tiny as Te.
    assert (T31 : 2 ^ 31 * eps <= / 1000000) by (unfold eps; simpl; lra).
    assert (T20 : 3 * 2 ^ 21 * eps <= / 1000) by (unfold eps; simpl; lra).
    assert (ET : (K + 2) * 3 * eta * N <= eps / 10).
    { apply Rle_trans with (2 ^ 21 * 3 * (eps * eps * eps) * 2 ^ 31).
      - assert (K + 2 <= 2 ^ 21) by (simpl in *; lra). apply Rmult_le_compat; [|apply pos_INR| |exact HN].
        + apply Rmult_le_pos; [lra|lra].
        + apply Rmult_le_compat; lra.
      - replace (2 ^ 21 * 3 * (eps * eps * eps) * 2 ^ 31) with (eps * ((3 * 2 ^ 21 * eps) * (2 ^ 31 * eps))) by ring.
        assert ((3 * 2 ^ 21 * eps) * (2 ^ 31 * eps) <= / 1000 * / 1000000) by (apply Rmult_le_compat; simpl in *; lra).
        apply Rle_trans with (eps * (/ 1000 * / 1000000)); [apply Rmult_le_compat_l; lra|lra]. }
    induction n as [|n IH].
    - cbn [flowed_iter coef_iter]. unfold gap. rewrite (map_ext _ (fun g => 0)) by (intros g; rewrite Rminus_eq_0; apply Rabs_R0). rewrite rsum_const. simpl INR. lra.
    - rewrite S_INR in *. pose proof (pos_INR n) as N0. specialize (IH ltac:(lra)). cbn [flowed_iter coef_iter].
      pose proof (flow_iter_field dims T sd fl c low up K Hp H3 HK Hc HT Hlow Hup Hfl Herr n _ _ HF) as HFn.
      pose proof (flow_iter_total dims T sd fl c low up K Hp H3 HK Hc HT Hlow Hup Hfl Herr n _ _ HF H1 HN ltac:(lra)) as HT'.
      set (Fn := flowed_iter dims sd fl n F) in *. set (Hn' := coef_iter arR dims e sd n F) in *.
      assert (Ne : INR n * eps <= / 1000000) by (apply Rle_trans with (2 ^ 31 * eps); [apply Rmult_le_compat_r; lra|exact T31]).
      assert (B : total dims Fn <= 1 + / 100000) by (apply Rabs_le_inv in HT'; lra).
      pose proof (total_nn _ _ _ HFn) as T0.
      assert (X : gap dims (flowed Fn) (unrounded dims sd e Hn') <= (7 * eps * total dims Fn + (K + 2) * 3 * eta * N) + (6 * kappa * total dims Fn + gap dims Fn Hn')).
      { eapply Rle_trans; [apply (gap_triang dims _ (unrounded dims sd c Fn))|]. apply Rplus_le_compat.
        - eapply Rle_trans; [|exact (flow_gap _ _ HFn)]. apply Req_le. unfold gap. f_equal. apply map_ext. intros g. rewrite unflowed_unrounded. reflexivity.
        - eapply Rle_trans; [apply (gap_triang dims _ (unrounded dims sd e Fn))|]. apply Rplus_le_compat; [exact (step_coefs dims sd c e kappa Hp H3 K0 He _ _ HFn)|].
          exact (step_contracts dims sd c e kappa Hp H3 He Fn Hn'). }
      assert (Y : gap dims (flowed Fn) (coef_formula arR dims e sd Hn') = gap dims (flowed Fn) (unrounded dims sd e Hn')).
      { unfold gap. f_equal. apply map_ext. intros g. rewrite unrounded_coef. reflexivity. }
      rewrite Y. eapply Rle_trans; [exact X|].
      assert (7 * eps * total dims Fn <= 7 * eps * (1 + / 100000)) by (apply Rmult_le_compat_l; lra).
      assert (kappa * total dims Fn <= 23 / 100 * eps * (1 + / 100000)) by (apply Rmult_le_compat; lra). lra.
  Qed.
End Flow.
