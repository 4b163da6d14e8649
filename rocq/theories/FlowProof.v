(** * A field advected in double precision, the increment of an axis being evaluated in any way

    As in DblProof.v and DblField.v, but what one axis adds to a cell is only known to lie between two bounds and to be close
    to the exact increment. *)
From Coq Require Import Reals ZArith Lia Lra Psatz Floats.SpecFloat List Permutation.
From Flocq Require Import Core BinarySingleNaN.
From Verif Require Import Cpp CdModel FilterSpec FilterSum RealArith UpSpec UpProof UpExact Ieee Double DblSpec DblProof DblField.
Import ListNotations.
Local Open Scope R_scope.

(** The scheme with an arbitrary increment [T j (upwind neighbour) (cell)]. *)
Section Scheme.
  Context {D : Type} (ar : arith D).
  Variables (dims : list Z) (T : nat -> D -> D -> D) (sd : nat -> Z).
  Definition term_formula (G : list Z -> D) (g : list Z) : D :=
    fold_left (fun acc j => a_sub ar acc (T j (G (neighbour dims g j (sd j))) (G g))) (seq 0 (length dims)) (G g).
  Fixpoint term_iter (n : nat) (G : list Z -> D) : list Z -> D :=
    match n with O => G | S m => term_formula (term_iter m G) end.
End Scheme.

Section Flow.
  Variables (dims : list Z) (T : nat -> spec_float -> spec_float -> spec_float) (sd : nat -> Z).
  (** what axis [j] adds to a cell of value [f] whose neighbour has the value [u]; the exact coefficient; the bounds *)
  Variables (fl : nat -> R -> R -> R) (c : nat -> R) (low up : R -> R) (K : R).
  Hypotheses (Hp : pos_axes dims) (H3 : (length dims <= 3)%nat) (HK : 0 <= K <= 2 ^ 20).
  Hypothesis Hc : forall j, (j < length dims)%nat -> - / 8 <= c j <= 0.
  Hypothesis HT : forall j a b u f, (j < length dims)%nat -> double_value a u -> double_value b f -> 0 <= u <= 1 -> 0 <= f <= 1 ->
    double_value (T j a b) (- fl j f u).
  Hypothesis Hlow : forall f, fmt f -> 0 <= f <= 1 -> fmt (low f) /\ 0 <= low f /\ 3 * low f <= f.
  Hypothesis Hup : forall f, fmt f -> 0 <= f <= 1 -> 0 <= up f <= (1 - f) * / 7.
  Hypothesis Hfl : forall j f u, (j < length dims)%nat -> fmt f -> 0 <= f <= 1 -> fmt u -> 0 <= u <= 1 -> - low f <= fl j f u <= up f.
  Hypothesis Herr : forall j f u, (j < length dims)%nat -> fmt f -> 0 <= f <= 1 -> fmt u -> 0 <= u <= 1 ->
    Rabs (fl j f u + c j * (u - f)) <= 39 / 100 * eps * (u + f) + K * eta.

  (** ** One cell: pairs of an axis and the value of the neighbour *)
  Definition add_axis (f acc : R) (p : nat * R) : R := rnd64 (acc + fl (fst p) f (snd p)).
  Definition add_exact (f acc : R) (p : nat * R) : R := acc - c (fst p) * (snd p - f).
  Definition fine (l : list (nat * R)) : Prop := forall p, In p l -> (fst p < length dims)%nat /\ fmt (snd p) /\ 0 <= snd p <= 1.

  Lemma axis_range f l : fmt f -> 0 <= f <= 1 -> (length l <= 3)%nat -> fine l ->
    0 <= fold_left (add_axis f) l f <= 1 /\ fmt (fold_left (add_axis f) l f).
  Proof using Hp H3 HK Hc HT Hlow Hup Hfl Herr.
    intros Ff Hf Hl Hq. destruct (Hlow f Ff Hf) as (Fa & A0 & L). destruct (Hup f Ff Hf) as (S0 & U).
    set (a := low f) in *. set (s := up f) in *.
    pose proof eps_small as E.
    assert (G : (f = 1 /\ s = 0) \/ f <= 1 - eps).
    { destruct (Req_dec f 1) as [->|N]; [left; split; [reflexivity|lra]|right; apply below_one; [exact Ff|lra]]. }
    assert (ST : forall k acc p, In p l -> (k < 3)%nat -> INR (3 - k) * a <= acc -> acc <= 1 -> acc <= f + INR k * s + INR k * (eps / 2) ->
      INR (3 - S k) * a <= add_axis f acc p /\ add_axis f acc p <= 1 /\ add_axis f acc p <= f + INR (S k) * s + INR (S k) * (eps / 2)).
    { intros k acc p Hin Hk La Ua Va. destruct (Hq p Hin) as (Hj & Fu & Hu). destruct (Hfl _ f _ Hj Ff Hf Fu Hu) as [F1 F2].
      fold a in F1. fold s in F2. unfold add_axis. set (t := fl (fst p) f (snd p)) in *.
      assert (Lo : INR (3 - S k) * a <= acc + t).
      { replace (INR (3 - k)) with (INR (3 - S k) + 1) in La by (rewrite <- S_INR; f_equal; lia). lra. }
      assert (Fk : fmt (INR (3 - S k) * a)).
      { destruct k as [|[|[|k]]]; simpl INR; [|rewrite Rmult_1_l; exact Fa|rewrite Rmult_0_l; apply fmt_0|lia].
        replace (1 + 1) with 2 by ring. apply fmt_double, Fa. }
      assert (K0 : 0 <= INR (3 - S k) * a) by (apply Rmult_le_pos; [apply pos_INR|exact A0]).
      assert (Hi : acc + t < 1 + eps).
      { destruct G as [[-> Z]|G]; [lra|]. assert (INR k <= 2) by (change 2 with (INR 2); apply le_INR; lia).
        assert (INR k * s <= 2 * s) by (apply Rmult_le_compat_r; assumption). assert (INR k * (eps / 2) <= 2 * (eps / 2)) by (apply Rmult_le_compat_r; lra). lra. }
      split; [|split].
      - rewrite <- (rnd_fmt _ Fk). apply rnd_le, Lo.
      - apply rnd_up_to_one, Hi.
      - eapply Rle_trans; [apply rnd_half; split; [lra|exact Hi]|]. rewrite S_INR. lra. }
    assert (B0 : INR (3 - 0) * a <= f) by (simpl INR; lra).
    assert (C0 : f <= f + INR 0 * s + INR 0 * (eps / 2)) by (simpl INR; lra).
    destruct l as [|p1 [|p2 [|p3 [|p4 l]]]]; cbn [fold_left].
    - split; [exact Hf|exact Ff].
    - destruct (ST 0%nat f p1 ltac:(left; reflexivity) ltac:(lia) B0 ltac:(lra) C0) as (L1 & U1 & V1).
      split; [|apply rnd_is_fmt]. split; [|exact U1]. eapply Rle_trans; [|exact L1]. apply Rmult_le_pos; [apply pos_INR|exact A0].
    - destruct (ST 0%nat f p1 ltac:(left; reflexivity) ltac:(lia) B0 ltac:(lra) C0) as (L1 & U1 & V1).
      destruct (ST 1%nat _ p2 ltac:(right; left; reflexivity) ltac:(lia) L1 U1 V1) as (L2 & U2 & V2).
      split; [|apply rnd_is_fmt]. split; [|exact U2]. eapply Rle_trans; [|exact L2]. apply Rmult_le_pos; [apply pos_INR|exact A0].
    - destruct (ST 0%nat f p1 ltac:(left; reflexivity) ltac:(lia) B0 ltac:(lra) C0) as (L1 & U1 & V1).
      destruct (ST 1%nat _ p2 ltac:(right; left; reflexivity) ltac:(lia) L1 U1 V1) as (L2 & U2 & V2).
      destruct (ST 2%nat _ p3 ltac:(right; right; left; reflexivity) ltac:(lia) L2 U2 V2) as (L3 & U3 & V3).
      split; [|apply rnd_is_fmt]. split; [|exact U3]. simpl INR in L3. lra.
    - simpl in Hl. lia.
  Qed.

  Lemma add_exact_upper f l : 0 <= f <= 1 -> fine l -> fold_left (add_exact f) l f <= f + / 8 * rsum (map snd l).
  Proof using Hp H3 HK Hc HT Hlow Hup Hfl Herr.
    intros Hf H. induction l as [|p l IH] using rev_ind; [simpl; lra|].
    rewrite fold_left_app, map_app, rsum_app. cbn [fold_left map rsum fold_right]. unfold add_exact at 1.
    specialize (IH (fun q Hq => H q (in_or_app _ _ _ (or_introl Hq)))).
    destruct (H p ltac:(apply in_or_app; right; left; reflexivity)) as (Hj & _ & Hu). pose proof (Hc _ Hj) as Hcj. fold (rsum (map snd l)) in *.
    assert (- c (fst p) * snd p <= / 8 * snd p) by (apply Rmult_le_compat_r; lra).
    assert (0 <= - c (fst p) * f) by (apply Rmult_le_pos; lra). lra.
  Qed.

  Lemma axis_error f l : fmt f -> 0 <= f <= 1 -> (length l <= 3)%nat -> fine l ->
    Rabs (fold_left (add_axis f) l f - fold_left (add_exact f) l f) <=
    eps * (14 / 10 * INR (length l) * f + (40 / 100 + 13 / 100 * INR (length l)) * rsum (map snd l)) + (K + 2) * INR (length l) * eta.
  Proof using Hp H3 HK Hc HT Hlow Hup Hfl Herr.
    intros Ff Hf. induction l as [|p l IH] using rev_ind; intros Hl Hq.
    - simpl. rewrite Rminus_eq_0, Rabs_R0. lra.
    - rewrite app_length in *. cbn [length] in *.
      assert (Hq' : fine l) by (intros q Hi; apply Hq, in_or_app; auto).
      specialize (IH ltac:(lia) Hq').
      pose proof (add_exact_upper f _ Hf Hq) as XU. pose proof (axis_range f l Ff Hf ltac:(lia) Hq') as [AR _].
      pose proof (axis_range f (l ++ [p]) Ff Hf ltac:(rewrite app_length; cbn [length]; lia) Hq) as [AR2 _].
      rewrite !fold_left_app in *. rewrite map_app, rsum_app in *. cbn [fold_left map] in *. change (rsum [snd p]) with (snd p + 0) in *. rewrite Rplus_0_r in *.
      destruct (Hq p ltac:(apply in_or_app; right; left; reflexivity)) as (Hj & Fu & Hu).
      pose proof (Herr _ f _ Hj Ff Hf Fu Hu) as FE.
      assert (V0 : 0 <= rsum (map snd l)).
      { apply rsum_nn. intros x Hx. apply in_map_iff in Hx as (q & <- & Hi). apply (Hq' q Hi). }
      set (acc := fold_left (add_axis f) l f) in *. set (ex := fold_left (add_exact f) l f) in *. set (U := rsum (map snd l)) in *.
      unfold add_axis, add_exact in *. destruct (Hlow f Ff Hf) as (_ & A0 & LL). destruct (Hfl _ f _ Hj Ff Hf Fu Hu) as [F1 _].
      set (t := fl (fst p) f (snd p)) in *. set (u := snd p) in *. set (cc := c (fst p)) in *.
      pose proof (rnd_error (acc + t)) as R1. set (new := rnd64 (acc + t)) in *.
      rewrite Nat.add_1_r, S_INR. assert (K0 : 0 <= INR (length l)) by apply pos_INR.
      assert (K2 : INR (length l) <= 2) by (change 2 with (INR 2); apply le_INR; lia). set (k := INR (length l)) in *.
      pose proof eps_small as E. pose proof eta_tiny as Te.
      assert (Ek : eps * K <= / 10000000).
      { apply Rle_trans with (eps * 2 ^ 20); [apply Rmult_le_compat_l; lra|]. unfold eps. simpl. lra. }
      set (e0 := eps * (14 / 10 * k * f + (40 / 100 + 13 / 100 * k) * U) + (K + 2) * k * eta) in *.
      set (e1 := 39 / 100 * eps * (u + f) + K * eta) in *.
      assert (Q : Rabs (acc + t - (ex - cc * (u - f))) <= e0 + e1).
      { replace (acc + t - (ex - cc * (u - f))) with ((acc - ex) + (t + cc * (u - f))) by ring. eapply Rle_trans; [apply Rabs_triang|]. lra. }
      assert (P : Rabs (acc + t) <= f + / 8 * (U + u) + (e0 + e1)).
      { assert (A : acc + t <= f + / 8 * (U + u) + (e0 + e1)) by (apply Rabs_le_inv in Q; lra).
        pose proof (Rabs_pos (acc + t - (ex - cc * (u - f)))). apply Rabs_le. lra. }
      replace (new - (ex - cc * (u - f))) with ((new - (acc + t)) + (acc + t - (ex - cc * (u - f)))) by ring.
      eapply Rle_trans; [apply Rabs_triang|].
      assert (R2 : eps * Rabs (acc + t) <= eps * (f + / 8 * (U + u) + (e0 + e1))) by (apply Rmult_le_compat_l; lra).
      assert (0 <= eps * U) by (apply Rmult_le_pos; lra). assert (0 <= eps * u) by (apply Rmult_le_pos; lra). assert (0 <= eps * f) by (apply Rmult_le_pos; lra).
      assert (S : eps * (e0 + e1) <= / 1000 * (eps * (f + U + u)) + / 1000 * eta).
      { assert (Kf : 14 / 10 * k * f <= 28 / 10 * f) by (apply Rmult_le_compat_r; lra).
        assert (KU : (40 / 100 + 13 / 100 * k) * U <= 66 / 100 * U) by (apply Rmult_le_compat_r; lra).
        assert (Ke : (K + 2) * k * eta <= (K + 2) * 2 * eta) by (apply Rmult_le_compat_r; [lra|apply Rmult_le_compat_l; lra]).
        assert (X : e0 + e1 <= eps * (4 * (f + U + u)) + (3 * K + 4) * eta).
        { assert (eps * (14 / 10 * k * f + (40 / 100 + 13 / 100 * k) * U) <= eps * (28 / 10 * f + 66 / 100 * U)) by (apply Rmult_le_compat_l; lra).
          unfold e0, e1. lra. }
        assert (W0 : 0 <= eps * (f + U + u)) by (apply Rmult_le_pos; lra).
        assert (EK : eps * ((3 * K + 4) * eta) <= / 1000 * eta).
        { replace (eps * ((3 * K + 4) * eta)) with ((3 * (eps * K) + 4 * eps) * eta) by ring. apply Rmult_le_compat_r; lra. }
        apply Rle_trans with (eps * (eps * (4 * (f + U + u)) + (3 * K + 4) * eta)); [apply Rmult_le_compat_l; lra|].
        rewrite Rmult_plus_distr_l. apply Rplus_le_compat; [|exact EK].
        replace (eps * (eps * (4 * (f + U + u)))) with ((4 * eps) * (eps * (f + U + u))) by ring. apply Rmult_le_compat_r; lra. }
      assert (0 <= eps * k * u) by (apply Rmult_le_pos; [apply Rmult_le_pos; lra|lra]).
      unfold e0, e1 in *. lra.
  Qed.

  (** ** The field *)
  Let axes := seq 0 (length dims).
  Let nb g j := neighbour dims g j (sd j).
  Notation step := (term_formula arD dims T sd).
  Definition around (F : list Z -> R) (g : list Z) (l : list nat) : list (nat * R) := map (fun j => (j, F (nb g j))) l.
  Definition flowed (F : list Z -> R) (g : list Z) : R := fold_left (add_axis (F g)) (around F g axes) (F g).
  Definition unflowed (F : list Z -> R) (g : list Z) : R := fold_left (add_exact (F g)) (around F g axes) (F g).

  Lemma axes_in j : In j axes -> (j < length dims)%nat.
  Proof using Type. intros H. apply in_seq in H. destruct H as [_ H]. exact H. Qed.
  Lemma axes_three : (length axes <= 3)%nat.
  Proof using Hp H3 HK Hc HT Hlow Hup Hfl Herr. unfold axes. rewrite seq_length. exact H3. Qed.
  Lemma around_fine G F g l : field_is dims G F -> in_grid dims g -> incl l axes -> fine (around F g l).
  Proof using Hp H3 HK Hc HT Hlow Hup Hfl Herr.
    intros HF Hg Hl p Hin. apply in_map_iff in Hin as (j & <- & Hj). cbn [fst snd].
    destruct (HF (nb g j)) as [V R]; [apply neighbour_in; assumption|].
    split; [exact (axes_in _ (Hl _ Hj))|]. split; [exact (dv_fmt _ _ V)|exact R].
  Qed.

  Lemma flow_double G F g : field_is dims G F -> in_grid dims g -> double_value (step G g) (flowed F g) /\ 0 <= flowed F g <= 1.
  Proof using Hp H3 HK Hc HT Hlow Hup Hfl Herr.
    intros HF Hg. destruct (HF g Hg) as [Vg Rg].
    assert (P : forall l, incl l axes -> (length l <= 3)%nat ->
      double_value (fold_left (fun acc j => a_sub arD acc (T j (G (nb g j)) (G g))) l (G g)) (fold_left (add_axis (F g)) (around F g l) (F g)) /\
      0 <= fold_left (add_axis (F g)) (around F g l) (F g) <= 1).
    { intros l Hl L3. split; [|apply axis_range; [exact (dv_fmt _ _ Vg)|exact Rg|unfold around; rewrite map_length; exact L3|exact (around_fine G F g l HF Hg Hl)]].
      induction l as [|j l IH] using rev_ind; [exact Vg|].
      assert (Hl' : incl l axes) by (intros x Hx; apply Hl, in_or_app; auto). rewrite app_length in L3. cbn [length] in L3.
      specialize (IH Hl' ltac:(lia)). unfold around. rewrite map_app, !fold_left_app. cbn [map fold_left]. fold (around F g l).
      assert (RA : 0 <= fold_left (add_axis (F g)) (around F g l) (F g) <= 1)
        by (apply axis_range; [exact (dv_fmt _ _ Vg)|exact Rg|unfold around; rewrite map_length; lia|exact (around_fine G F g l HF Hg Hl')]).
      set (acc := fold_left (add_axis (F g)) (around F g l) (F g)) in *.
      assert (Ij : In j axes) by (apply Hl, in_or_app; right; left; reflexivity).
      destruct (HF (nb g j)) as [Vn Rn]; [apply neighbour_in; assumption|].
      pose proof (Hfl j (F g) (F (nb g j)) (axes_in _ Ij) (dv_fmt _ _ Vg) Rg (dv_fmt _ _ Vn) Rn) as FR.
      destruct (Hlow (F g) (dv_fmt _ _ Vg) Rg) as (_ & A0 & LL). destruct (Hup (F g) (dv_fmt _ _ Vg) Rg) as (S0 & UU).
      assert (T53 : 10 <= 2 ^ 53) by (simpl; lra).
      unfold add_axis. cbn [fst snd]. set (t := fl j (F g) (F (nb g j))) in *.
      replace (acc + t) with (acc - - t) by ring.
      apply dv_sub; [exact IH|apply HT; auto using axes_in|apply Rabs_le; lra]. }
    apply P; [intros x Hx; exact Hx|apply axes_three].
  Qed.

  Lemma flow_field G F : field_is dims G F -> field_is dims (step G) (flowed F).
  Proof using Hp H3 HK Hc HT Hlow Hup Hfl Herr. intros HF g Hg. apply flow_double; assumption. Qed.

  Fixpoint flowed_iter (n : nat) (F : list Z -> R) : list Z -> R :=
    match n with O => F | S m => flowed (flowed_iter m F) end.

  Lemma flow_iter_field n G F : field_is dims G F -> field_is dims (term_iter arD dims T sd n G) (flowed_iter n F).
  Proof using Hp H3 HK Hc HT Hlow Hup Hfl Herr. intros HF. induction n as [|n IH]; [exact HF|]. apply flow_field, IH. Qed.

  (** ** The sum of the values *)
  Notation N := (INR (length (cells dims))).

  Lemma unflowed_sum F g : unflowed F g = F g - rsum (map (fun j => c j * (F (nb g j) - F g)) axes).
  Proof using Type.
    unfold unflowed. generalize (F g) at 2 3 as x. induction axes as [|j l IH]; intros x.
    - simpl. unfold rsum; simpl. lra.
    - cbn [around map fold_left]. fold (around F g l). rewrite IH. unfold add_exact. cbn [fst snd]. change (rsum (?a :: ?k)) with (a + rsum k). lra.
  Qed.

  Lemma unflowed_total F : total dims (unflowed F) = total dims F.
  Proof using Hp H3 HK Hc HT Hlow Hup Hfl Herr.
    unfold total. rewrite (map_ext _ (fun g => F g + - 1 * rsum (map (fun j => c j * (F (nb g j) - F g)) axes))) by (intros; rewrite unflowed_sum; ring).
    rewrite rsum_add, rsum_scale, rsum_swap.
    rewrite (map_ext (fun j => rsum (map (fun g => c j * (F (nb g j) - F g)) (cells dims))) (fun _ => 0)); [rewrite rsum_const; ring|]. intros j.
    rewrite rsum_scale. rewrite (map_ext _ (fun g => F (nb g j) + - 1 * F g)) by (intros; ring).
    rewrite rsum_add, rsum_scale. rewrite <- (map_map (fun g => nb g j) F).
    unfold nb. rewrite (rsum_perm _ _ (Permutation_map F (neighbour_perm dims j (sd j) Hp))). ring.
  Qed.

  Lemma flow_total G F : field_is dims G F -> Rabs (total dims (flowed F) - total dims F) <= 7 * eps * total dims F + (K + 2) * 3 * eta * N.
  Proof using Hp H3 HK Hc HT Hlow Hup Hfl Herr.
    intros HF. rewrite <- (unflowed_total F) at 1. unfold total.
    replace (rsum (map (flowed F) (cells dims)) - rsum (map (unflowed F) (cells dims)))
      with (rsum (map (fun g => flowed F g + - 1 * unflowed F g) (cells dims))) by (rewrite rsum_add, rsum_scale; ring).
    eapply Rle_trans; [apply rsum_abs|].
    pose proof eps_small as E. pose proof eta_tiny as Te.
    eapply Rle_trans; [apply (rsum_le _ (fun g => 42 / 10 * eps * F g + (8 / 10 * eps * rsum (map (fun j => F (nb g j)) axes) + (K + 2) * 3 * eta)))|].
    - intros g Hg. apply in_cells in Hg. destruct (HF g Hg) as [Vg Rg].
      replace (flowed F g + -1 * unflowed F g) with (flowed F g - unflowed F g) by ring.
      eapply Rle_trans; [apply axis_error; [exact (dv_fmt _ _ Vg)|exact Rg|unfold around; rewrite map_length; apply axes_three|exact (around_fine G F g axes HF Hg (incl_refl _))]|].
      unfold around. rewrite map_length, map_map. cbn [snd].
      assert (L : INR (length axes) <= 3) by (replace 3 with (INR 3) by (simpl; lra); apply le_INR, axes_three).
      assert (L0 : 0 <= INR (length axes)) by apply pos_INR.
      assert (U0 : 0 <= rsum (map (fun j => F (nb g j)) axes)).
      { apply rsum_nn. intros x Hx. apply in_map_iff in Hx as (j & <- & Hj). apply HF. apply neighbour_in; assumption. }
      set (U := rsum (map (fun j => F (nb g j)) axes)) in *. set (k := INR (length axes)) in *.
      assert (A : 14 / 10 * k * F g <= 42 / 10 * F g) by (apply Rmult_le_compat_r; lra).
      assert (B : (40 / 100 + 13 / 100 * k) * U <= 8 / 10 * U) by (apply Rmult_le_compat_r; lra).
      assert (D : (K + 2) * k * eta <= (K + 2) * 3 * eta) by (apply Rmult_le_compat_r; [lra|apply Rmult_le_compat_l; lra]).
      assert (F' : eps * (14 / 10 * k * F g + (40 / 100 + 13 / 100 * k) * U) <= eps * (42 / 10 * F g + 8 / 10 * U)) by (apply Rmult_le_compat_l; lra).
      lra.
    - rewrite rsum_add, rsum_scale, rsum_add, rsum_scale, rsum_const, rsum_swap.
      assert (U : rsum (map (fun j => rsum (map (fun g => F (nb g j)) (cells dims))) axes) <= 3 * total dims F).
      { rewrite (map_ext _ (fun _ => total dims F)).
        - rewrite rsum_const. apply Rmult_le_compat_r; [exact (total_nn dims G F HF)|]. replace 3 with (INR 3) by (simpl; lra). apply le_INR, axes_three.
        - intros j. rewrite <- (map_map (fun g => nb g j) F). apply rsum_perm, Permutation_map, neighbour_perm, Hp. }
      fold (total dims F). set (W := rsum (map (fun j => rsum (map (fun g => F (nb g j)) (cells dims))) axes)) in *.
      pose proof (total_nn dims G F HF) as P0.
      assert (8 / 10 * eps * W <= 8 / 10 * eps * (3 * total dims F)) by (apply Rmult_le_compat_l; lra).
      assert (0 <= eps * total dims F) by (apply Rmult_le_pos; lra).
      lra.
  Qed.

  Lemma flow_iter_total n G F : field_is dims G F -> total dims F = 1 -> N <= 2 ^ 31 -> INR n <= 2 ^ 31 ->
    Rabs (total dims (flowed_iter n F) - 1) <= 8 * INR n * eps.
  Proof using Hp H3 HK Hc HT Hlow Hup Hfl Herr.
    intros HF H1 HN. pose proof eps_small as E. pose proof eta_tiny as Te.
    assert (T31 : 2 ^ 31 * eps <= / 1000000) by (unfold eps; simpl; lra).
    assert (T20 : 3 * 2 ^ 21 * eps <= / 1000) by (unfold eps; simpl; lra).
    assert (ET : (K + 2) * 3 * eta * N <= eps / 2).
    { apply Rle_trans with (2 ^ 21 * 3 * (eps * eps * eps) * 2 ^ 31).
      - assert (K + 2 <= 2 ^ 21) by (simpl in *; lra). apply Rmult_le_compat; [|apply pos_INR| |exact HN].
        + apply Rmult_le_pos; [lra|lra].
        + apply Rmult_le_compat; lra.
      - replace (2 ^ 21 * 3 * (eps * eps * eps) * 2 ^ 31) with (eps * ((3 * 2 ^ 21 * eps) * (2 ^ 31 * eps))) by ring.
        assert ((3 * 2 ^ 21 * eps) * (2 ^ 31 * eps) <= / 1000 * / 1000000) by (apply Rmult_le_compat; simpl in *; lra).
        apply Rle_trans with (eps * (/ 1000 * / 1000000)); [apply Rmult_le_compat_l; lra|lra]. }
    induction n as [|n IH]; intros Hn.
    - cbn [flowed_iter]. rewrite H1. simpl INR. rewrite Rminus_eq_0, Rabs_R0. lra.
    - rewrite S_INR in *. pose proof (pos_INR n) as N0. specialize (IH ltac:(lra)).
      pose proof (flow_total _ _ (flow_iter_field n _ _ HF)) as St. cbn [flowed_iter].
      set (S0 := total dims (flowed_iter n F)) in *. set (S1 := total dims (flowed (flowed_iter n F))) in *.
      assert (Ne : INR n * eps <= / 1000000) by (apply Rle_trans with (2 ^ 31 * eps); [apply Rmult_le_compat_r; lra|exact T31]).
      assert (B : S0 <= 1 + / 100000) by (apply Rabs_le_inv in IH; lra).
      replace (S1 - 1) with ((S1 - S0) + (S0 - 1)) by ring. eapply Rle_trans; [apply Rabs_triang|].
      assert (7 * eps * S0 <= 7 * eps * (1 + / 100000)) by (apply Rmult_le_compat_l; lra). lra.
  Qed.
End Flow.
