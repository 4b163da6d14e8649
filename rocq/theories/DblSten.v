(** * A stencil with non-negative weights applied in double precision *)
From Coq Require Import Reals ZArith Lia Lra Psatz Floats.SpecFloat List Permutation.
From Flocq Require Import Core BinarySingleNaN.
From Verif Require Import Cpp CdModel MaiSpec MaiProof FilterSpec FilterProof FilterSum RealArith UpSpec UpExact Ieee Double DblSpec DblProof DblField.
Import ListNotations.
Local Open Scope R_scope.

Notation val := (SF2R radix2).

(** a weighted sum with rounding *)
Definition sten_step (acc : R) (p : R * R) : R := rnd64 (acc + rnd64 (fst p * snd p)).

Lemma fmt_val x r : double_value x r -> val x = r.
Proof. intros (_ & _ & E). exact E. Qed.
Lemma dv_val x r : double_value x r -> double_value x (val x).
Proof. intros H. rewrite (fmt_val x r H). exact H. Qed.

Lemma dv_azero : double_value (a_zero arD) 0.
Proof. repeat split. Qed.

Lemma step_up acc w : fmt acc -> 0 <= w -> acc <= rnd64 (acc + w).
Proof. intros F H. rewrite <- (rnd_fmt acc F) at 1. apply rnd_le. lra. Qed.

Lemma ones_up ws : forall acc, fmt acc -> (forall w, In w ws -> 0 <= w) -> acc <= fold_left (fun a w => rnd64 (a + w)) ws acc.
Proof.
  induction ws as [|w ws IH]; intros acc F H; [simpl; lra|]. cbn [fold_left].
  eapply Rle_trans; [apply (step_up acc w F), H; left; reflexivity|]. apply IH; [apply rnd_is_fmt|]. intros v Hv. apply H. right. exact Hv.
Qed.

(** with values between 0 and 1 every partial sum stays below the one for the constant 1 *)
Lemma sten_range ps : forall acc top, fmt acc -> fmt top -> 0 <= acc <= top ->
  (forall p, In p ps -> fmt (fst p) /\ 0 <= fst p /\ 0 <= snd p <= 1) ->
  fold_left (fun a w => rnd64 (a + w)) (map fst ps) top <= 1 ->
  0 <= fold_left sten_step ps acc <= 1.
Proof.
  induction ps as [|p ps IH]; intros acc top Fa Ft Ha Hp H1; cbn [fold_left map] in *; [lra|].
  destruct (Hp p (or_introl eq_refl)) as (Fw & Hw & Hx).
  assert (P : 0 <= rnd64 (fst p * snd p) <= fst p).
  { split; [apply rnd_nn; apply Rmult_le_pos; lra|]. rewrite <- (rnd_fmt (fst p) Fw) at 2. apply rnd_le. nra. }
  apply (IH _ (rnd64 (top + fst p))); [apply rnd_is_fmt|apply rnd_is_fmt| |intros q Hq; apply Hp; right; exact Hq|exact H1].
  unfold sten_step. split; [apply rnd_nn; lra|apply rnd_le; lra].
Qed.

Section Sten.
  Variables (dims : list Z) (st : list (list Z * spec_float)).
  Hypothesis Hp : forall j, (j < length dims)%nat -> (0 < nth j dims 0)%Z.
  Hypothesis Hl : forall off w, In (off, w) st -> length off = length dims.
  Hypothesis HW : forall off w, In (off, w) st -> exists r, double_value w r /\ 0 <= r.
  (** the sum of the weights, as computed, is at most 1 *)
  Hypothesis H1 : fold_left (fun a w => rnd64 (a + w)) (map (fun p => val (snd p)) st) 0 <= 1.
  Let nb (g : list Z) (p : list Z * spec_float) := wrap dims (shift g (fst p)).
  Notation step := (stencil_sum arD dims st).
  Definition wpairs (F : list Z -> R) (g : list Z) (l : list (list Z * spec_float)) : list (R * R) :=
    map (fun p => (val (snd p), F (wrap dims (shift g (fst p))))) l.
  Definition srounded (F : list Z -> R) (g : list Z) : R := fold_left sten_step (wpairs F g st) 0.
  Definition reals : list (list Z * R) := map (fun p => (fst p, val (snd p))) st.

  Lemma nb_in g p : in_grid dims g -> In p st -> in_grid dims (nb g p).
  Proof using Hp Hl.
    intros Hg Hin. destruct p as [off w]. unfold nb. cbn [fst]. apply wrap_in_grid; [exact Hp|].
    apply in_grid_nth in Hg as [L _]. rewrite shift_length; [exact L|]. rewrite L. symmetry. exact (Hl off w Hin).
  Qed.

  Lemma weight p : In p st -> double_value (snd p) (val (snd p)) /\ 0 <= val (snd p).
  Proof using HW.
    intros Hin. destruct p as [off w]. destruct (HW off w Hin) as (r & V & P). cbn [snd]. rewrite (fmt_val _ _ V). split; assumption.
  Qed.

  Lemma weight_le p : In p st -> val (snd p) <= 1.
  Proof using HW H1.
    intros Hin. apply in_split in Hin as (l1 & l2 & E). assert (Q : forall l l', st = (l ++ l')%list -> forall w, In w (map (fun p => val (snd p)) l') -> 0 <= w).
    { intros l l' E' w Hw. apply in_map_iff in Hw as (q & <- & Hq). apply weight. rewrite E'. apply in_or_app. right. exact Hq. }
    rewrite E, map_app, fold_left_app in H1. cbn [map fold_left] in H1.
    set (a := fold_left (fun a w => rnd64 (a + w)) (map (fun p => val (snd p)) l1) 0) in *.
    assert (A0 : 0 <= a) by (apply ones_up; [apply fmt_0|]; intros w Hw; apply in_map_iff in Hw as (q & <- & Hq); apply weight; rewrite E; apply in_or_app; left; exact Hq).
    pose proof (ones_up (map (fun p => val (snd p)) l2) (rnd64 (a + val (snd p))) (rnd_is_fmt _) (fun w Hw => Q (l1 ++ [p]) l2 ltac:(rewrite <- app_assoc; exact E) w Hw)) as U.
    assert (W : double_value (snd p) (val (snd p)) /\ 0 <= val (snd p)) by (apply weight; rewrite E; apply in_elt).
    pose proof (dv_fmt _ _ (proj1 W)) as Fw.
    assert (val (snd p) <= rnd64 (a + val (snd p))) by (rewrite <- (rnd_fmt _ Fw) at 1; apply rnd_le; lra). lra.
  Qed.

  Lemma wpairs_ok G F g l : field_is dims G F -> in_grid dims g -> incl l st ->
    forall q, In q (wpairs F g l) -> fmt (fst q) /\ 0 <= fst q /\ 0 <= snd q <= 1.
  Proof using Hp Hl HW.
    intros HF Hg Hin q Hq. apply in_map_iff in Hq as (p & <- & Hp'). cbn [fst snd]. destruct (weight p (Hin p Hp')) as [V P].
    split; [exact (dv_fmt _ _ V)|]. split; [exact P|]. apply HF. exact (nb_in g p Hg (Hin p Hp')).
  Qed.

  Lemma prefix_range G F g l l' : field_is dims G F -> in_grid dims g -> st = (l ++ l')%list ->
    0 <= fold_left sten_step (wpairs F g l) 0 <= 1.
  Proof using Hp Hl HW H1.
    intros HF Hg E. apply (sten_range _ 0 0 fmt_0 fmt_0 ltac:(lra)).
    - apply (wpairs_ok G); [exact HF|exact Hg|]. rewrite E. apply incl_appl, incl_refl.
    - unfold wpairs. rewrite map_map. cbn [fst]. rewrite E, map_app, fold_left_app in H1. eapply Rle_trans; [|exact H1]. apply ones_up.
      + destruct l as [|p l0] using rev_ind; [apply fmt_0|]. rewrite map_app, fold_left_app. apply rnd_is_fmt.
      + intros w Hw. apply in_map_iff in Hw as (q & <- & Hq). apply weight. rewrite E. apply in_or_app. right. exact Hq.
  Qed.

  Lemma sten_double G F g : field_is dims G F -> in_grid dims g -> double_value (step G g) (srounded F g) /\ 0 <= srounded F g <= 1.
  Proof using Hp Hl HW H1.
    intros HF Hg. split; [|apply (prefix_range G F g st []); [exact HF|exact Hg|symmetry; apply app_nil_r]].
    assert (P : forall l l', st = (l ++ l')%list ->
      double_value (fold_left (fun acc p => a_add arD acc (a_mul arD (snd p) (G (wrap dims (shift g (fst p)))))) l (a_zero arD)) (fold_left sten_step (wpairs F g l) 0)).
    { induction l as [|p l IH] using rev_ind; intros l' E; [exact dv_azero|]. rewrite <- app_assoc in E. cbn [app] in E.
      specialize (IH _ E). pose proof (prefix_range G F g l _ HF Hg E) as R0.
      unfold wpairs. rewrite map_app, !fold_left_app. cbn [map fold_left]. fold (wpairs F g l).
      assert (Hin : In p st) by (rewrite E; apply in_elt). destruct (weight p Hin) as [Vw Pw]. pose proof (weight_le p Hin) as Lw.
      destruct (HF (nb g p) (nb_in g p Hg Hin)) as [Vx Px]. unfold nb in *.
      assert (T53 : 10 <= 2 ^ 53) by (simpl; lra).
      assert (B : 0 <= val (snd p) * F (wrap dims (shift g (fst p))) <= 1) by (split; [apply Rmult_le_pos; lra|nra]).
      assert (B' : 0 <= rnd64 (val (snd p) * F (wrap dims (shift g (fst p)))) <= 1) by (split; [apply rnd_nn; lra|rewrite <- (rnd_fmt 1 fmt_1); apply rnd_le; lra]).
      unfold sten_step at 1. cbn [fst snd]. apply dv_add; [exact IH| |apply Rabs_le; lra]. apply dv_mul; [exact Vw|exact Vx|apply Rabs_le; lra]. }
    apply (P st []). symmetry. apply app_nil_r.
  Qed.

  Lemma sten_field G F : field_is dims G F -> field_is dims (step G) (srounded F).
  Proof using Hp Hl HW H1. intros HF g Hg. apply sten_double; assumption. Qed.

  Fixpoint srounded_iter (n : nat) (F : list Z -> R) : list Z -> R :=
    match n with O => F | S m => srounded (srounded_iter m F) end.

  Lemma sten_iter_field n G F : field_is dims G F -> field_is dims (stencil_iter arD n dims st G) (srounded_iter n F).
  Proof using Hp Hl HW H1. intros HF. induction n as [|n IH]; [exact HF|]. apply sten_field, IH. Qed.

  (** ** The error *)
  Hypothesis H4 : (length st <= 4)%nat.

  Lemma exact_sum F g : stencil_sum arR dims reals F g = rsum (map (fun p => val (snd p) * F (wrap dims (shift g (fst p)))) st).
  Proof using Type.
    unfold stencil_sum, reals. assert (Q : forall l a, fold_left (fun acc p => a_add arR acc (a_mul arR (snd p) (F (wrap dims (shift g (fst p))))))
      (map (fun p => (fst p, val (snd p))) l) a = a + rsum (map (fun p => val (snd p) * F (wrap dims (shift g (fst p)))) l)).
    { induction l as [|p l IH]; intros a; cbn [map fold_left]; [unfold rsum; simpl; lra|]. rewrite IH. cbn [fst snd arR a_add a_mul].
      change (rsum (?x :: ?k)) with (x + rsum k). lra. }
    rewrite Q. cbn [arR a_zero]. lra.
  Qed.

  Lemma sten_error G F g : field_is dims G F -> in_grid dims g ->
    Rabs (srounded F g - stencil_sum arR dims reals F g) <= 6 * eps * stencil_sum arR dims reals F g + 16 * eta.
  Proof using Hp Hl HW H1 H4.
    intros HF Hg. rewrite exact_sum. pose proof eps_small as E. pose proof eta_tiny as T.
    set (x p := val (snd p) * F (wrap dims (shift g (fst p)))).
    assert (Hx : forall p, In p st -> 0 <= x p <= 1).
    { intros p Hin. destruct (weight p Hin) as [_ Pw]. pose proof (weight_le p Hin). destruct (HF (nb g p) (nb_in g p Hg Hin)) as [_ Px]. unfold nb in Px. unfold x. nra. }
    (* products *)
    assert (RP : Rabs (rsum (map (fun p => rnd64 (x p)) st) - rsum (map x st)) <= eps * rsum (map x st) + 4 * eta /\ 0 <= rsum (map x st) <= 4 /\ INR (length st) <= 4).
    { assert (N4 : INR (length st) <= 4) by (replace 4 with (INR 4) by (simpl; lra); apply le_INR; exact H4).
      split; [|split; [|exact N4]].
      - replace (rsum (map (fun p => rnd64 (x p)) st) - rsum (map x st)) with (rsum (map (fun p => rnd64 (x p) + -1 * x p) st)) by (rewrite rsum_add, rsum_scale; ring).
        eapply Rle_trans; [apply rsum_abs|]. eapply Rle_trans; [apply (rsum_le _ (fun p => eps * x p + eta))|].
        + intros p Hin. pose proof (rnd_error (x p)) as R. rewrite (Rabs_pos_eq (x p)) in R by (apply Hx; exact Hin). replace (rnd64 (x p) + -1 * x p) with (rnd64 (x p) - x p) by ring. exact R.
        + rewrite rsum_add, rsum_scale, rsum_const. assert (INR (length st) * eta <= 4 * eta) by (apply Rmult_le_compat_r; lra). lra.
      - split; [apply rsum_nn; intros y Hy; apply in_map_iff in Hy as (p & <- & Hin); apply Hx; exact Hin|].
        apply Rle_trans with (rsum (map (fun _ => 1) st)); [apply rsum_le; intros p Hin; apply Hx; exact Hin|]. rewrite rsum_const. lra. }
    destruct RP as (RP & RX & N4). set (X := rsum (map x st)) in *. set (Y := rsum (map (fun p => rnd64 (x p)) st)) in *.
    (* additions *)
    assert (RA : Rabs (srounded F g - Y) <= 4 * (11 / 10 * eps * Y + 2 * eta)).
    { assert (Q : forall l l', st = (l ++ l')%list ->
        Rabs (fold_left sten_step (wpairs F g l) 0 - rsum (map (fun p => rnd64 (x p)) l)) <= INR (length l) * (11 / 10 * eps * Y + 2 * eta)).
      { induction l as [|p l IH] using rev_ind; intros l' E'; [simpl; unfold rsum; simpl; rewrite Rminus_0_r, Rabs_R0; lra|].
        rewrite <- app_assoc in E'. cbn [app] in E'. specialize (IH _ E'). pose proof (prefix_range G F g l _ HF Hg E') as R0.
        unfold wpairs. rewrite !map_app, fold_left_app, app_length. cbn [map fold_left length]. fold (wpairs F g l).
        rewrite Nat.add_1_r, S_INR. rewrite rsum_app. change (rsum [?z]) with (z + 0).
        assert (Hin : In p st) by (rewrite E'; apply in_elt).
        unfold sten_step at 1. cbn [fst snd]. fold (x p). set (a := fold_left sten_step (wpairs F g l) 0) in *.
        assert (P0 : 0 <= rnd64 (x p)) by (apply rnd_nn, Hx, Hin).
        assert (S0 : forall k, incl k st -> 0 <= rsum (map (fun p => rnd64 (x p)) k)).
        { intros k Hk. apply rsum_nn. intros y Hy. apply in_map_iff in Hy as (q & <- & Hq). apply rnd_nn, Hx, Hk, Hq. }
        assert (SY : rsum (map (fun p => rnd64 (x p)) l) + rnd64 (x p) <= Y).
        { unfold Y. rewrite E', map_app, rsum_app. cbn [map]. change (rsum (?z :: ?k)) with (z + rsum k).
          pose proof (S0 l' ltac:(rewrite E'; intros q Hq; apply in_or_app; right; right; exact Hq)). lra. }
        pose proof (rnd_error (a + rnd64 (x p))) as RE. rewrite (Rabs_pos_eq (a + rnd64 (x p))) in RE by lra.
        assert (LN : INR (length l) <= 4).
        { replace 4 with (INR 4) by (simpl; lra). apply le_INR. rewrite E', app_length in H4. cbn [length] in H4. lia. }
        assert (Y0 : 0 <= Y) by (apply (S0 st), incl_refl). assert (eY : 0 <= eps * Y) by (apply Rmult_le_pos; lra).
        set (d := 11 / 10 * eps * Y + 2 * eta) in *. assert (D0 : 0 <= d) by (unfold d; lra).
        pose proof (pos_INR (length l)) as L0.
        assert (LD : INR (length l) * d <= 4 * d) by (apply Rmult_le_compat_r; lra).
        apply Rabs_le_inv in IH as IH'.
        assert (eps * (a + rnd64 (x p)) <= eps * (Y + 4 * d)) by (apply Rmult_le_compat_l; lra).
        assert (eps * (4 * d) <= / 100 * d) by nra.
        replace (rnd64 (a + rnd64 (x p)) - (rsum (map (fun p => rnd64 (x p)) l) + (rnd64 (x p) + 0)))
          with ((rnd64 (a + rnd64 (x p)) - (a + rnd64 (x p))) + (a - rsum (map (fun p => rnd64 (x p)) l))) by ring.
        eapply Rle_trans; [apply Rabs_triang|]. unfold d in *. lra. }
      specialize (Q st [] ltac:(symmetry; apply app_nil_r)). fold (srounded F g) in Q. eapply Rle_trans; [exact Q|].
      apply Rmult_le_compat_r; [|exact N4].
      assert (0 <= Y) by (apply rsum_nn; intros y Hy; apply in_map_iff in Hy as (q & <- & Hq); apply rnd_nn, Hx, Hq).
      assert (0 <= eps * Y) by (apply Rmult_le_pos; lra). lra. }
    replace (srounded F g - X) with ((srounded F g - Y) + (Y - X)) by ring. eapply Rle_trans; [apply Rabs_triang|].
    apply Rabs_le_inv in RP as RP'.
    assert (eps * Y <= eps * (X + eps * X + 4 * eta)) by (apply Rmult_le_compat_l; lra).
    assert (0 <= eps * X) by (apply Rmult_le_pos; lra).
    assert (eps * (eps * X) <= / 1000000 * (eps * X)) by (apply Rmult_le_compat_r; lra).
    assert (eps * (4 * eta) <= / 1000000 * (4 * eta)) by (apply Rmult_le_compat_r; lra).
    lra.
  Qed.

  (** ** The sum over the grid *)
  Definition gtotal (F : list Z -> R) : R := rsum (map F (grid_cells dims)).
  Notation N := (INR (length (grid_cells dims))).
  Hypothesis HD : Rabs (rsum (map (fun p => val (snd p)) st) - 1) <= / 2 * eps + / 2 * eps.

  Lemma in_cells' g : In g (grid_cells dims) <-> in_grid dims g.
  Proof using Type. apply (in_nested_loops false). apply repeat_length. Qed.

  Lemma gtotal_nn G F : field_is dims G F -> 0 <= gtotal F.
  Proof using Type. intros HF. apply rsum_nn. intros x Hx. apply in_map_iff in Hx as (g & <- & Hg). apply HF, in_cells', Hg. Qed.

  Lemma exact_total F : gtotal (stencil_sum arR dims reals F) = rsum (map (fun p => val (snd p)) st) * gtotal F.
  Proof using Hp Hl.
    pose proof (stencil_total arR (en_ring _ arR_exact) dims reals F Hp) as Q. unfold gtotal.
    assert (L : forall off w, In (off, w) reals -> length off = length dims).
    { intros off w Hin. unfold reals in Hin. apply in_map_iff in Hin as ((o & v) & E & Hin). injection E as <- _. exact (Hl o v Hin). }
    specialize (Q L). cbn [arR a_mul] in Q. unfold reals at 2 in Q. rewrite map_map in Q. cbn [snd] in Q. exact Q.
  Qed.

  Lemma sten_total G F : field_is dims G F -> Rabs (gtotal (srounded F) - gtotal F) <= 7 * eps * gtotal F + / 2 * eps * gtotal F + 16 * eta * N.
  Proof using Hp Hl HW H1 H4 HD.
    intros HF. pose proof eps_small as E. pose proof eta_tiny as T. pose proof (gtotal_nn G F HF) as T0.
    assert (A : Rabs (gtotal (srounded F) - gtotal (stencil_sum arR dims reals F)) <= 6 * eps * gtotal (stencil_sum arR dims reals F) + 16 * eta * N).
    { unfold gtotal. replace (rsum (map (srounded F) (grid_cells dims)) - rsum (map (stencil_sum arR dims reals F) (grid_cells dims)))
        with (rsum (map (fun g => srounded F g + -1 * stencil_sum arR dims reals F g) (grid_cells dims))) by (rewrite rsum_add, rsum_scale; ring).
      eapply Rle_trans; [apply rsum_abs|]. eapply Rle_trans; [apply (rsum_le _ (fun g => 6 * eps * stencil_sum arR dims reals F g + 16 * eta))|].
      - intros g Hg. replace (srounded F g + -1 * stencil_sum arR dims reals F g) with (srounded F g - stencil_sum arR dims reals F g) by ring.
        apply (sten_error G); [exact HF|apply in_cells', Hg].
      - rewrite rsum_add, rsum_scale, rsum_const. lra. }
    rewrite exact_total in A. set (W := rsum (map (fun p => val (snd p)) st)) in *. set (S0 := gtotal F) in *.
    apply Rabs_le_inv in HD as W1.
    assert (B : Rabs (W * S0 - S0) <= eps * S0).
    { replace (W * S0 - S0) with ((W - 1) * S0) by ring. rewrite Rabs_mult, (Rabs_pos_eq S0) by exact T0. apply Rmult_le_compat_r; [exact T0|]. lra. }
    apply Rabs_le_inv in B as B'. assert (eS : 0 <= eps * S0) by (apply Rmult_le_pos; lra).
    assert (eps * (W * S0) <= eps * (S0 + eps * S0)) by (apply Rmult_le_compat_l; lra).
    assert (eps * (eps * S0) <= / 1000000 * (eps * S0)) by (apply Rmult_le_compat_r; lra).
    replace (gtotal (srounded F) - S0) with ((gtotal (srounded F) - W * S0) + (W * S0 - S0)) by ring.
    eapply Rle_trans; [apply Rabs_triang|]. lra.
  Qed.

  Lemma sten_iter_total n G F : field_is dims G F -> gtotal F = 1 -> N <= 2 ^ 31 -> INR n <= 2 ^ 31 ->
    Rabs (gtotal (srounded_iter n F) - 1) <= 8 * INR n * eps.
  Proof using Hp Hl HW H1 H4 HD.
    intros HF HT HN. pose proof eps_small as E. pose proof eta_tiny as T.
    assert (T31 : 2 ^ 31 * eps <= / 1000000) by (unfold eps; simpl; lra).
    assert (ET : 16 * eta * N <= eps / 4).
    { apply Rle_trans with (16 * (eps * eps * eps) * 2 ^ 31).
      - apply Rmult_le_compat; try lra. apply pos_INR.
      - replace (16 * (eps * eps * eps) * 2 ^ 31) with (16 * eps * (eps * (2 ^ 31 * eps))) by ring.
        assert (eps * (2 ^ 31 * eps) <= / 1000000 * / 1000000) by (apply Rmult_le_compat; lra).
        apply Rle_trans with (16 * eps * (/ 1000000 * / 1000000)); [apply Rmult_le_compat_l; lra|lra]. }
    induction n as [|n IH]; intros Hn.
    - cbn [srounded_iter]. rewrite HT. simpl INR. rewrite Rminus_eq_0, Rabs_R0. lra.
    - rewrite S_INR in *. pose proof (pos_INR n) as N0. specialize (IH ltac:(lra)).
      pose proof (sten_total _ _ (sten_iter_field n _ _ HF)) as St. cbn [srounded_iter].
      set (S0 := gtotal (srounded_iter n F)) in *. set (S1 := gtotal (srounded (srounded_iter n F))) in *.
      assert (Ne : INR n * eps <= / 1000000) by (apply Rle_trans with (2 ^ 31 * eps); [apply Rmult_le_compat_r; lra|exact T31]).
      assert (B : S0 <= 1 + / 100000) by (apply Rabs_le_inv in IH; lra).
      replace (S1 - 1) with ((S1 - S0) + (S0 - 1)) by ring. eapply Rle_trans; [apply Rabs_triang|].
      assert (7 * eps * S0 + / 2 * eps * S0 <= 7 * eps * (1 + / 100000) + / 2 * eps * (1 + / 100000)) by (apply Rplus_le_compat; apply Rmult_le_compat_l; lra). lra.
  Qed.
End Sten.

(** ** Adding up contributions in any order *)
Lemma red_double l x : reduction (a_add arD) l x -> forall S,
  (forall y, In y l -> exists r, double_value y r /\ 0 <= r) -> rsum (map val l) <= S -> S <= 2 -> INR (length l) <= 2 ^ 31 ->
  (1 <= length l)%nat /\ exists r, double_value x r /\ 0 <= r /\ Rabs (r - rsum (map val l)) <= (INR (length l) - 1) * (11 / 10 * eps * S + 2 * eta).
Proof.
  pose proof eps_small as E. pose proof eta_tiny as T. assert (T31 : 2 ^ 31 * eps <= / 1000000) by (unfold eps; simpl; lra).
  assert (T53 : 10 <= 2 ^ 53) by (simpl; lra).
  induction 1 as [x|l l1 l2 a b Hperm _ IH1 _ IH2]; intros S HV HS HS2 HN.
  - split; [simpl; lia|]. destruct (HV x (or_introl eq_refl)) as (r & V & P). exists r. split; [exact V|]. split; [exact P|].
    cbn [map length INR]. rewrite (fmt_val _ _ V). unfold rsum. cbn [fold_right]. rewrite Rplus_0_r, Rminus_eq_0, Rabs_R0. lra.
  - assert (V1 : forall y, In y l1 -> exists r, double_value y r /\ 0 <= r) by (intros y Hy; apply HV; apply (Permutation_in y (Permutation_sym Hperm)); apply in_or_app; left; exact Hy).
    assert (V2 : forall y, In y l2 -> exists r, double_value y r /\ 0 <= r) by (intros y Hy; apply HV; apply (Permutation_in y (Permutation_sym Hperm)); apply in_or_app; right; exact Hy).
    assert (ES : rsum (map val l) = rsum (map val l1) + rsum (map val l2)) by (rewrite (rsum_perm _ _ (Permutation_map val Hperm)), map_app, rsum_app; reflexivity).
    assert (NN : forall k, (forall y, In y k -> exists r, double_value y r /\ 0 <= r) -> 0 <= rsum (map val k)).
    { intros k Hk. apply rsum_nn. intros z Hz. apply in_map_iff in Hz as (y & <- & Hy). destruct (Hk y Hy) as (r & V & P). rewrite (fmt_val _ _ V). exact P. }
    pose proof (NN l1 V1) as N1. pose proof (NN l2 V2) as N2.
    assert (EL : length l = (length l1 + length l2)%nat) by (rewrite (Permutation_length Hperm), app_length; reflexivity).
    rewrite EL, plus_INR in HN |- *. pose proof (pos_INR (length l1)) as P1. pose proof (pos_INR (length l2)) as P2.
    destruct (IH1 S V1 ltac:(lra) HS2 ltac:(lra)) as (L1 & ra & Va & Pa & Ba). destruct (IH2 S V2 ltac:(lra) HS2 ltac:(lra)) as (L2 & rb & Vb & Pb & Bb).
    split; [lia|]. assert (Q1 : 1 <= INR (length l1)) by (change 1 with (INR 1); apply le_INR; exact L1). assert (Q2 : 1 <= INR (length l2)) by (change 1 with (INR 1); apply le_INR; exact L2).
    set (d := 11 / 10 * eps * S + 2 * eta) in *. assert (S0 : 0 <= S) by lra. assert (eS : 0 <= eps * S) by (apply Rmult_le_pos; lra).
    assert (D0 : 0 <= d) by (unfold d; lra).
    assert (D3 : d <= 3 * eps) by (unfold d; assert (eps * S <= eps * 2) by (apply Rmult_le_compat_l; lra); assert (eps * eps * eps <= / 100 * eps) by nra; lra).
    set (n := INR (length l1) + INR (length l2)) in *.
    assert (Nd : n * d <= / 100000). { apply Rle_trans with (2 ^ 31 * (3 * eps)); [apply Rmult_le_compat; [unfold n; lra|lra|exact HN|exact D3]|lra]. }
    assert (Na : (INR (length l1) - 1) * d <= n * d) by (apply Rmult_le_compat_r; unfold n; lra).
    assert (Nb : (INR (length l2) - 1) * d <= n * d) by (apply Rmult_le_compat_r; unfold n; lra).
    apply Rabs_le_inv in Ba as Ba'. apply Rabs_le_inv in Bb as Bb'.
    exists (rnd64 (ra + rb)). split; [apply dv_add; [exact Va|exact Vb|apply Rabs_le; lra]|]. split; [apply rnd_nn; lra|].
    pose proof (rnd_error (ra + rb)) as RE. rewrite (Rabs_pos_eq (ra + rb)) in RE by lra. rewrite ES.
    replace (rnd64 (ra + rb) - (rsum (map val l1) + rsum (map val l2))) with ((rnd64 (ra + rb) - (ra + rb)) + ((ra - rsum (map val l1)) + (rb - rsum (map val l2)))) by ring.
    eapply Rle_trans; [apply Rabs_triang|]. pose proof (Rabs_triang (ra - rsum (map val l1)) (rb - rsum (map val l2))) as RT.
    assert (NDE : eps * (n * d) <= / 1000000 * d).
    { replace (eps * (n * d)) with (n * eps * d) by ring. apply Rmult_le_compat_r; [exact D0|]. apply Rle_trans with (2 ^ 31 * eps); [apply Rmult_le_compat_r; lra|exact T31]. }
    assert (eps * (ra + rb) <= eps * (S + 2 * (n * d))) by (apply Rmult_le_compat_l; lra).
    unfold n in *. clear - RE RT Ba Bb H NDE D0 T E eS. unfold d in *. lra.
Qed.
