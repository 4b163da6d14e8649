(** * Double precision arithmetic in terms of real numbers *)
From Coq Require Import Reals ZArith Lia Lra Psatz Floats.SpecFloat List.
From Flocq Require Import Core BinarySingleNaN Relative Sterbenz Mult_error.
From Verif Require Import Cpp CdModel Ieee Double DblSpec.
Import ListNotations.
Local Open Scope R_scope.

Notation fmt := (generic_format radix2 fexp64).

Lemma dv_b64 x r : double_value x r <-> exists b : b64, x = B2SF b /\ is_finite b = true /\ B2R b = r.
Proof.
  split.
  - intros (V & F & E). exists (SF2B x V). rewrite B2SF_SF2B. split; [reflexivity|]. split; [rewrite is_finite_SF2B; exact F|].
    rewrite B2R_SF2B. exact E.
  - intros (b & -> & F & E). split; [apply valid_binary_B2SF|]. split; [rewrite is_finite_SF_B2SF; exact F|]. rewrite <- E. apply SF2R_B2SF.
Qed.

Lemma dv_fmt x r : double_value x r -> fmt r.
Proof. intros H. apply dv_b64 in H as (b & _ & _ & <-). apply generic_format_B2R. Qed.

Lemma dv_unique x r r' : double_value x r -> double_value x r' -> r = r'.
Proof. intros (_ & _ & <-) (_ & _ & <-). reflexivity. Qed.

Lemma small_ok x : Rabs x <= 2 ^ 53 -> Rabs (rnd64 x) < bpow radix2 demax.
Proof.
  replace (2 ^ 53) with (bpow radix2 53) by (rewrite bpow_powerRZ; reflexivity). intros H. apply Rle_lt_trans with (bpow radix2 53).
  - apply abs_round_le_generic; auto with typeclass_instances. apply generic_format_bpow. vm_compute. discriminate.
  - apply bpow_lt. reflexivity.
Qed.

Lemma dv_add x y a b : double_value x a -> double_value y b -> Rabs (a + b) <= 2 ^ 53 -> double_value (a_add arD x y) (rnd64 (a + b)).
Proof.
  intros Hx Hy S. apply dv_b64 in Hx as (bx & -> & Fx & <-). apply dv_b64 in Hy as (b' & -> & Fy & <-). apply dv_b64.
  pose proof (Bplus_correct dprec demax Hprec64 Hmax64 mode_NE bx b' Fx Fy) as C. simpl round_mode in C.
  rewrite Rlt_bool_true in C by (apply small_ok; exact S). destruct C as (C1 & C2 & _).
  exists (Bplus mode_NE bx b'). split; [apply SFadd_equiv|]. split; assumption.
Qed.
Lemma dv_sub x y a b : double_value x a -> double_value y b -> Rabs (a - b) <= 2 ^ 53 -> double_value (a_sub arD x y) (rnd64 (a - b)).
Proof.
  intros Hx Hy S. apply dv_b64 in Hx as (bx & -> & Fx & <-). apply dv_b64 in Hy as (b' & -> & Fy & <-). apply dv_b64.
  pose proof (Bminus_correct dprec demax Hprec64 Hmax64 mode_NE bx b' Fx Fy) as C. simpl round_mode in C.
  rewrite Rlt_bool_true in C by (apply small_ok; exact S). destruct C as (C1 & C2 & _).
  exists (Bminus mode_NE bx b'). split; [apply SFsub_equiv|]. split; assumption.
Qed.
Lemma dv_mul x y a b : double_value x a -> double_value y b -> Rabs (a * b) <= 2 ^ 53 -> double_value (a_mul arD x y) (rnd64 (a * b)).
Proof.
  intros Hx Hy S. apply dv_b64 in Hx as (bx & -> & Fx & <-). apply dv_b64 in Hy as (b' & -> & Fy & <-). apply dv_b64.
  pose proof (Bmult_correct dprec demax Hprec64 Hmax64 mode_NE bx b') as C. simpl round_mode in C.
  rewrite Rlt_bool_true in C by (apply small_ok; exact S). destruct C as (C1 & C2 & _).
  exists (Bmult mode_NE bx b'). split; [apply SFmul_equiv|]. split; [rewrite C2, Fx, Fy; reflexivity|assumption].
Qed.
Lemma dv_div x y a b : double_value x a -> double_value y b -> b <> 0 -> Rabs (a / b) <= 2 ^ 53 -> double_value (a_div arD x y) (rnd64 (a / b)).
Proof.
  intros Hx Hy N S. apply dv_b64 in Hx as (bx & -> & Fx & <-). apply dv_b64 in Hy as (b' & -> & Fy & <-). apply dv_b64.
  pose proof (Bdiv_correct dprec demax Hprec64 Hmax64 mode_NE bx b' N) as C. simpl round_mode in C.
  rewrite Rlt_bool_true in C by (apply small_ok; exact S). destruct C as (C1 & C2 & _).
  exists (Bdiv mode_NE bx b'). split; [apply SFdiv_equiv|]. split; [rewrite C2, Fx; reflexivity|assumption].
Qed.
Lemma dv_ofZ n : (Z.abs n < 2 ^ 53)%Z -> double_value (a_ofZ arD n) (IZR n).
Proof. intros H. apply dv_b64. exists (b64_of_Z n). destruct (b64_of_Z_correct n H). split; [apply dbl_of_Z_equiv|]. split; assumption. Qed.
Lemma dv_lt x y a b : double_value x a -> double_value y b -> a_lt arD x y = Rlt_bool a b.
Proof.
  intros Hx Hy. apply dv_b64 in Hx as (bx & -> & Fx & <-). apply dv_b64 in Hy as (b' & -> & Fy & <-).
  change (a_lt arD (B2SF bx) (B2SF b')) with (Bltb bx b'). apply Bltb_correct; assumption.
Qed.

(** ** Rounding *)
Lemma rnd_le x y : x <= y -> rnd64 x <= rnd64 y.
Proof. apply round_le; auto with typeclass_instances. Qed.
Lemma rnd_fmt x : fmt x -> rnd64 x = x.
Proof. apply round_generic; auto with typeclass_instances. Qed.
Lemma rnd_is_fmt x : fmt (rnd64 x).
Proof. apply generic_format_round; auto with typeclass_instances. Qed.
Lemma rnd_opp x : rnd64 (- x) = - rnd64 x.
Proof. apply round_NE_opp. Qed.
Lemma rnd_0 : rnd64 0 = 0.
Proof. apply round_0; auto with typeclass_instances. Qed.
Lemma fmt_0 : fmt 0.
Proof. apply generic_format_0. Qed.
Lemma fmt_1 : fmt 1.
Proof. apply (format_int 1). reflexivity. Qed.
Lemma rnd_nn x : 0 <= x -> 0 <= rnd64 x.
Proof. intros H. rewrite <- rnd_0. apply rnd_le, H. Qed.
Lemma fmt_opp x : fmt x -> fmt (- x).
Proof. apply generic_format_opp. Qed.
Lemma fmt_double x : fmt x -> fmt (2 * x).
Proof.
  intros H. rewrite Rmult_comm. change 2 with (bpow radix2 1). apply (mult_bpow_pos_exact_FLT radix2 (-1074) 53); [exact H|lia].
Qed.

Definition eps : R := / 2 ^ 53.
Definition eta : R := bpow radix2 (-1075).

Lemma rnd_error x : Rabs (rnd64 x - x) <= eps * Rabs x + eta.
Proof.
  destruct (error_N_FLT radix2 (-1074) 53 ltac:(reflexivity) (fun x => negb (Z.even x)) x) as (e & h & He & Hh & _ & E).
  change (round radix2 (FLT_exp (-1074) 53) ZnearestE x = x * (1 + e) + h) in E.
  change (FLT_exp (-1074) 53) with fexp64 in E. rewrite E.
  replace (x * (1 + e) + h - x) with (e * x + h) by ring.
  eapply Rle_trans; [apply Rabs_triang|]. rewrite Rabs_mult. apply Rplus_le_compat.
  - apply Rmult_le_compat_r; [apply Rabs_pos|]. eapply Rle_trans; [exact He|].
    unfold eps. replace (2 ^ 53) with (bpow radix2 53) by (rewrite bpow_powerRZ; reflexivity). rewrite <- bpow_opp.
    change (-53 + 1)%Z with (1 + - (53))%Z. rewrite bpow_plus. change (bpow radix2 1) with 2. simpl Z.opp. lra.
  - eapply Rle_trans; [exact Hh|]. unfold eta. change (-1074)%Z with (1 + - (1075))%Z. rewrite bpow_plus. change (bpow radix2 1) with 2. simpl Z.opp. lra.
Qed.

Lemma eps_small : 0 < eps <= / 1000000.
Proof. unfold eps. split; [apply Rinv_0_lt_compat, pow_lt; lra|]. apply Rinv_le; [lra|]. simpl. lra. Qed.
Lemma eta_tiny : 0 < eta <= eps * eps * eps.
Proof.
  split; [apply bpow_gt_0|]. unfold eta, eps. replace (2 ^ 53) with (bpow radix2 53) by (rewrite bpow_powerRZ; reflexivity).
  rewrite <- bpow_opp, <- !bpow_plus. apply bpow_le. vm_compute. discriminate.
Qed.

(** Close to one *)
Lemma rnd_up_to_one x : x < 1 + eps -> rnd64 x <= 1.
Proof.
  intros H. apply round_N_le_midp; auto with typeclass_instances; [apply fmt_1|].
  rewrite succ_eq_pos by lra. change 1 with (bpow radix2 0) at 3. rewrite ulp_bpow.
  change (fexp64 (0 + 1)) with (1 + - (53))%Z. rewrite bpow_plus. change (bpow radix2 1) with 2.
  replace (bpow radix2 (- (53))) with eps; [lra|]. unfold eps. rewrite bpow_opp. f_equal. rewrite bpow_powerRZ. reflexivity.
Qed.

Lemma rnd_half x : 0 <= x < 1 + eps -> rnd64 x <= x + eps / 2.
Proof.
  intros H. pose proof eps_small. destruct (Rle_or_lt 1 x) as [H1|H1].
  - pose proof (rnd_up_to_one x (proj2 H)). lra.
  - destruct (Req_dec x 0) as [->|N]; [rewrite rnd_0; lra|].
    pose proof (error_le_half_ulp radix2 fexp64 (fun x => negb (Z.even x)) x) as E. apply Rabs_le_inv in E.
    assert (U : ulp radix2 fexp64 x <= eps).
    { rewrite ulp_neq_0 by exact N. unfold eps. replace (2 ^ 53) with (bpow radix2 53) by (rewrite bpow_powerRZ; reflexivity). rewrite <- bpow_opp.
      apply bpow_le. unfold cexp. assert (M : (mag radix2 x <= 0)%Z) by (apply mag_le_bpow; [exact N|]; rewrite Rabs_pos_eq by lra; exact H1).
      change (fexp64 (mag radix2 x)) with (Z.max (mag radix2 x - 53) (-1074)). lia. }
    lra.
Qed.

Lemma below_one f : fmt f -> f < 1 -> f <= 1 - eps.
Proof.
  intros Hf H. pose proof (pred_ge_gt radix2 fexp64 f 1 Hf fmt_1 H) as P. 
  rewrite pred_eq_pos in P by lra. unfold pred_pos in P. rewrite mag_1 in P.
  rewrite Req_bool_true in P by reflexivity. change (fexp64 (1 - 1)) with (- (53))%Z in P.
  replace eps with (bpow radix2 (- (53))); [exact P|]. unfold eps. rewrite bpow_opp. f_equal. rewrite bpow_powerRZ. reflexivity.
Qed.

Lemma third_of_eighth f : fmt f -> 0 <= f -> 3 * rnd64 (f * / 8) <= f.
Proof.
  intros Hf H0. destruct (Rlt_or_le (f * / 8) eta) as [H|H].
  - assert (rnd64 (f * / 8) <= 0); [|lra]. apply round_N_le_midp; auto with typeclass_instances; [apply fmt_0|].
    rewrite succ_0. change fexp64 with (FLT_exp (-1074) 53). rewrite (ulp_FLT_0 radix2 (-1074) 53). unfold eta in H. change (-1075)%Z with (-1 + -1074)%Z in H. rewrite bpow_plus in H.
    change (bpow radix2 (-1)) with (/ 2) in H. lra.
  - pose proof (rnd_error (f * / 8)) as E. apply Rabs_le_inv in E. rewrite Rabs_pos_eq in E by lra. pose proof eps_small. nra.
Qed.

(** One cell *)
Section Cell.
  Variable f : R.
  Hypotheses (Ff : fmt f) (Hf : 0 <= f <= 1).

  (** what one axis adds *)
  Definition flow (c u : R) : R := - rnd64 (c * rnd64 (u - f)).

  Lemma diff_range u : fmt u -> 0 <= u <= 1 -> - f <= rnd64 (u - f) <= rnd64 (1 - f).
  Proof. intros Fu Hu. split; [|apply rnd_le; lra]. rewrite <- (rnd_fmt (- f)) by (apply fmt_opp, Ff). apply rnd_le. lra. Qed.

  Lemma flow_range c u : - / 8 <= c <= 0 -> fmt u -> 0 <= u <= 1 ->
    - rnd64 (f * / 8) <= flow c u <= rnd64 (rnd64 (1 - f) * / 8).
  Proof.
    intros Hc Fu Hu. destruct (diff_range u Fu Hu) as [D1 D2]. unfold flow. rewrite <- !rnd_opp.
    assert (D0 : 0 <= rnd64 (1 - f)) by (apply rnd_nn; lra). split; apply rnd_le; nra.
  Qed.

  Lemma inflow_small : rnd64 (rnd64 (1 - f) * / 8) <= (1 - f) * / 7.
  Proof.
    destruct (Req_dec f 1) as [->|N]; [replace (1 - 1) with 0 by ring; rewrite rnd_0, Rmult_0_l, rnd_0; lra|].
    pose proof (below_one f Ff ltac:(lra)) as B. pose proof eps_small as E. pose proof eta_tiny as T.
    pose proof (rnd_error (1 - f)) as R1. apply Rabs_le_inv in R1. rewrite Rabs_pos_eq in R1 by lra.
    assert (D0 : 0 <= rnd64 (1 - f)) by (apply rnd_nn; lra).
    pose proof (rnd_error (rnd64 (1 - f) * / 8)) as R2. apply Rabs_le_inv in R2. rewrite Rabs_pos_eq in R2 by lra.
    set (d := rnd64 (1 - f)) in *. set (t := rnd64 (d * / 8)) in *. set (g := 1 - f) in *.
    assert (eta <= eps * g). { assert (eps * eps * eps <= eps * eps) by (rewrite <- (Rmult_1_r (eps * eps)) at 2; apply Rmult_le_compat_l; [apply Rmult_le_pos; lra|lra]). assert (eps * eps <= eps * g) by (apply Rmult_le_compat_l; unfold g; lra). lra. }
    assert (eps * (d * / 8) <= / 1000000 * (d * / 8)) by nra. assert (eps * g <= / 1000000 * g) by nra. lra.
  Qed.

  Definition cell_step (acc : R) (p : R * R) : R := rnd64 (acc + flow (fst p) (snd p)).

  Lemma cell_range l : (length l <= 3)%nat ->
    (forall p, In p l -> - / 8 <= fst p <= 0 /\ fmt (snd p) /\ 0 <= snd p <= 1) ->
    0 <= fold_left cell_step l f <= 1 /\ fmt (fold_left cell_step l f).
  Proof.
    intros Hl Hp. pose proof (third_of_eighth f Ff ltac:(lra)) as L. pose proof inflow_small as U.
    set (a := rnd64 (f * / 8)) in *. set (s := rnd64 (rnd64 (1 - f) * / 8)) in *.
    assert (Fa : fmt a) by apply rnd_is_fmt. assert (A0 : 0 <= a) by (apply rnd_nn; lra).
    assert (S0 : 0 <= s) by (apply rnd_nn; pose proof (rnd_nn (1 - f) ltac:(lra)); lra).
    pose proof eps_small as E.
    assert (G : (f = 1 /\ s = 0) \/ f <= 1 - eps).
    { destruct (Req_dec f 1) as [->|N]; [left; split; [reflexivity|]|right; apply below_one; [exact Ff|lra]].
      unfold s. replace (1 - 1) with 0 by ring. rewrite rnd_0, Rmult_0_l, rnd_0. reflexivity. }
    (* with k axes done *)
    assert (ST : forall k acc p, In p l -> (k < 3)%nat -> INR (3 - k) * a <= acc -> acc <= 1 -> acc <= f + INR k * s + INR k * (eps / 2) ->
      INR (3 - S k) * a <= cell_step acc p /\ cell_step acc p <= 1 /\ cell_step acc p <= f + INR (S k) * s + INR (S k) * (eps / 2)).
    { intros k acc p Hin Hk La Ua Va. destruct (Hp p Hin) as (Hc & Fu & Hu). destruct (flow_range _ _ Hc Fu Hu) as [F1 F2].
      fold a in F1. fold s in F2. unfold cell_step. set (t := flow (fst p) (snd p)) in *.
      assert (Lo : INR (3 - S k) * a <= acc + t).
      { replace (INR (3 - k)) with (INR (3 - S k) + 1) in La by (rewrite <- S_INR; f_equal; lia). lra. }
      assert (Fk : fmt (INR (3 - S k) * a)).
      { destruct k as [|[|[|k]]]; simpl INR; [|rewrite Rmult_1_l; exact Fa|rewrite Rmult_0_l; apply fmt_0|lia].
        replace (1 + 1) with 2 by ring. apply fmt_double, Fa. }
      assert (K0 : 0 <= INR (3 - S k) * a) by (apply Rmult_le_pos; [apply pos_INR|exact A0]).
      assert (Hi : acc + t < 1 + eps).
      { destruct G as [[-> Z]|G]; [lra|]. assert (INR k <= 2) by (change 2 with (INR 2); apply le_INR; lia).
        assert (INR k * s <= 2 * s) by (apply Rmult_le_compat_r; assumption). assert (INR k * (eps / 2) <= 2 * (eps / 2)) by (apply Rmult_le_compat_r; lra). lra. }
      split; [|split].
      - rewrite <- (rnd_fmt _ Fk). apply rnd_le, Lo.
      - apply rnd_up_to_one, Hi.
      - eapply Rle_trans; [apply rnd_half; split; [lra|exact Hi]|]. rewrite S_INR. lra. }
    assert (B0 : INR (3 - 0) * a <= f) by (simpl INR; lra).
    assert (C0 : f <= f + INR 0 * s + INR 0 * (eps / 2)) by (simpl INR; lra).
    destruct l as [|p1 [|p2 [|p3 [|p4 l]]]]; cbn [fold_left].
    - split; [exact Hf|exact Ff].
    - destruct (ST 0%nat f p1 ltac:(left; reflexivity) ltac:(lia) B0 ltac:(lra) C0) as (L1 & U1 & V1).
      split; [|apply rnd_is_fmt]. split; [|exact U1]. eapply Rle_trans; [|exact L1]. apply Rmult_le_pos; [apply pos_INR|exact A0].
    - destruct (ST 0%nat f p1 ltac:(left; reflexivity) ltac:(lia) B0 ltac:(lra) C0) as (L1 & U1 & V1).
      destruct (ST 1%nat _ p2 ltac:(right; left; reflexivity) ltac:(lia) L1 U1 V1) as (L2 & U2 & V2).
      split; [|apply rnd_is_fmt]. split; [|exact U2]. eapply Rle_trans; [|exact L2]. apply Rmult_le_pos; [apply pos_INR|exact A0].
    - destruct (ST 0%nat f p1 ltac:(left; reflexivity) ltac:(lia) B0 ltac:(lra) C0) as (L1 & U1 & V1).
      destruct (ST 1%nat _ p2 ltac:(right; left; reflexivity) ltac:(lia) L1 U1 V1) as (L2 & U2 & V2).
      destruct (ST 2%nat _ p3 ltac:(right; right; left; reflexivity) ltac:(lia) L2 U2 V2) as (L3 & U3 & V3).
      split; [|apply rnd_is_fmt]. split; [|exact U3]. simpl INR in L3. lra.
    - simpl in Hl. lia.
  Qed.

  (** error of one axis *)
  Lemma flow_error c u : - / 8 <= c <= 0 -> 0 <= u <= 1 -> Rabs (flow c u + c * (u - f)) <= 26 / 100 * eps * (u + f) + 2 * eta.
  Proof using Ff Hf.
    intros Hc Hu. pose proof eps_small as E. pose proof eta_tiny as T. unfold flow.
    pose proof (rnd_error (u - f)) as R1. set (d := rnd64 (u - f)) in *.
    pose proof (rnd_error (c * d)) as R2. set (t := rnd64 (c * d)) in *.
    assert (A : Rabs (u - f) <= u + f) by (apply Rabs_le; lra).
    assert (B : Rabs d <= (1 + eps) * (u + f) + eta).
    { replace d with (u - f + (d - (u - f))) by ring. eapply Rle_trans; [apply Rabs_triang|].
      assert (eps * Rabs (u - f) <= eps * (u + f)) by (apply Rmult_le_compat_l; lra). lra. }
    assert (Hca : Rabs c <= / 8) by (apply Rabs_le; lra).
    rewrite Rabs_mult in R2.
    assert (M : Rabs c * Rabs d <= / 8 * ((1 + eps) * (u + f) + eta)).
    { apply Rmult_le_compat; try apply Rabs_pos; assumption. }
    assert (N : Rabs (c * (d - (u - f))) <= / 8 * (eps * (u + f) + eta)).
    { rewrite Rabs_mult. apply Rmult_le_compat; try apply Rabs_pos; [exact Hca|]. eapply Rle_trans; [exact R1|].
      assert (eps * Rabs (u - f) <= eps * (u + f)) by (apply Rmult_le_compat_l; lra). lra. }
    replace (- t + c * (u - f)) with (- ((t - c * d) + c * (d - (u - f)))) by ring. rewrite Rabs_Ropp.
    eapply Rle_trans; [apply Rabs_triang|].
    assert (M' : eps * (Rabs c * Rabs d) <= eps * (/ 8 * ((1 + eps) * (u + f) + eta))) by (apply Rmult_le_compat_l; lra).
    set (w := eps * (u + f)) in *. assert (W0 : 0 <= w) by (unfold w; apply Rmult_le_pos; lra).
    replace (eps * (/ 8 * ((1 + eps) * (u + f) + eta))) with (/ 8 * ((1 + eps) * w + eps * eta)) in M' by (unfold w; ring).
    assert (eps * w <= / 1000000 * w) by (apply Rmult_le_compat_r; lra).
    assert (eps * eta <= / 1000000 * eta) by (apply Rmult_le_compat_r; lra).
    replace (26 / 100 * eps * (u + f)) with (26 / 100 * w) by (unfold w; ring). lra.
  Qed.

  (** the update without rounding *)
  Definition exact_step (acc : R) (p : R * R) : R := acc - fst p * (snd p - f).
  Definition rsum (l : list R) : R := fold_right Rplus 0 l.

  Lemma rsum_app l l' : rsum (l ++ l') = rsum l + rsum l'.
  Proof. unfold rsum. induction l as [|x l IH]; simpl; [lra|]. rewrite IH. lra. Qed.
  Lemma rsum_nn l : (forall x, In x l -> 0 <= x) -> 0 <= rsum l.
  Proof.
    unfold rsum. induction l as [|x l IH]; intros H; simpl; [lra|].
    pose proof (IH (fun y Hy => H y (or_intror Hy))). specialize (H x (or_introl eq_refl)). lra.
  Qed.

  Lemma exact_upper l : (forall p, In p l -> - / 8 <= fst p <= 0 /\ 0 <= snd p <= 1) ->
    fold_left exact_step l f <= f + / 8 * rsum (map snd l).
  Proof using Hf.
    intros H. induction l as [|p l IH] using rev_ind; [simpl; lra|].
    rewrite fold_left_app, map_app, rsum_app. cbn [fold_left map rsum fold_right]. unfold exact_step at 1.
    specialize (IH (fun q Hq => H q (in_or_app _ _ _ (or_introl Hq)))).
    destruct (H p ltac:(apply in_or_app; right; left; reflexivity)) as [Hc Hu]. fold (rsum (map snd l)) in *.
    assert (- fst p * snd p <= / 8 * snd p) by (apply Rmult_le_compat_r; lra).
    assert (0 <= - fst p * f) by (apply Rmult_le_pos; lra). lra.
  Qed.

  Lemma cell_error l : (length l <= 3)%nat ->
    (forall p, In p l -> - / 8 <= fst p <= 0 /\ fmt (snd p) /\ 0 <= snd p <= 1) ->
    Rabs (fold_left cell_step l f - fold_left exact_step l f) <=
    eps * (13 / 10 * INR (length l) * f + (27 / 100 + 13 / 100 * INR (length l)) * rsum (map snd l)) + 4 * INR (length l) * eta.
  Proof using Ff Hf.
    induction l as [|p l IH] using rev_ind; intros Hl Hp.
    - simpl. rewrite Rminus_eq_0, Rabs_R0. lra.
    - rewrite app_length in *. cbn [length] in *.
      assert (Hp' : forall q, In q l -> - / 8 <= fst q <= 0 /\ fmt (snd q) /\ 0 <= snd q <= 1) by (intros q Hq; apply Hp, in_or_app; auto).
      specialize (IH ltac:(lia) Hp').
      assert (Hp2 : forall q, In q (l ++ [p]) -> - / 8 <= fst q <= 0 /\ 0 <= snd q <= 1) by (intros q Hq; destruct (Hp q Hq) as (? & ? & ?); auto).
      pose proof (exact_upper _ Hp2) as XU. pose proof (cell_range l ltac:(lia) Hp') as [AR _].
      rewrite !fold_left_app in *. rewrite map_app, rsum_app in *. cbn [fold_left map] in *. change (rsum [snd p]) with (snd p + 0) in *. rewrite Rplus_0_r in *.
      destruct (Hp p ltac:(apply in_or_app; right; left; reflexivity)) as (Hc & Fu & Hu).
      pose proof (flow_error _ _ Hc Hu) as FE.
      assert (V0 : 0 <= rsum (map snd l)).
      { apply rsum_nn. intros x Hx. apply in_map_iff in Hx as (q & <- & Hq). apply Hp'. exact Hq. }
      set (acc := fold_left cell_step l f) in *. set (ex := fold_left exact_step l f) in *. set (U := rsum (map snd l)) in *.
      unfold cell_step, exact_step in *. set (t := flow (fst p) (snd p)) in *. set (u := snd p) in *. set (c := fst p) in *.
      pose proof (rnd_error (acc + t)) as R1. set (new := rnd64 (acc + t)) in *.
      rewrite Nat.add_1_r, S_INR. assert (K0 : 0 <= INR (length l)) by apply pos_INR.
      assert (K2 : INR (length l) <= 2) by (change 2 with (INR 2); apply le_INR; lia). set (k := INR (length l)) in *.
      pose proof eps_small as E. pose proof eta_tiny as T.
      set (e0 := eps * (13 / 10 * k * f + (27 / 100 + 13 / 100 * k) * U) + 4 * k * eta) in *.
      set (e1 := 26 / 100 * eps * (u + f) + 2 * eta) in *.
      assert (Q : Rabs (acc + t - (ex - c * (u - f))) <= e0 + e1).
      { replace (acc + t - (ex - c * (u - f))) with ((acc - ex) + (t + c * (u - f))) by ring. eapply Rle_trans; [apply Rabs_triang|]. lra. }
      assert (P : Rabs (acc + t) <= f + / 8 * (U + u) + (e0 + e1)).
      { assert (A : acc + t <= f + / 8 * (U + u) + (e0 + e1)) by (apply Rabs_le_inv in Q; lra).
        destruct (flow_range c u Hc Fu Hu) as [F1 _]. fold t in F1. pose proof (third_of_eighth f Ff ltac:(lra)) as L.
        pose proof (rnd_nn (f * / 8) ltac:(lra)). pose proof (Rabs_pos (acc + t - (ex - c * (u - f)))). apply Rabs_le. lra. }
      replace (new - (ex - c * (u - f))) with ((new - (acc + t)) + (acc + t - (ex - c * (u - f)))) by ring.
      eapply Rle_trans; [apply Rabs_triang|].
      assert (R2 : eps * Rabs (acc + t) <= eps * (f + / 8 * (U + u) + (e0 + e1))) by (apply Rmult_le_compat_l; lra).
      assert (0 <= eps * U) by (apply Rmult_le_pos; lra). assert (0 <= eps * u) by (apply Rmult_le_pos; lra). assert (0 <= eps * f) by (apply Rmult_le_pos; lra).
      assert (S : eps * (e0 + e1) <= / 1000 * (eps * (f + U + u)) + / 1000 * eta).
      { assert (Kf : 13 / 10 * k * f <= 26 / 10 * f) by (apply Rmult_le_compat_r; lra).
        assert (KU : (27 / 100 + 13 / 100 * k) * U <= 53 / 100 * U) by (apply Rmult_le_compat_r; lra).
        assert (Ke : 4 * k * eta <= 8 * eta) by (apply Rmult_le_compat_r; lra).
        assert (X : e0 + e1 <= eps * (3 * (f + U + u)) + 10 * eta).
        { assert (eps * (13 / 10 * k * f + (27 / 100 + 13 / 100 * k) * U) <= eps * (26 / 10 * f + 53 / 100 * U)) by (apply Rmult_le_compat_l; lra).
          assert (0 <= eps * U) by (apply Rmult_le_pos; lra). assert (0 <= eps * u) by (apply Rmult_le_pos; lra). assert (0 <= eps * f) by (apply Rmult_le_pos; lra).
          unfold e0, e1. lra. }
        assert (Y : 0 <= eps * (3 * (f + U + u)) + 10 * eta) by (assert (0 <= eps * (3 * (f + U + u))) by (apply Rmult_le_pos; lra); lra).
        apply Rle_trans with (/ 1000000 * (eps * (3 * (f + U + u)) + 10 * eta)); [|lra].
        apply Rle_trans with (eps * (eps * (3 * (f + U + u)) + 10 * eta)); [apply Rmult_le_compat_l; lra|apply Rmult_le_compat_r; lra]. }
      assert (0 <= eps * k * u) by (apply Rmult_le_pos; [apply Rmult_le_pos; lra|lra]).
      unfold e0, e1 in *. lra.
  Qed.
End Cell.
