(** * The Fortran versions in double precision: the numbers of the program *)
From Coq Require Import Reals ZArith Lia Lra Psatz Floats.SpecFloat List Permutation String.
From Flocq Require Import Core BinarySingleNaN.
From Verif Require Import Cpp CppProof MaiModel MaiSpec Radix MaiProof CdModel CdSpec FilterModel FilterSpec FilterProof FilterSum RealArith LapSpec
  UpModel UpSpec UpProof UpExact UpProps LangSpec FortModel FortProof FortProps Ieee Double DblSpec DblProof DblField DblProps FlowProof.
From Coq Require Import List.
Import ListNotations.
Local Open Scope R_scope.
Local Arguments prodZ : simpl never.
Local Arguments Z.of_nat : simpl never.

(** ** One axis: (d D) / h with three roundings *)
Section Axis.
  Variables d h : R.
  Hypotheses (Rh : / 2 ^ 11 <= h <= 1) (Rd : 0 <= d <= 111 / 1000 * h).

  Definition f90_flow (f u : R) : R := rnd64 (rnd64 (d * rnd64 (u - f)) / h).
  Definition f90_low (f : R) : R := rnd64 (rnd64 (d * f) / h).
  Definition f90_up (f : R) : R := rnd64 (rnd64 (d * rnd64 (1 - f)) / h).

  Lemma inv_h : 0 < h /\ 1 <= / h <= 2 ^ 11 /\ 0 <= d * / h <= 111 / 1000.
  Proof using Rh Rd.
    assert (Q0 : 0 < / 2 ^ 11) by (apply Rinv_0_lt_compat, pow_lt; lra). assert (H : 0 < h) by lra. split; [exact H|]. split.
    - split; [rewrite <- Rinv_1 at 1; apply Rinv_le; lra|]. rewrite <- (Rinv_inv (2 ^ 11)). apply Rinv_le; lra.
    - assert (0 < / h) by (apply Rinv_0_lt_compat, H). split; [apply Rmult_le_pos; lra|].
      apply Rle_trans with (111 / 1000 * h * / h); [apply Rmult_le_compat_r; lra|]. rewrite Rmult_assoc, Rinv_r by lra. lra.
  Qed.

  (** less than half the smallest number is rounded to zero *)
  Lemma rnd_tiny x : 0 <= x < eta -> rnd64 x = 0.
  Proof using Type.
    intros (H0 & H). apply Rle_antisym; [|apply rnd_nn, H0]. apply round_N_le_midp; auto with typeclass_instances; [apply fmt_0|].
    rewrite succ_0. change fexp64 with (FLT_exp (-1074) 53). rewrite (ulp_FLT_0 radix2 (-1074) 53). unfold eta in H. change (-1075)%Z with (-1 + -1074)%Z in H. rewrite bpow_plus in H.
    change (bpow radix2 (-1)) with (/ 2) in H. lra.
  Qed.

  Lemma f90_low_ok f : fmt f -> 0 <= f <= 1 -> fmt (f90_low f) /\ 0 <= f90_low f /\ 3 * f90_low f <= f.
  Proof using Rh Rd.
    intros Ff Hf. destruct inv_h as (H0 & (I1 & I2) & (C0 & C1)). pose proof eps_small as E. pose proof eta_tiny as Te.
    assert (DF : 0 <= d * f) by (apply Rmult_le_pos; lra).
    assert (P0 : 0 <= rnd64 (d * f)) by (apply rnd_nn, DF).
    split; [apply rnd_is_fmt|]. split; [apply rnd_nn; unfold Rdiv; apply Rmult_le_pos; lra|]. unfold f90_low.
    destruct (Rlt_or_le (d * f) eta) as [H|H].
    - rewrite (rnd_tiny (d * f)) by lra. unfold Rdiv. rewrite Rmult_0_l, rnd_0. lra.
    - pose proof (rnd_error (d * f)) as R1. apply Rabs_le_inv in R1. rewrite Rabs_pos_eq in R1 by exact DF. set (p := rnd64 (d * f)) in *.
      assert (B1 : p <= (2 + / 1000000) * (d * f)) by (assert (eps * (d * f) <= / 1000000 * (d * f)) by (apply Rmult_le_compat_r; lra); lra).
      assert (B2 : p / h <= (2 + / 1000000) * (111 / 1000) * f).
      { change (p / h) with (p * / h). apply Rle_trans with ((2 + / 1000000) * (d * f) * / h); [apply Rmult_le_compat_r; lra|].
        replace ((2 + / 1000000) * (d * f) * / h) with ((2 + / 1000000) * f * (d * / h)) by ring.
        replace ((2 + / 1000000) * (111 / 1000) * f) with ((2 + / 1000000) * f * (111 / 1000)) by ring.
        apply Rmult_le_compat_l; [apply Rmult_le_pos; lra|exact C1]. }
      assert (P1 : 0 <= p / h) by (unfold Rdiv; apply Rmult_le_pos; lra).
      pose proof (rnd_error (p / h)) as R2. apply Rabs_le_inv in R2. rewrite Rabs_pos_eq in R2 by exact P1. set (q := rnd64 (p / h)) in *.
      assert (eps * (p / h) <= / 1000000 * (p / h)) by (apply Rmult_le_compat_r; lra).
      assert (d * f <= 111 / 1000 * f).
      { apply Rmult_le_compat_r; [lra|]. apply Rle_trans with (111 / 1000 * h); [apply Rd|]. rewrite <- Rmult_1_r. apply Rmult_le_compat_l; lra. }
      lra.
  Qed.

  Lemma f90_up_ok f : fmt f -> 0 <= f <= 1 -> 0 <= f90_up f <= (1 - f) * / 7.
  Proof using Rh Rd.
    intros Ff Hf. destruct inv_h as (H0 & (I1 & I2) & (C0 & C1)). pose proof eps_small as E. pose proof eta_tiny as Te.
    assert (D0 : 0 <= rnd64 (1 - f)) by (apply rnd_nn; lra).
    assert (DF : 0 <= d * rnd64 (1 - f)) by (apply Rmult_le_pos; lra).
    assert (P0 : 0 <= rnd64 (d * rnd64 (1 - f))) by (apply rnd_nn, DF).
    assert (P1 : 0 <= rnd64 (d * rnd64 (1 - f)) / h) by (unfold Rdiv; apply Rmult_le_pos; lra).
    split; [apply rnd_nn, P1|].
    unfold f90_up. destruct (Req_dec f 1) as [->|N]; [replace (1 - 1) with 0 by ring; rewrite rnd_0, Rmult_0_r, rnd_0; unfold Rdiv; rewrite Rmult_0_l, rnd_0; lra|].
    pose proof (below_one f Ff ltac:(lra)) as B.
    pose proof (rnd_error (1 - f)) as R1. apply Rabs_le_inv in R1. rewrite Rabs_pos_eq in R1 by lra.
    pose proof (rnd_error (d * rnd64 (1 - f))) as R2. apply Rabs_le_inv in R2. rewrite Rabs_pos_eq in R2 by exact DF.
    pose proof (rnd_error (rnd64 (d * rnd64 (1 - f)) / h)) as R3. apply Rabs_le_inv in R3. rewrite Rabs_pos_eq in R3 by exact P1.
    set (dd := rnd64 (1 - f)) in *. set (p := rnd64 (d * dd)) in *. set (q := rnd64 (p / h)) in *. set (g := 1 - f) in *.
    assert (Eg : eta <= / 1000000 * / 1000000 * g).
    { apply Rle_trans with (eps * eps * eps); [lra|]. apply Rmult_le_compat; [apply Rmult_le_pos; lra|lra| |unfold g; lra]. apply Rmult_le_compat; lra. }
    assert (E2 : eta * 2 ^ 11 <= / 1000000 * g) by (simpl; lra).
    assert (eps * g <= / 1000000 * g) by (apply Rmult_le_compat_r; unfold g in *; lra).
    assert (dd <= (1 + / 100000) * g) by lra.
    assert (eps * (d * dd) <= / 1000000 * (d * dd)) by (apply Rmult_le_compat_r; lra).
    assert (B2 : p / h <= (1 + / 1000000) * (111 / 1000) * dd + / 1000000 * g).
    { change (p / h) with (p * / h). apply Rle_trans with (((1 + / 1000000) * (d * dd) + eta) * / h); [apply Rmult_le_compat_r; lra|].
      replace (((1 + / 1000000) * (d * dd) + eta) * / h) with ((1 + / 1000000) * dd * (d * / h) + eta * / h) by ring.
      assert ((1 + / 1000000) * dd * (d * / h) <= (1 + / 1000000) * dd * (111 / 1000)) by (apply Rmult_le_compat_l; [apply Rmult_le_pos; lra|exact C1]).
      assert (eta * / h <= eta * 2 ^ 11) by (apply Rmult_le_compat_l; lra). lra. }
    assert (eps * (p / h) <= / 1000000 * (p / h)) by (apply Rmult_le_compat_r; lra). lra.
  Qed.

  Lemma f90_flow_ok f u : fmt f -> 0 <= f <= 1 -> fmt u -> 0 <= u <= 1 -> - f90_low f <= f90_flow f u <= f90_up f.
  Proof using Rh Rd.
    intros Ff Hf Fu Hu. destruct inv_h as (H0 & (I1 & I2) & _). destruct (diff_range f Ff u Fu Hu) as [D1 D2]. unfold f90_low, f90_flow, f90_up. split.
    - rewrite <- rnd_opp. apply rnd_le. unfold Rdiv. rewrite Ropp_mult_distr_l. apply Rmult_le_compat_r; [lra|].
      rewrite <- rnd_opp. apply rnd_le. rewrite Ropp_mult_distr_r. apply Rmult_le_compat_l; lra.
    - apply rnd_le. unfold Rdiv. apply Rmult_le_compat_r; [lra|]. apply rnd_le. apply Rmult_le_compat_l; lra.
  Qed.

  Lemma f90_flow_error f u : fmt f -> 0 <= f <= 1 -> fmt u -> 0 <= u <= 1 ->
    Rabs (f90_flow f u + - (d * / h) * (u - f)) <= 39 / 100 * eps * (u + f) + 2 ^ 12 * eta.
  Proof using Rh Rd.
    intros Ff Hf Fu Hu. destruct inv_h as (H0 & (I1 & I2) & (C0 & C1)). pose proof eps_small as E. pose proof eta_tiny as Te. unfold f90_flow.
    pose proof (rnd_error (u - f)) as R1. set (x := rnd64 (u - f)) in *.
    pose proof (rnd_error (d * x)) as R2. set (p := rnd64 (d * x)) in *.
    pose proof (rnd_error (p / h)) as R3. set (q := rnd64 (p / h)) in *.
    assert (A : Rabs (u - f) <= u + f) by (apply Rabs_le; lra).
    set (w := eps * (u + f)) in *. assert (W0 : 0 <= w) by (unfold w; apply Rmult_le_pos; lra).
    assert (R1' : Rabs (x - (u - f)) <= w + eta) by (assert (eps * Rabs (u - f) <= w) by (apply Rmult_le_compat_l; lra); lra).
    assert (B : Rabs x <= (u + f) + w + eta).
    { replace x with (u - f + (x - (u - f))) by ring. eapply Rle_trans; [apply Rabs_triang|]. lra. }
    set (k := d * / h) in *.
    (* the first rounding *)
    assert (N1 : Rabs (k * (x - (u - f))) <= 111 / 1000 * (w + eta)).
    { rewrite Rabs_mult. apply Rmult_le_compat; try apply Rabs_pos; [rewrite Rabs_pos_eq; lra|exact R1']. }
    (* the second *)
    assert (Kx : k * Rabs x <= 111 / 1000 * ((u + f) + w + eta)) by (apply Rmult_le_compat; try apply Rabs_pos; lra).
    assert (N2 : Rabs ((p - d * x) * / h) <= eps * (k * Rabs x) + eta * 2 ^ 11).
    { rewrite Rabs_mult, (Rabs_pos_eq (/ h)) by lra. apply Rle_trans with ((eps * Rabs (d * x) + eta) * / h); [apply Rmult_le_compat_r; lra|].
      rewrite Rabs_mult, (Rabs_pos_eq d) by lra. replace ((eps * (d * Rabs x) + eta) * / h) with (eps * (k * Rabs x) + eta * / h) by (unfold k; ring).
      apply Rplus_le_compat_l. apply Rmult_le_compat_l; lra. }
    assert (Ew : eps * w <= / 1000000 * w) by (apply Rmult_le_compat_r; lra).
    assert (Ee : eps * eta <= / 1000000 * eta) by (apply Rmult_le_compat_r; lra).
    assert (M2 : eps * (k * Rabs x) <= 111 / 1000 * (w + eps * w + eps * eta)).
    { replace (111 / 1000 * (w + eps * w + eps * eta)) with (eps * (111 / 1000 * ((u + f) + w + eta))) by (unfold w; ring). apply Rmult_le_compat_l; lra. }
    (* the third *)
    assert (Q : Rabs (p / h) <= k * Rabs x + (eps * (k * Rabs x) + eta * 2 ^ 11)).
    { replace (p / h) with (k * x + (p - d * x) * / h) by (unfold k, Rdiv; ring). eapply Rle_trans; [apply Rabs_triang|].
      rewrite (Rabs_mult k x), (Rabs_pos_eq k) by exact C0. lra. }
    assert (M3 : eps * Rabs (p / h) <= (1 + / 1000000) * (111 / 1000 * (w + eps * w + eps * eta)) + eps * (eta * 2 ^ 11)).
    { apply Rle_trans with (eps * (k * Rabs x) + eps * (eps * (k * Rabs x)) + eps * (eta * 2 ^ 11)).
      - replace (eps * (k * Rabs x) + eps * (eps * (k * Rabs x)) + eps * (eta * 2 ^ 11)) with (eps * (k * Rabs x + (eps * (k * Rabs x) + eta * 2 ^ 11))) by ring.
        apply Rmult_le_compat_l; lra.
      - assert (0 <= eps * (k * Rabs x)) by (apply Rmult_le_pos; [lra|apply Rmult_le_pos; [lra|apply Rabs_pos]]).
        assert (eps * (eps * (k * Rabs x)) <= / 1000000 * (eps * (k * Rabs x))) by (apply Rmult_le_compat_r; lra). lra. }
    assert (E11 : eps * (eta * 2 ^ 11) <= / 1000000 * (eta * 2 ^ 11)) by (apply Rmult_le_compat_r; simpl; lra).
    replace (q + - k * (u - f)) with ((q - p / h) + ((p - d * x) * / h + k * (x - (u - f)))) by (unfold k, Rdiv; ring).
    eapply Rle_trans; [apply Rabs_triang|]. pose proof (Rabs_triang ((p - d * x) * / h) (k * (x - (u - f)))) as TR.
    replace (39 / 100 * eps * (u + f)) with (39 / 100 * w) by (unfold w; ring). simpl in *. lra.
  Qed.
End Axis.

(** ** The numbers of the program *)
Notation uno := (a_ofZ arD 1).
Lemma uno_one : one = uno.
Proof. vm_compute. reflexivity. Qed.
Lemma zeros_same : a_dec arD 0 1 = a_ofZ arD 0.
Proof. vm_compute. reflexivity. Qed.

Lemma tenth_value : double_value (a_dec arD 1 1) (rnd64 (1 / 10)).
Proof. apply (dv_div _ _ _ _ (dv_ofZ 1 ltac:(reflexivity)) (dv_ofZ 10 ltac:(reflexivity))); [lra|]. rewrite Rabs_pos_eq by lra. simpl. lra. Qed.
Lemma dv_fun x r s : double_value x r -> double_value x s -> r = s.
Proof. intros (_ & _ & <-) (_ & _ & <-). reflexivity. Qed.

Section Program.
  Variable n : Z.
  Hypotheses (H1 : (1 <= n)%Z) (H2 : (n * n * n < 2 ^ 31)%Z).
  Let dims := [n; n; n].
  Let o3 := [uno; uno; uno].

  Lemma n_1290 : (n <= 1290)%Z.
  Proof using H1 H2. clear dims o3. nia. Qed.

  Lemma f90_dx : exists h, double_value (a_div arD uno (a_ofZ arD n)) h /\ / 2 ^ 11 <= h <= 1.
  Proof using H1 H2.
    pose proof n_1290 as Hn. exists (rnd64 (1 / IZR n)).
    assert (N1 : 1 <= IZR n) by (apply IZR_le; exact H1). assert (N2 : IZR n <= 2 ^ 11) by (rewrite pow_IZR; apply IZR_le; change (2 ^ Z.of_nat 11)%Z with 2048%Z; lia).
    assert (Q1 : 1 / IZR n <= 1) by (apply Rmult_le_reg_r with (IZR n); [lra|]; unfold Rdiv; rewrite Rmult_assoc, Rinv_l by lra; lra).
    assert (Q2 : / 2 ^ 11 <= 1 / IZR n) by (unfold Rdiv; rewrite Rmult_1_l; apply Rinv_le; lra).
    assert (Q0 : 0 < / 2 ^ 11) by (apply Rinv_0_lt_compat, pow_lt; lra).
    split; [|split].
    - apply dv_div; [exact (dv_ofZ 1 ltac:(reflexivity))|apply dv_ofZ; lia|lra|]. rewrite Rabs_pos_eq by lra. simpl. lra.
    - assert (F11 : fmt (/ 2 ^ 11)).
      { replace (/ 2 ^ 11) with (bpow radix2 (-11)) by (rewrite bpow_powerRZ; reflexivity). apply generic_format_bpow. vm_compute. discriminate. }
      rewrite <- (rnd_fmt _ F11). apply rnd_le. exact Q2.
    - rewrite <- (rnd_fmt 1 fmt_1). apply rnd_le. rewrite (rnd_fmt 1 fmt_1). exact Q1.
  Qed.

  Lemma f90_dt h : double_value (a_div arD uno (a_ofZ arD n)) h -> / 2 ^ 11 <= h <= 1 ->
    exists dt d, fo_dt arD o3 o3 dims = Ok dt /\ double_value dt d /\ 0 <= d <= 111 / 1000 * h /\ Rabs (d - h / 10) <= 3 * eps * h.
  Proof using H1 H2.
    intros Vh Rh. destruct dv_tenth as (t & Vt & Rt). pose proof eps_small as E. pose proof eta_tiny as Te.
    assert (St : Rabs (t - 1 / 10) <= / 10 * eps + eta) by (rewrite (dv_fun _ _ _ Vt tenth_value); pose proof (rnd_error (1 / 10)) as RT; rewrite (Rabs_pos_eq (1 / 10)) in RT by lra; lra).
    assert (Q0 : 0 < / 2 ^ 11) by (apply Rinv_0_lt_compat, pow_lt; lra).
    assert (T53 : 10 <= 2 ^ 53) by (simpl; lra).
    assert (P : 0 <= t * h <= 11 / 100 * h) by (split; [apply Rmult_le_pos; lra|apply Rmult_le_compat_r; lra]).
    set (d := rnd64 (t * h)).
    assert (Hd : 0 <= d <= 111 / 1000 * h).
    { split; [apply rnd_nn; lra|]. pose proof (rnd_error (t * h)) as R1. apply Rabs_le_inv in R1. rewrite Rabs_pos_eq in R1 by lra. fold d in R1.
      assert (eps * (t * h) <= / 1000000 * (t * h)) by (apply Rmult_le_compat_r; lra).
      assert (eta <= / 10000 * h).
      { apply Rle_trans with (/ 1000000 * / 1000000 * / 1000000); [|simpl in Rh |- *; lra].
        apply Rle_trans with (eps * eps * eps); [lra|]. apply Rmult_le_compat; try lra; [apply Rmult_le_pos; lra|]. apply Rmult_le_compat; lra. }
      lra. }
    assert (Sd : Rabs (d - h / 10) <= 3 * eps * h).
    { pose proof (rnd_error (t * h)) as R1. apply Rabs_le_inv in R1. rewrite Rabs_pos_eq in R1 by lra. fold d in R1. apply Rabs_le_inv in St.
      assert (eta <= eps * / 10000 * h).
      { apply Rle_trans with (eps * (/ 1000000 * / 1000000)); [|simpl in Rh |- *; nra].
        apply Rle_trans with (eps * (eps * eps)); [lra|]. apply Rmult_le_compat_l; [lra|]. apply Rmult_le_compat; lra. }
      assert (eps * (t * h) <= eps * (11 / 100 * h)) by (apply Rmult_le_compat_l; lra).
      assert (Th : - ((/ 10 * eps + eta) * h) <= t * h - h / 10 <= (/ 10 * eps + eta) * h) by (replace (t * h - h / 10) with ((t - 1 / 10) * h) by field; split; [rewrite Ropp_mult_distr_l|]; apply Rmult_le_compat_r; lra).
      assert (eta * h <= eps * h) by (apply Rmult_le_compat_r; [lra|]; assert (eps * eps * eps <= eps) by nra; lra).
      assert (0 < eps * h) by (apply Rmult_lt_0_compat; lra).
      apply Rabs_le. lra. }
    assert (V1 : double_value uno 1) by exact (dv_ofZ 1 ltac:(reflexivity)).
    assert (V : double_value (a_div arD (a_mul arD (a_dec arD 1 1) (a_div arD uno (a_ofZ arD n))) uno) d).
    { replace d with (rnd64 (d / 1)) by (unfold Rdiv; rewrite Rinv_1, Rmult_1_r; apply rnd_fmt, rnd_is_fmt).
      apply dv_div; [|exact V1|lra|unfold Rdiv; rewrite Rinv_1, Rmult_1_r, Rabs_pos_eq; lra].
      apply dv_mul; [exact Vt|exact Vh|rewrite Rabs_pos_eq; lra]. }
    set (val := a_div arD (a_mul arD (a_dec arD 1 1) (a_div arD uno (a_ofZ arD n))) uno) in *.
    exists val, d. split; [|split; [assumption|split; assumption]].
    destruct dv_max as (M & VM & RM).
    assert (L1 : a_lt arD (a_max arD) val = false) by (change (a_max arD) with dbl_max; rewrite (dv_lt _ _ _ _ VM V); apply Rlt_bool_false; lra).
    assert (L2 : a_lt arD val val = false) by (rewrite (dv_lt _ _ _ _ V V); apply Rlt_bool_false; lra).
    unfold fo_dt, f_do. change (vlen o3) with 3%Z. unfold for_upto. change (Z.to_nat 3) with 3%nat. cbn [for_from].
    change (Z.of_nat 0 + 1)%Z with 1%Z. change (Z.of_nat 1 + 1)%Z with 2%Z. change (Z.of_nat 2 + 1)%Z with 3%Z. unfold o3, dims.
    repeat (change (fget [uno; uno; uno] ?k) with (Ok uno); change (fget [n; n; n] ?k) with (Ok n); cbn [bind]).
    fold val. rewrite L1, L2. rewrite L2. reflexivity.
  Qed.

  Lemma f90_iter k G v lengths dt :
    scheme_iter arD k (f90_term arD dims v lengths dt) dims v G =
    term_iter arD dims (f90_term arD dims v lengths dt) (fun j => upwind_side arD (axis_velocity arD v j)) k G.
  Proof using Type. induction k as [|k IH]; [reflexivity|]. cbn [scheme_iter term_iter]. rewrite IH. reflexivity. Qed.

  Lemma f90_corner : corner (a_ofZ arD 0) (a_ofZ arD 1) dims = first_cell arD dims.
  Proof using Type. unfold corner, first_cell. rewrite <- zeros_same. reflexivity. Qed.

  (** the increment of the program *)
  Lemma f90_term_value h dt d j a b u f : double_value (a_div arD uno (a_ofZ arD n)) h -> / 2 ^ 11 <= h <= 1 -> double_value dt d -> 0 <= d <= 111 / 1000 * h ->
    (j < 3)%nat -> double_value a u -> double_value b f -> 0 <= u <= 1 -> 0 <= f <= 1 ->
    double_value (f90_term arD dims o3 o3 dt j a b) (- f90_flow d h f u).
  Proof using H1 H2.
    intros Vh Rh Vd Rd Hj Va Vb Ru Rf. destruct (inv_h d h Rh Rd) as (H0 & (I1 & I2) & (C0 & C1)).
    assert (T53 : 10 + 2 ^ 12 <= 2 ^ 53) by (simpl; lra). pose proof (dv_fmt _ _ Vd) as Fd. pose proof (dv_fmt _ _ Va) as Fu. pose proof (dv_fmt _ _ Vb) as Ff.
    assert (Sd : nth j o3 (a_zero arD) = uno) by (destruct j as [|[|[|j]]]; [reflexivity..|lia]).
    assert (Sn : nth j dims 0%Z = n) by (destruct j as [|[|[|j]]]; [reflexivity..|lia]).
    assert (V1 : double_value uno 1) by exact (dv_ofZ 1 ltac:(reflexivity)).
    unfold f90_term, cell_size, axis_velocity. rewrite Sd, Sn. change (upwind_side arD uno) with (-1)%Z.
    destruct (diff_range f Ff u Fu Ru) as [D1 D2].
    assert (D3 : rnd64 (1 - f) <= 1) by (rewrite <- (rnd_fmt 1 fmt_1) at 2; apply rnd_le; lra).
    assert (HH : h * 1 = h) by ring.
    assert (D4 : d <= 1) by (assert (111 / 1000 * h <= 111 / 1000 * 1) by (apply Rmult_le_compat_l; lra); lra).
    assert (DX : Rabs (d * rnd64 (u - f)) <= d).
    { rewrite Rabs_mult, (Rabs_pos_eq d) by lra. rewrite <- (Rmult_1_r d) at 2. apply Rmult_le_compat_l; [lra|apply Rabs_le; lra]. }
    assert (PX : Rabs (rnd64 (d * rnd64 (u - f))) <= d).
    { apply Rabs_le_inv in DX. apply Rabs_le. split.
      - apply Rle_trans with (rnd64 (- d)); [rewrite rnd_fmt by (apply fmt_opp, Fd); lra|apply rnd_le; lra].
      - apply Rle_trans with (rnd64 d); [apply rnd_le; lra|rewrite rnd_fmt by exact Fd; lra]. }
    unfold f90_flow. rewrite <- rnd_opp. unfold Rdiv. rewrite Ropp_mult_distr_l. rewrite <- rnd_opp, Ropp_mult_distr_l.
    apply dv_div; [|exact Vh|lra|].
    - apply dv_mul.
      + replace (- d) with (rnd64 (d * - 1)) by (replace (d * - 1) with (- d) by ring; apply rnd_fmt, fmt_opp, Fd).
        apply dv_mul; [|exact dv_minus_one|apply Rabs_le; lra].
        replace d with (rnd64 (d * 1)) by (rewrite Rmult_1_r; apply rnd_fmt, Fd).
        apply dv_mul; [exact Vd|exact V1|apply Rabs_le; lra].
      + apply dv_sub; [exact Va|exact Vb|apply Rabs_le; lra].
      + rewrite <- Ropp_mult_distr_l, Rabs_Ropp. lra.
    - rewrite <- Ropp_mult_distr_l, rnd_opp. unfold Rdiv. rewrite <- Ropp_mult_distr_l, Rabs_Ropp, Rabs_mult, (Rabs_pos_eq (/ h)) by lra.
      apply Rle_trans with (d * / h); [apply Rmult_le_compat_r; lra|lra].
  Qed.

  (** The field after [k] steps: its values as real numbers *)
  Definition f90_values (d h : R) (k : nat) : list Z -> R :=
    flowed_iter dims (fun j => upwind_side arD (axis_velocity arD o3 j)) (fun _ => f90_flow d h) k start.
  Lemma f90_is k dt d h : double_value (a_div arD uno (a_ofZ arD n)) h -> / 2 ^ 11 <= h <= 1 -> double_value dt d -> 0 <= d <= 111 / 1000 * h ->
    field_is dims (scheme_iter arD k (f90_term arD dims o3 o3 dt) dims o3 (corner (a_ofZ arD 0) (a_ofZ arD 1) dims)) (f90_values d h k) /\
      (INR k <= 2 ^ 31 -> Rabs (total dims (f90_values d h k) - 1) <= 8 * INR k * eps).
  Proof using H1 H2.
    intros Vh Rh Vd Rd.
    destruct (inv_h d h Rh Rd) as (H0 & (I1 & I2) & (C0 & C1)).
    rewrite f90_iter, f90_corner. unfold f90_values. set (T := f90_term arD dims o3 o3 dt). set (sd := fun j => upwind_side arD (axis_velocity arD o3 j)).
    set (fl := fun (_ : nat) => f90_flow d h).
    assert (Hp : pos_axes dims) by exact (up_pos _ _ _ (driver_args n H1 H2)).
    assert (H3 : (List.length dims <= 3)%nat) by apply le_n.
    assert (HK : 0 <= 2 ^ 12 <= 2 ^ 20) by (simpl; lra).
    assert (Hc : forall j, (j < List.length dims)%nat -> - / 8 <= (fun _ : nat => - (d * / h)) j <= 0) by (intros j _; cbv beta; lra).
    assert (HT : forall j a b u f, (j < List.length dims)%nat -> double_value a u -> double_value b f -> 0 <= u <= 1 -> 0 <= f <= 1 -> double_value (T j a b) (- fl j f u)).
    { intros j a b u f Hj Va Vb Hu Hf. apply f90_term_value; auto. }
    split.
    - apply (flow_iter_field dims T sd fl (fun _ => - (d * / h)) (f90_low d h) (f90_up d h) (2 ^ 12) Hp H3 HK Hc HT); [..|exact (start_field n)].
      + intros f Ff Hf. apply f90_low_ok; assumption.
      + intros f Ff Hf. apply f90_up_ok; assumption.
      + intros j f u _ Ff Hf Fu Hu. apply f90_flow_ok; assumption.
      + intros j f u _ Ff Hf Fu Hu. apply f90_flow_error; assumption.
    - intros Hk. destruct (cells_number n H1 H2) as [N1 N2].
      apply (flow_iter_total dims T sd fl (fun _ => - (d * / h)) (f90_low d h) (f90_up d h) (2 ^ 12) Hp H3 HK Hc HT) with (G := first_cell arD dims);
        [..|exact (start_field n)|exact (start_total n H1 H2)|unfold dims; rewrite N1; exact N2|exact Hk].
      + intros f Ff Hf. apply f90_low_ok; assumption.
      + intros f Ff Hf. apply f90_up_ok; assumption.
      + intros j f u _ Ff Hf Fu Hu. apply f90_flow_ok; assumption.
      + intros j f u _ Ff Hf Fu Hu. apply f90_flow_error; assumption.
  Qed.

  Lemma f90_field k dt : fo_dt arD o3 o3 dims = Ok dt ->
    exists F, field_is dims (scheme_iter arD k (f90_term arD dims o3 o3 dt) dims o3 (corner (a_ofZ arD 0) (a_ofZ arD 1) dims)) F /\
      (INR k <= 2 ^ 31 -> Rabs (total dims F - 1) <= 8 * INR k * eps).
  Proof using H1 H2.
    intros Edt. destruct f90_dx as (h & Vh & Rh). destruct (f90_dt h Vh Rh) as (dt' & d & Edt' & Vd & Rd & _). rewrite Edt in Edt'. injection Edt' as <-.
    exists (f90_values d h k). apply f90_is; assumption.
  Qed.
End Program.
