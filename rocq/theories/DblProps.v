(** * The upwind benchmarks in IEEE double precision: properties C64, C65 *)
From Coq Require Import Reals ZArith Lia Lra Psatz Floats.SpecFloat List Permutation String.
From Flocq Require Import Core BinarySingleNaN.
From Verif Require Import Cpp CppProof MaiModel MaiSpec Radix MaiProof CmdModel CmdSpec CmdProof CmdProps CdModel CdSpec FilterModel FilterSpec FilterProof FilterSum RealArith LapSpec
  UpModel UpSpec UpProof UpExact UpProps AccModel AccSpec AccProof AccProps UpMpiProps DrvModel DrvSpec DrvProps Ieee Double DblSpec DblProof DblField.
From Coq Require Import List.
Import ListNotations.
Local Open Scope R_scope.
Local Arguments prodZ : simpl never.
Local Arguments Z.of_nat : simpl never.

(** ** One advection *)
Lemma unit_field dims G : unit_values (map G (cells dims)) -> field_is dims G (fun g => SF2R radix2 (G g)).
Proof.
  intros H g Hg. destruct (H (G g)) as (r & V & R); [apply in_map, in_cells, Hg|].
  destruct V as (V1 & V2 & V3). rewrite V3. split; [repeat split; assumption|exact R].
Qed.
Lemma field_unit dims G F : field_is dims G F -> unit_values (map G (cells dims)).
Proof. intros H x Hx. apply in_map_iff in Hx as (g & <- & Hg). exists (F g). apply H, in_cells, Hg. Qed.

Lemma upwind_coef n dims v lengths dt G :
  upwind_iter arD n dims v lengths dt G = coef_iter arD dims (courant arD dims v lengths dt) (fun j => upwind_side arD (axis_velocity arD v j)) n G.
Proof. induction n as [|n IH]; [reflexivity|]. cbn [upwind_iter coef_iter]. rewrite IH. reflexivity. Qed.
Lemma acc_coef n dims v lengths dt G :
  acc_iter arD n dims v lengths dt G = coef_iter arD dims (acc_courant arD dims v lengths dt) (fun j => upwind_side arD (axis_velocity arD v j)) n G.
Proof. induction n as [|n IH]; [reflexivity|]. cbn [acc_iter coef_iter]. rewrite IH. reflexivity. Qed.

Definition small_courant (dims : list Z) (C : nat -> spec_float) : Prop :=
  forall j, (j < List.length dims)%nat -> exists c, double_value (C j) c /\ - / 8 <= c <= 0.

Lemma small_values dims C : small_courant dims C ->
  forall j, (j < List.length dims)%nat -> double_value (C j) (SF2R radix2 (C j)) /\ - / 8 <= SF2R radix2 (C j) <= 0.
Proof. intros H j Hj. destruct (H j Hj) as (c & (V1 & V2 & V3) & R). rewrite V3. split; [repeat split; assumption|exact R]. Qed.

Lemma up_pos {D} dims (v lengths : list D) : up_args dims v lengths -> pos_axes dims.
Proof. intros ((_ & _ & H & _) & _). exact H. Qed.

(** C64: values between 0 and 1 stay between 0 and 1 in floating-point arithmetic, exactly *)
Theorem C64_upwind dims v lengths u dt n :
  up_args dims v lengths -> short_axes dims -> (List.length dims <= 3)%nat -> up_object arD dims v lengths u ->
  small_courant dims (courant arD dims v lengths dt) -> unit_values (up_f u) ->
  exists u', up_advect arD (vlen dims) u n dt = Ok u' /\ unit_values (up_f u').
Proof.
  intros Ha Hs H3 Hu HC HV. destruct (C42_every_field arD _ _ _ _ Ha Hu) as (G & HG).
  destruct (C42_advect arD _ _ _ _ G dt n Ha Hs Hu HG) as (u' & E & _ & Hh). exists u'. split; [exact E|].
  unfold holds in *. rewrite Hh, upwind_coef. eapply field_unit. apply iter_field; [exact (up_pos _ _ _ Ha)|exact H3|exact (small_values _ _ HC)|].
  apply unit_field. rewrite <- HG. exact HV.
Qed.
Print Assumptions C64_upwind.

Theorem C64_upwindAcc ver dims v lengths a dt n :
  acc_args dims v lengths -> shorter_axes dims -> acc_object arD (has_old ver) dims v lengths a ->
  small_courant dims (acc_courant arD dims v lengths dt) -> unit_values (ac_f a) ->
  exists a', acc_run arD ver a n dt = Ok a' /\ unit_values (ac_f a').
Proof.
  intros Ha Hs Ho HC HV. pose proof Ho as (a0 & f & old & _ & Lf & _ & Ea).
  destruct (field_exists arD dims f (proj1 (proj1 Ha)) Lf) as (G & HG).
  assert (HG' : acc_holds a dims G) by (rewrite Ea; exact HG).
  destruct (C48_formula arD ver _ _ _ _ _ dt n Ha Hs Ho HG') as (a' & E & _ & Hh). exists a'. split; [exact E|].
  unfold acc_holds in *. rewrite Hh, acc_coef. destruct Ha as [Ha H3]. eapply field_unit.
  apply iter_field; [exact (up_pos _ _ _ Ha)|rewrite H3; apply le_n|exact (small_values _ _ HC)|].
  apply unit_field. rewrite <- HG'. exact HV.
Qed.
Print Assumptions C64_upwindAcc.

(** ** The numbers of the driver *)
Notation one := (a_dec arD 10 1).
Lemma dv_one : double_value one 1.
Proof.
  pose proof (dv_div _ _ _ _ (dv_ofZ 10 ltac:(reflexivity)) (dv_ofZ 10 ltac:(reflexivity)) ltac:(lra)) as H.
  replace (10 / 10) with 1 in H by lra. rewrite (rnd_fmt 1 fmt_1) in H. apply H. rewrite Rabs_R1. simpl. lra.
Qed.
Lemma dv_zero : double_value (a_dec arD 0 1) 0.
Proof.
  pose proof (dv_div _ _ _ _ (dv_ofZ 0 ltac:(reflexivity)) (dv_ofZ 10 ltac:(reflexivity)) ltac:(lra)) as H.
  replace (0 / 10) with 0 in H by lra. rewrite rnd_0 in H. apply H. rewrite Rabs_R0. simpl. lra.
Qed.
Lemma dv_tenth : exists t, double_value (a_dec arD 1 1) t /\ / 11 <= t <= 11 / 100.
Proof.
  exists (rnd64 (1 / 10)). split.
  - apply (dv_div _ _ _ _ (dv_ofZ 1 ltac:(reflexivity)) (dv_ofZ 10 ltac:(reflexivity))); [lra|]. rewrite Rabs_pos_eq by lra. simpl. lra.
  - pose proof (rnd_error (1 / 10)) as E. apply Rabs_le_inv in E. rewrite Rabs_pos_eq in E by lra. pose proof eps_small. pose proof eta_tiny.
    assert (eps * eps * eps <= eps) by nra. lra.
Qed.

Lemma one_side : upwind_side arD one = (-1)%Z.
Proof. vm_compute. reflexivity. Qed.

Lemma dv_max : exists M, double_value dbl_max M /\ 1 < M.
Proof.
  exists (SF2R radix2 dbl_max). split; [split; [reflexivity|split; reflexivity]|]. unfold dbl_max. cbn [SF2R cond_Zopp]. unfold F2R. cbn [Fnum Fexp].
  apply Rlt_le_trans with (IZR 2 * 1); [lra|]. apply Rmult_le_compat; [lra|lra|apply IZR_le; discriminate|].
  change 1 with (bpow radix2 0). apply bpow_le. discriminate.
Qed.

Section Driver.
  Variable n : Z.
  Hypotheses (H1 : (1 <= n)%Z) (H2 : (n * n * n < 2 ^ 31)%Z).

  Lemma n_small : (n < 2 ^ 30)%Z.
  Proof. nia. Qed.

  Lemma dv_dx : exists h, double_value (a_div arD one (a_ofZ arD n)) h /\ / 2 ^ 30 <= h <= 1.
  Proof.
    pose proof n_small as Hn. exists (rnd64 (1 / IZR n)).
    assert (N1 : 1 <= IZR n) by (apply IZR_le; exact H1). assert (N2 : IZR n <= 2 ^ 30) by (rewrite pow_IZR; apply IZR_le; lia).
    assert (Q1 : 1 / IZR n <= 1) by (apply Rmult_le_reg_r with (IZR n); [lra|]; unfold Rdiv; rewrite Rmult_assoc, Rinv_l by lra; lra).
    assert (Q2 : / 2 ^ 30 <= 1 / IZR n) by (unfold Rdiv; rewrite Rmult_1_l; apply Rinv_le; lra).
    assert (Q0 : 0 < / 2 ^ 30) by (apply Rinv_0_lt_compat, pow_lt; lra).
    split; [|split].
    - apply dv_div; [exact dv_one|apply dv_ofZ; lia|lra|]. rewrite Rabs_pos_eq by lra. simpl. lra.
    - assert (F30 : fmt (/ 2 ^ 30)).
      { replace (/ 2 ^ 30) with (bpow radix2 (-30)) by (rewrite bpow_powerRZ; reflexivity). apply generic_format_bpow. vm_compute. discriminate. }
      rewrite <- (rnd_fmt _ F30). apply rnd_le. exact Q2.
    - rewrite <- (rnd_fmt 1 fmt_1). apply rnd_le. rewrite (rnd_fmt 1 fmt_1). exact Q1.
  Qed.

  (** The time step of the driver *)
  Lemma dv_dt h : double_value (a_div arD one (a_ofZ arD n)) h -> / 2 ^ 30 <= h <= 1 ->
    exists dt d, up_dt arD [one; one; one] [one; one; one] [n; n; n] = Ok dt /\ double_value dt d /\ 0 <= d <= 111 / 1000 * h.
  Proof.
    intros Vh Rh. destruct dv_tenth as (t & Vt & Rt). pose proof eps_small as E. pose proof eta_tiny as T.
    assert (Q0 : 0 < / 2 ^ 30) by (apply Rinv_0_lt_compat, pow_lt; lra).
    assert (T53 : 10 <= 2 ^ 53) by (simpl; lra).
    assert (P : 0 <= t * h <= 11 / 100 * h) by (split; [apply Rmult_le_pos; lra|apply Rmult_le_compat_r; lra]).
    set (d := rnd64 (t * h)).
    assert (Hd : 0 <= d <= 111 / 1000 * h).
    { split; [apply rnd_nn; lra|]. pose proof (rnd_error (t * h)) as R1. apply Rabs_le_inv in R1. rewrite Rabs_pos_eq in R1 by lra. fold d in R1.
      assert (eps * (t * h) <= / 1000000 * (t * h)) by (apply Rmult_le_compat_r; lra).
      assert (eta <= / 10000 * h).
      { apply Rle_trans with (/ 1000000 * (/ 1000000 * / 2 ^ 30)); [|simpl in Rh |- *; lra].
        apply Rle_trans with (eps * (eps * eps)); [lra|]. apply Rmult_le_compat; try lra; [apply Rmult_le_pos; lra|].
        apply Rmult_le_compat; try lra. unfold eps. apply Rinv_le; [apply pow_lt; lra|]. apply Rle_pow; [lra|lia]. }
      lra. }
    assert (V : double_value (a_div arD (a_mul arD (a_dec arD 1 1) (a_div arD one (a_ofZ arD n))) one) d).
    { replace d with (rnd64 (d / 1)) by (unfold Rdiv; rewrite Rinv_1, Rmult_1_r; apply rnd_fmt, rnd_is_fmt).
      apply dv_div; [|exact dv_one|lra|unfold Rdiv; rewrite Rinv_1, Rmult_1_r, Rabs_pos_eq; lra].
      apply dv_mul; [exact Vt|exact Vh|rewrite Rabs_pos_eq; lra]. }
    set (val := a_div arD (a_mul arD (a_dec arD 1 1) (a_div arD one (a_ofZ arD n))) one) in *.
    exists val, d. split; [|split; assumption].
    destruct dv_max as (M & VM & RM).
    assert (L1 : a_lt arD val (a_max arD) = true) by (change (a_max arD) with dbl_max; rewrite (dv_lt _ _ _ _ V VM); apply Rlt_bool_true; lra).
    assert (L2 : a_lt arD val val = false) by (rewrite (dv_lt _ _ _ _ V V); apply Rlt_bool_false; lra).
    unfold up_dt. change (vlen [one; one; one]) with 3%Z. unfold for_upto. change (Z.to_nat 3) with 3%nat. cbn [for_from].
    change (Z.of_nat 0) with 0%Z. change (Z.of_nat 1) with 1%Z. change (Z.of_nat 2) with 2%Z.
    repeat (change (vget [one; one; one] ?k) with (Ok one); change (vget [n; n; n] ?k) with (Ok n); cbn [bind]).
    fold val. rewrite L1, L2. rewrite L2. reflexivity.
  Qed.

  Let dims := [n; n; n].
  Let o3 := [one; one; one].

  Lemma eighth : fmt (- / 8) /\ fmt (/ 8).
  Proof.
    assert (F : fmt (/ 8)) by (replace (/ 8) with (bpow radix2 (-3)) by (simpl; lra); apply generic_format_bpow; vm_compute; discriminate).
    split; [apply fmt_opp|]; exact F.
  Qed.
  Lemma rnd_coef x : - / 8 <= x <= 0 -> - / 8 <= rnd64 x <= 0.
  Proof.
    intros H. destruct eighth as [F _]. split.
    - pose proof (rnd_le _ _ (proj1 H)) as L. rewrite (rnd_fmt _ F) in L. exact L.
    - pose proof (rnd_le _ _ (proj2 H)) as L. rewrite rnd_0 in L. exact L.
  Qed.

  Lemma dv_minus_one : double_value (a_ofZ arD (-1)) (- 1).
  Proof. exact (dv_ofZ (-1) ltac:(reflexivity)). Qed.

  Lemma driver_dt : exists dt, up_dt arD o3 o3 dims = Ok dt /\ small_courant dims (courant arD dims o3 o3 dt) /\
    small_courant dims (acc_courant arD dims o3 o3 dt).
  Proof using H1 H2.
    destruct dv_dx as (h & Vh & Rh). destruct (dv_dt h Vh Rh) as (dt & d & E & Vd & Rd). exists dt. split; [exact E|].
    pose proof (dv_fmt _ _ Vd) as Fd. pose proof eps_small as Ee. pose proof eta_tiny as Te.
    assert (Q0 : 0 < / 2 ^ 30) by (apply Rinv_0_lt_compat, pow_lt; lra).
    assert (Hh : 0 < h) by lra. assert (Ih : 0 < / h) by (apply Rinv_0_lt_compat; exact Hh).
    assert (Ih30 : / h <= 2 ^ 30) by (rewrite <- (Rinv_inv (2 ^ 30)); apply Rinv_le; lra).
    assert (T53 : 10 + 2 ^ 30 <= 2 ^ 53) by (simpl; lra).
    assert (Dh : d * / h <= 111 / 1000).
    { apply Rle_trans with (111 / 1000 * h * / h); [apply Rmult_le_compat_r; lra|]. rewrite Rmult_assoc, Rinv_r by lra. lra. }
    assert (Dh0 : 0 <= d * / h) by (apply Rmult_le_pos; lra).
    assert (Sd : forall j, (j < 3)%nat -> nth j o3 (a_zero arD) = one) by (intros [|[|[|j]]] Hj; [reflexivity..|lia]).
    assert (Sn : forall j, (j < 3)%nat -> nth j dims 0%Z = n) by (intros [|[|[|j]]] Hj; [reflexivity..|lia]).
    split; intros j Hj; change (List.length dims) with 3%nat in Hj.
    - unfold courant, cell_size, axis_velocity. rewrite (Sd j Hj), (Sn j Hj), one_side.
      exists (rnd64 (- d / h)). split; [|apply rnd_coef; unfold Rdiv; lra].
      apply dv_div; [|exact Vh|lra|unfold Rdiv; apply Rabs_le; lra].
      replace (- d) with (rnd64 (d * - 1)) by (replace (d * - 1) with (- d) by ring; apply rnd_fmt, fmt_opp, Fd).
      apply dv_mul; [|exact dv_minus_one|apply Rabs_le; lra].
      replace d with (rnd64 (d * 1)) by (rewrite Rmult_1_r; apply rnd_fmt, Fd).
      apply dv_mul; [exact Vd|exact dv_one|apply Rabs_le; lra].
    - unfold acc_courant, cell_size, axis_velocity. rewrite (Sd j Hj), (Sn j Hj), one_side.
      set (w := rnd64 (- 1 / h)).
      assert (Vw : double_value (a_div arD (a_mul arD one (a_ofZ arD (-1))) (a_div arD one (a_ofZ arD n))) w).
      { apply dv_div; [|exact Vh|lra|unfold Rdiv; apply Rabs_le; lra].
        replace (- 1) with (rnd64 (1 * - 1)) by (rewrite Rmult_1_l; apply rnd_fmt, (fmt_opp 1), fmt_1).
        apply dv_mul; [exact dv_one|exact dv_minus_one|apply Rabs_le; lra]. }
      assert (Rw : - (112 / 111 * / h) <= w <= 0).
      { unfold w. replace (- 1 / h) with (- / h) by (unfold Rdiv; ring). rewrite rnd_opp. pose proof (rnd_nn (/ h) ltac:(lra)).
        pose proof (rnd_error (/ h)) as R1. apply Rabs_le_inv in R1. rewrite Rabs_pos_eq in R1 by lra.
        assert (eps * / h <= / 1000000 * / h) by (apply Rmult_le_compat_r; lra).
        assert (1 <= / h) by (rewrite <- Rinv_1; apply Rinv_le; lra). assert (eps * eps * eps <= / 1000000) by nra. lra. }
      assert (P : - (112 / 1000) <= d * w <= 0).
      { split; [|assert (0 <= d * - w) by (apply Rmult_le_pos; lra); lra].
        assert (d * - w <= d * (112 / 111 * / h)) by (apply Rmult_le_compat_l; lra). lra. }
      exists (rnd64 (d * w)). split; [|apply rnd_coef; lra].
      apply dv_mul; [exact Vd|exact Vw|apply Rabs_le; lra].
  Qed.

  Lemma driver_args : up_args dims o3 o3.
  Proof using H1 H2.
    repeat split; try discriminate; try reflexivity.
    - intros [|[|[|j]]] Hj; simpl in *; lia.
    - unfold dims. rewrite !prodZ_cons. change (prodZ []) with 1%Z. lia.
  Qed.

  (** The initial field *)
  Definition start (g : list Z) : R := if list_eq_dec Z.eq_dec g (repeat 0%Z 3) then 1 else 0.
  Lemma start_field : field_is dims (first_cell arD dims) start.
  Proof using Type.
    intros g _. unfold first_cell, start. change (List.length dims) with 3%nat. destruct (list_eq_dec _ _ _).
    - split; [exact (dv_ofZ 1 ltac:(reflexivity))|lra].
    - split; [exact dv_zero|lra].
  Qed.
  Lemma start_total : total dims start = 1.
  Proof using H1 H2.
    unfold total. assert (Hin : In (repeat 0%Z 3) (cells dims)).
    { apply in_cells, in_grid_nth. split; [reflexivity|]. intros [|[|[|j]]] Hj; simpl in *; lia. }
    assert (Nd : NoDup (cells dims)) by apply NoDup_row_major.
    revert Hin Nd. generalize (cells dims) as l. unfold rsum.
    assert (Z0 : forall l, ~ In (repeat 0%Z 3) l -> fold_right Rplus 0 (map start l) = 0).
    { induction l as [|g l IH]; intros Hl; [reflexivity|]. cbn [map fold_right]. unfold start at 1.
      destruct (list_eq_dec _ _ _) as [->|_]; [exfalso; apply Hl; left; reflexivity|]. rewrite IH by (intros Hi; apply Hl; right; exact Hi). lra. }
    induction l as [|g l IH]; intros Hin Nd; [destruct Hin|]. inversion Nd; subst. cbn [map fold_right]. unfold start at 1.
    destruct (list_eq_dec _ _ _) as [->|Hne]; [rewrite Z0 by assumption; lra|]. destruct Hin as [->|Hin]; [exfalso; apply Hne; reflexivity|].
    rewrite IH by assumption. lra.
  Qed.

  Lemma cells_number : INR (List.length (cells dims)) = IZR (n * n * n) /\ IZR (n * n * n) <= 2 ^ 31.
  Proof using H1 H2.
    split.
    - rewrite INR_IZR_INZ. f_equal. pose proof (cells_vlen (fun _ => tt) dims (proj1 driver_args)) as L. unfold vlen in L. rewrite map_length in L.
      rewrite L. unfold dims. rewrite !prodZ_cons. change (prodZ []) with 1%Z. ring.
    - rewrite pow_IZR. apply IZR_le. change (2 ^ Z.of_nat 31)%Z with (2 ^ 31)%Z. lia.
  Qed.

  (** The check sum of the field after [k] steps with small coefficients *)
  Lemma check_unit C sd k f : small_courant dims C -> f = map (coef_iter arD dims C sd k (first_cell arD dims)) (cells dims) -> unit_values f.
  Proof using H1 H2.
    intros HC ->. eapply field_unit. apply (iter_field dims C sd (fun j => SF2R radix2 (C j)) (up_pos _ _ _ driver_args)); [apply le_n|exact (small_values _ _ HC)|exact start_field].
  Qed.

  Lemma check_sum C sd k f : small_courant dims C -> INR k <= 2 ^ 31 -> f = map (coef_iter arD dims C sd k (first_cell arD dims)) (cells dims) ->
    exists s, double_value (fold_left (a_add arD) f (a_dec arD 0 1)) s /\
    Rabs (s - 1) <= (7 * INR k + 12 / 10 * IZR (n * n * n)) / 2 ^ 53.
  Proof using H1 H2.
    intros HC Hk ->. pose proof (up_pos _ _ _ driver_args) as Hp. pose proof (small_values _ _ HC) as HC'.
    set (c := fun j => SF2R radix2 (C j)) in *. destruct cells_number as [N1 N2].
    assert (L3 : (List.length dims <= 3)%nat) by apply le_n.
    pose proof (iter_field dims C sd c Hp L3 HC' k _ _ start_field) as HF.
    pose proof (iter_total dims C sd c Hp L3 HC' k _ _ start_field start_total ltac:(rewrite N1; exact N2) Hk) as HT.
    set (G := coef_iter arD dims C sd k (first_cell arD dims)) in *. set (F := rounded_iter dims sd c k start) in *.
    pose proof eps_small as E. pose proof eta_tiny as T. pose proof (pos_INR k) as K0.
    assert (T31 : 2 ^ 31 * eps <= / 1000000) by (unfold eps; simpl; lra).
    assert (Ke : INR k * eps <= / 1000000) by (apply Rle_trans with (2 ^ 31 * eps); [apply Rmult_le_compat_r; lra|exact T31]).
    assert (FA : Forall2 (fun x y => double_value x y /\ 0 <= y) (map G (cells dims)) (map F (cells dims))).
    { assert (HG : forall g, In g (cells dims) -> double_value (G g) (F g) /\ 0 <= F g) by (intros g Hg; destruct (HF g) as [V R]; [apply in_cells, Hg|]; split; [exact V|lra]).
      revert HG. generalize (cells dims) as l. induction l as [|g l IH]; intros HG; constructor; [apply HG; left; reflexivity|]. apply IH. intros g' Hg'. apply HG. right. exact Hg'. }
    apply Rabs_le_inv in HT as HT'. 
    destruct (sum_double _ _ _ 0 (total dims F) 0 FA dv_zero ltac:(lra) ltac:(unfold total; lra) ltac:(lra)) as (s & Vs & _ & Hs).
    - unfold total. rewrite Rminus_eq_0, Rminus_0_r, Rabs_R0. simpl INR. lra.
    - rewrite map_length. simpl Nat.add. rewrite N1. exact N2.
    - exists s. split; [exact Vs|]. rewrite map_length in Hs. simpl Nat.add in Hs. rewrite N1 in Hs. set (N := IZR (n * n * n)) in *.
      assert (N0 : 0 <= N) by (rewrite <- N1; apply pos_INR).
      replace (s - 1) with ((s - total dims F) + (total dims F - 1)) by ring. eapply Rle_trans; [apply Rabs_triang|].
      assert (D : 11 / 10 * eps * total dims F + 2 * eta <= 12 / 10 * eps).
      { assert (eps * total dims F <= eps * (1 + / 100000)) by (apply Rmult_le_compat_l; lra).
        assert (eps * eps * eps <= / 1000 * eps) by nra. lra. }
      assert (N * (11 / 10 * eps * total dims F + 2 * eta) <= N * (12 / 10 * eps)) by (apply Rmult_le_compat_l; lra).
      unfold Rdiv at 1. change (/ 2 ^ 53) with eps. lra.
  Qed.
End Driver.

(** Steps that are not too many *)
Lemma steps_bound steps : (steps < 2 ^ 31)%Z -> INR (Z.to_nat steps) <= 2 ^ 31.
Proof. intros H. rewrite INR_IZR_INZ, pow_IZR. apply IZR_le. change (2 ^ Z.of_nat 31)%Z with (2 ^ 31)%Z. lia. Qed.

Lemma cube_cells {A} n (G : list Z -> A) : (1 <= n)%Z -> (n * n * n < 2 ^ 31)%Z -> vlen (map G (cells [n; n; n])) = (n * n * n)%Z.
Proof. intros H1 H2. rewrite cells_vlen by apply (driver_args n H1 H2). rewrite !prodZ_cons. change (prodZ []) with 1%Z. ring. Qed.

(** The whole program upwind, after the command line has been read *)
Theorem C64_upwind_driver dsqrt n steps doVtk doStd : (1 <= n)%Z -> (n * n * n < 2 ^ 31)%Z ->
  exists r, up_body arD dsqrt n steps doVtk doStd = Ok r /\ vlen (up_f (ur_up r)) = (n * n * n)%Z /\ unit_values (up_f (ur_up r)).
Proof.
  intros H1 H2. destruct (C42_driver arD dsqrt n steps doVtk doStd ltac:(lia) H2) as (r & dt & E & Edt & Ef & Es).
  exists r. split; [exact E|]. destruct (driver_dt n H1 H2) as (dt' & Edt' & HC & _). rewrite Edt in Edt'. inversion Edt'; subst dt'.
  split; [rewrite Ef; apply cube_cells; assumption|]. rewrite upwind_coef in Ef. exact (check_unit n H1 H2 _ _ _ _ HC Ef).
Qed.
Print Assumptions C64_upwind_driver.

(** C65: the check sum in double precision *)
Theorem C65_upwind_driver dsqrt n steps doVtk doStd : (1 <= n)%Z -> (n * n * n < 2 ^ 31)%Z -> (0 <= steps < 2 ^ 31)%Z ->
  exists r s, up_body arD dsqrt n steps doVtk doStd = Ok r /\ double_value (ur_sum r) s /\
    Rabs (s - 1) <= (7 * IZR steps + 12 / 10 * IZR (n * n * n)) / 2 ^ 53.
Proof.
  intros H1 H2 H4. destruct (C42_driver arD dsqrt n steps doVtk doStd ltac:(lia) H2) as (r & dt & E & Edt & Ef & Es).
  destruct (driver_dt n H1 H2) as (dt' & Edt' & HC & _). rewrite Edt in Edt'. inversion Edt'; subst dt'.
  rewrite upwind_coef in Ef. destruct (check_sum n H1 H2 _ _ _ _ HC (steps_bound steps ltac:(lia)) Ef) as (s & Vs & B).
  exists r, s. split; [exact E|]. split; [rewrite Es; exact Vs|]. rewrite INR_IZR_INZ, Z2Nat.id in B by lia. exact B.
Qed.
Print Assumptions C65_upwind_driver.

(** ** The accelerator versions *)
Theorem C48_driver_field {D} (ar : arith D) ver dsqrt n steps doVtk doStd : (1 <= n)%Z -> (n * n * n < 2 ^ 31)%Z ->
  let o := a_dec ar 10 1 in
  exists a s d t dt, acc_body ar ver dsqrt n steps doVtk doStd = Ok (a, s, d, t) /\ up_dt ar [o; o; o] [o; o; o] [n; n; n] = Ok dt /\
    ac_f a = map (acc_iter ar (Z.to_nat steps) [n; n; n] [o; o; o] [o; o; o] dt (first_cell ar [n; n; n])) (cells [n; n; n]) /\
    s = fold_left (a_add ar) (ac_f a) (a_dec ar 0 1).
Proof.
  intros H1 H2 o. assert (Hn : (n < 2 ^ 30)%Z) by nia.
  assert (Ep : prodZ [n; n; n] = (n * n * n)%Z) by (rewrite !prodZ_cons; change (prodZ []) with 1%Z; ring).
  set (o3 := [o; o; o]). set (dims := [n; n; n]).
  assert (Ha : up_args dims o3 o3).
  { repeat split; try discriminate; try reflexivity; [|unfold dims; rewrite Ep; exact H2]. intros [|[|[|j]]] Hj; simpl in *; lia. }
  assert (Hsh : shorter_axes dims) by (intros [|[|[|j]]] Hj; simpl in *; lia).
  destruct (C42_driver ar dsqrt n steps true true ltac:(lia) H2) as (r & dt & _ & Edt & _).
  destruct (C48_constructor ar (has_old ver) dims o3 o3 (conj Ha eq_refl)) as (a & Ea & Hoa & HGa).
  destruct (C48_formula ar ver _ _ _ _ _ dt steps (conj Ha eq_refl) Hsh Hoa HGa) as (a' & Ea' & Ho' & Hh').
  (* an object of class Upwind of upwind.cxx with the same field *)
  pose proof (of_object ar dims o3 o3 (acc_iter ar (Z.to_nat steps) dims o3 o3 dt (first_cell ar dims)) (repeat o (Z.to_nat (prodZ dims))) Ha) as Hu.
  match type of Hu with _ -> up_object _ _ _ _ ?w => set (u := w) in * end.
  specialize (Hu ltac:(unfold vlen; rewrite repeat_length; unfold dims; rewrite Ep; lia)).
  assert (Hhu : holds u dims (acc_iter ar (Z.to_nat steps) dims o3 o3 dt (first_cell ar dims))) by reflexivity.
  destruct (C48_same_output ar dsqrt _ _ _ _ a' u (conj Ha eq_refl) Hsh Ho' Hu ltac:(rewrite Hh', Hhu; reflexivity)) as (_ & Esd & Evtk).
  destruct (up_std_some ar dsqrt u) as (sd & Es); [rewrite Hhu, cells_vlen by apply Ha; unfold dims; rewrite Ep; exact H2|].
  destruct (C52_vtk ar _ _ _ u _ Ha ltac:(simpl; lia) Hu Hhu) as (fl & ? & ? & ? & ? & ? & ? & Efl & _). change (vlen dims) with 3%Z in Efl.
  rewrite Es in Esd. rewrite Efl in Evtk.
  exists a', (acc_checksum ar a'), (if (match ver with Acc1 => false | _ => doStd end) then Some sd else None), (if doVtk then Some fl else None), dt.
  split; [|split; [exact Edt|split; [exact Hh'|reflexivity]]].
  unfold acc_body. change (repeat n 3) with dims. fold o. change (repeat o 3) with o3. change (up_dt ar o3 o3 dims = Ok dt) in Edt. rewrite Edt. cbn [bind].
  fold (has_old ver). rewrite Ea. cbn [bind]. rewrite Ea'. cbn [bind]. rewrite Esd, Evtk. cbn [bind].
  destruct ver, doStd, doVtk; reflexivity.
Qed.
Print Assumptions C48_driver_field.

Theorem C64_upwindAcc_driver ver dsqrt n steps doVtk doStd : (1 <= n)%Z -> (n * n * n < 2 ^ 31)%Z ->
  exists a s d t, acc_body arD ver dsqrt n steps doVtk doStd = Ok (a, s, d, t) /\ vlen (ac_f a) = (n * n * n)%Z /\ unit_values (ac_f a).
Proof.
  intros H1 H2. destruct (C48_driver_field arD ver dsqrt n steps doVtk doStd H1 H2) as (a & s & d & t & dt & E & Edt & Ef & Es).
  exists a, s, d, t. split; [exact E|]. destruct (driver_dt n H1 H2) as (dt' & Edt' & _ & HC). rewrite Edt in Edt'. inversion Edt'; subst dt'.
  split; [rewrite Ef; apply cube_cells; assumption|]. rewrite acc_coef in Ef. exact (check_unit n H1 H2 _ _ _ _ HC Ef).
Qed.
Print Assumptions C64_upwindAcc_driver.

Theorem C65_upwindAcc_driver ver dsqrt n steps doVtk doStd : (1 <= n)%Z -> (n * n * n < 2 ^ 31)%Z -> (0 <= steps < 2 ^ 31)%Z ->
  exists a x d t s, acc_body arD ver dsqrt n steps doVtk doStd = Ok (a, x, d, t) /\ double_value x s /\
    Rabs (s - 1) <= (7 * IZR steps + 12 / 10 * IZR (n * n * n)) / 2 ^ 53.
Proof.
  intros H1 H2 H4. destruct (C48_driver_field arD ver dsqrt n steps doVtk doStd H1 H2) as (a & x & d & t & dt & E & Edt & Ef & Es).
  destruct (driver_dt n H1 H2) as (dt' & Edt' & _ & HC). rewrite Edt in Edt'. inversion Edt'; subst dt'.
  rewrite acc_coef in Ef. destruct (check_sum n H1 H2 _ _ _ _ HC (steps_bound steps ltac:(lia)) Ef) as (s & Vs & B).
  exists a, x, d, t, s. split; [exact E|]. split; [rewrite Es; exact Vs|]. rewrite INR_IZR_INZ, Z2Nat.id in B by lia. exact B.
Qed.
Print Assumptions C65_upwindAcc_driver.

(** Rounded to six decimals the check sum of either program is 1, whatever the grid, for up to two hundred million steps. *)
Theorem C65_six_decimals ver dsqrt n steps doVtk doStd : (1 <= n)%Z -> (n * n * n < 2 ^ 31)%Z -> (0 <= steps <= 2 * 10 ^ 8)%Z ->
  exists r s a x d t s', up_body arD dsqrt n steps doVtk doStd = Ok r /\ double_value (ur_sum r) s /\
    acc_body arD ver dsqrt n steps doVtk doStd = Ok (a, x, d, t) /\ double_value x s' /\
    Rabs (s - 1) < / 2000000 /\ Rabs (s' - 1) < / 2000000.
Proof.
  intros H1 H2 H4. destruct (C65_upwind_driver dsqrt n steps doVtk doStd H1 H2 ltac:(lia)) as (r & s & E & V & B).
  destruct (C65_upwindAcc_driver ver dsqrt n steps doVtk doStd H1 H2 ltac:(lia)) as (a & x & d & t & s' & E' & V' & B').
  exists r, s, a, x, d, t, s'. split; [exact E|]. split; [exact V|]. split; [exact E'|]. split; [exact V'|].
  assert (L : (7 * IZR steps + 12 / 10 * IZR (n * n * n)) / 2 ^ 53 < / 2000000).
  { assert (S2 : IZR steps <= 200000000) by (apply IZR_le; lia). assert (N2 : IZR (n * n * n) <= 2147483648) by (apply IZR_le; lia).
    unfold Rdiv. change (/ 2 ^ 53) with eps. apply Rle_lt_trans with ((7 * 200000000 + 12 / 10 * 2147483648) * eps).
    - apply Rmult_le_compat_r; [pose proof eps_small; lra|lra].
    - unfold eps. simpl. lra. }
  split; lra.
Qed.
Print Assumptions C65_six_decimals.

(** From the command line: upwind -numCells n -numSteps k *)
Theorem C65_upwind_program dsqrt atof exec n k : (1 <= n)%Z -> (n * n * n < 2 ^ 31)%Z -> (0 <= k <= 2 * 10 ^ 8)%Z ->
  exists r s, up_main arD dsqrt atof [exec; "-numCells"%string; decimal n; "-numSteps"%string; decimal k] = Ok (Some r) /\
    unit_values (up_f (ur_up r)) /\ double_value (ur_sum r) s /\ Rabs (s - 1) < / 2000000.
Proof.
  intros H1 H2 H4. assert (Hn : (- 2 ^ 31 <= n < 2 ^ 31)%Z) by nia.
  destruct (cmdline_numbers n k Hn ltac:(lia)) as (Hrd & I1 & I2 & Hk & Fh & Fv & Fs).
  destruct (C65_six_decimals Acc1 dsqrt n k false false H1 H2 H4) as (r & s & _ & _ & _ & _ & _ & Er & V & _ & _ & B & _).
  destruct (C64_upwind_driver dsqrt n k false false H1 H2) as (r' & Er' & _ & U). rewrite Er in Er'. inversion Er'; subst r'.
  exists r, s. destruct (C62_upwind arD dsqrt atof exec _ n k Hrd I1 I2) as (G & _).
  rewrite (G (conj Hk Fh)), Fv, Fs, Er. cbn [bind]. split; [reflexivity|]. split; [exact U|]. split; [exact V|exact B].
Qed.
Print Assumptions C65_upwind_program.

(** The check sum is not exactly 1: three cells along each axis, two steps *)
Theorem C65_exact_refuted : exists n steps r, up_body arD (fun x => x) n steps false false = Ok r /\
  ur_sum r = S754_finite false 4503599627370497 (-52) /\ ~ double_value (ur_sum r) 1.
Proof.
  exists 3%Z, 2%Z.
  assert (H : (r <- up_body arD (fun x => x) 3 2 false false ;; Ok (ur_sum r)) = Ok (S754_finite false 4503599627370497 (-52))) by (vm_compute; reflexivity).
  destruct (up_body arD (fun x => x) 3 2 false false) as [r|e]; [|discriminate]. cbn [bind] in H. injection H as E.
  exists r. split; [reflexivity|]. split; [exact E|]. intros (_ & _ & V). rewrite E in V. cbn [SF2R cond_Zopp] in V. unfold F2R in V. cbn [Fnum Fexp] in V.
  change (bpow radix2 (-52)) with (/ IZR (Z.pow_pos 2 52)) in V.
  assert (N0 : IZR (Z.pow_pos 2 52) <> 0) by (apply not_0_IZR; discriminate).
  assert (W : 4503599627370497 = IZR (Z.pow_pos 2 52)).
  { apply Rmult_eq_reg_r with (/ IZR (Z.pow_pos 2 52)); [|apply Rinv_neq_0_compat, N0]. rewrite Rinv_r by exact N0. exact V. }
  apply eq_IZR in W. discriminate.
Qed.
Print Assumptions C65_exact_refuted.

(** ** Examples *)

(** The hypotheses of C64_upwind: two axes, velocities of both signs, coefficients -1/16 and -1/8 computed. *)
Definition ex_dims := [2; 3]%Z.
Definition ex_v := [a_ofZ arD 1; a_ofZ arD (-2)].
Definition ex_len := [a_ofZ arD 2; a_ofZ arD 3].
Definition ex_dt := a_div arD (a_ofZ arD 1) (a_ofZ arD 16).

Example C64_example_coefficients : small_courant ex_dims (courant arD ex_dims ex_v ex_len ex_dt).
Proof.
  assert (B : forall e, bpow radix2 (e + 52) = 4503599627370496 * bpow radix2 e).
  { intros e. rewrite Z.add_comm, bpow_plus. f_equal. }
  assert (V : forall e, valid_binary 53 1024 (S754_finite true 4503599627370496 e) = true ->
    double_value (S754_finite true 4503599627370496 e) (- bpow radix2 (e + 52))).
  { intros e He. split; [exact He|]. split; [reflexivity|]. cbn [SF2R cond_Zopp]. unfold F2R. cbn [Fnum Fexp]. rewrite B. change (- (4503599627370496))%Z with (-4503599627370496)%Z. lra. }
  assert (R4 : - / 8 <= - bpow radix2 (-56 + 52) <= 0) by (simpl; lra).
  assert (R3 : - / 8 <= - bpow radix2 (-55 + 52) <= 0) by (simpl; lra).
  intros [|[|j]] Hj; [| |simpl in Hj; lia].
  - exists (- bpow radix2 (-56 + 52)). split; [|exact R4]. replace (courant arD ex_dims ex_v ex_len ex_dt 0) with (S754_finite true 4503599627370496 (-56)) by (vm_compute; reflexivity).
    apply V. reflexivity.
  - exists (- bpow radix2 (-55 + 52)). split; [|exact R3]. replace (courant arD ex_dims ex_v ex_len ex_dt 1) with (S754_finite true 4503599627370496 (-55)) by (vm_compute; reflexivity).
    apply V. reflexivity.
Qed.

Example C64_example : exists u u', up_new arD 2 ex_v ex_len ex_dims = Ok u /\ up_advect arD 2 u 5 ex_dt = Ok u' /\ unit_values (up_f u').
Proof.
  assert (Ha : up_args ex_dims ex_v ex_len).
  { repeat split; try discriminate; try reflexivity. intros [|[|j]] Hj; simpl in *; lia. }
  assert (Hs : short_axes ex_dims) by (intros [|[|j]] Hj; simpl in *; lia).
  destruct (C42_constructor arD _ _ _ Ha) as (u & Eu & Hu & HG).
  destruct (C64_upwind _ _ _ u ex_dt 5 Ha Hs ltac:(simpl; lia) Hu C64_example_coefficients) as (u' & E & U).
  - rewrite HG. intros x Hx. apply in_map_iff in Hx as (g & <- & _). unfold first_cell. destruct (list_eq_dec _ _ _).
    + exists 1. split; [exact (dv_ofZ 1 ltac:(reflexivity))|lra].
    + exists 0. split; [exact dv_zero|lra].
  - exists u, u'. auto.
Qed.

(** The default command line: 128 cells along each axis, 10 steps; the error of the check sum is below 3e-10. *)
Example C65_default : exists r s, up_body arD (fun x => x) 128 10 false false = Ok r /\ double_value (ur_sum r) s /\ Rabs (s - 1) < 3 / 10 ^ 10.
Proof.
  destruct (C65_upwind_driver (fun x => x) 128 10 false false ltac:(lia) ltac:(reflexivity) ltac:(lia)) as (r & s & E & V & B).
  exists r, s. split; [exact E|]. split; [exact V|]. eapply Rle_lt_trans; [exact B|]. simpl. lra.
Qed.
