(** * The double precision fields are close to those of exact arithmetic: property C95 *)
From Coq Require Import Reals ZArith Lia Lra Psatz Floats.SpecFloat List Permutation String.
From Flocq Require Import Core BinarySingleNaN.
From Verif Require Import Cpp CppProof MaiModel MaiSpec Radix MaiProof CmdModel CdModel CdSpec FilterModel FilterSpec FilterProof FilterSum RealArith LapSpec
  UpModel UpSpec UpProof UpExact UpProps AccModel AccSpec AccProof AccProps UpMpiProps WalkSumProps FourierProps DrvModel DrvSpec DrvProps Ieee Double DblSpec DblProof DblField DblProps RoundProof StdProof.
From Coq Require Import List.
Import ListNotations.
Local Open Scope R_scope.
Local Arguments prodZ : simpl never.
Local Arguments Z.of_nat : simpl never.

(** The values [f] are the doubles [F], and the sum over all cells of the distances to the numbers [H] is at most [b]. *)
Definition within (f : list spec_float) (H : list R) (b : R) : Prop :=
  exists F, Forall2 double_value f F /\ List.length F = List.length H /\ fold_right Rplus 0 (map (fun p => Rabs (fst p - snd p)) (combine F H)) <= b.

Lemma upwind_coefR n dims v lengths dt G :
  upwind_iter arR n dims v lengths dt G = coef_iter arR dims (courant arR dims v lengths dt) (fun j => upwind_side arR (axis_velocity arR v j)) n G.
Proof. induction n as [|n IH]; [reflexivity|]. cbn [upwind_iter coef_iter]. rewrite IH. reflexivity. Qed.
Lemma acc_coefR n dims v lengths dt G :
  acc_iter arR n dims v lengths dt G = coef_iter arR dims (acc_courant arR dims v lengths dt) (fun j => upwind_side arR (axis_velocity arR v j)) n G.
Proof. induction n as [|n IH]; [reflexivity|]. cbn [acc_iter coef_iter]. rewrite IH. reflexivity. Qed.

Lemma coef_iter_ext dims c e s t G H n : (forall j, (j < List.length dims)%nat -> c j = e j /\ s j = t j) -> (forall g, G g = H g) ->
  forall g, coef_iter arR dims c s n G g = coef_iter arR dims e t n H g.
Proof.
  intros Hc HG. induction n as [|n IH]; intros g; [apply HG|]. cbn [coef_iter]. unfold coef_formula. rewrite !IH.
  assert (P : forall l x, incl l (seq 0 (List.length dims)) ->
    fold_left (fun acc j => a_sub arR acc (a_mul arR (c j) (a_sub arR (coef_iter arR dims c s n G (neighbour dims g j (s j))) (coef_iter arR dims e t n H g)))) l x =
    fold_left (fun acc j => a_sub arR acc (a_mul arR (e j) (a_sub arR (coef_iter arR dims e t n H (neighbour dims g j (t j))) (coef_iter arR dims e t n H g)))) l x).
  { induction l as [|j l IHl]; intros x Hl; [reflexivity|]. cbn [fold_left]. destruct (Hc j) as [Ec Es]; [specialize (Hl j (or_introl eq_refl)); apply in_seq in Hl; lia|].
    rewrite Ec, Es, IH. apply IHl. intros y Hy. apply Hl. right. exact Hy. }
  apply P, incl_refl.
Qed.

Lemma within_cells dims G F H b : field_is dims G F -> gap dims F H <= b -> within (map G (cells dims)) (map H (cells dims)) b.
Proof.
  intros HF Hb. exists (map F (cells dims)). split; [|split; [rewrite !map_length; reflexivity|]].
  - assert (HG : forall g, In g (cells dims) -> double_value (G g) (F g)) by (intros g Hg; apply HF, in_cells, Hg).
    revert HG. generalize (cells dims) as l. induction l as [|g l IH]; intros HG; constructor; [apply HG; left; reflexivity|]. apply IH. intros g' Hg'. apply HG. right. exact Hg'.
  - eapply Rle_trans; [|exact Hb]. unfold gap, rsum. generalize (cells dims) as l. induction l as [|g l IH]; cbn [map combine fold_right fst snd]; lra.
Qed.

(** ** The coefficients of the driver *)
Lemma rnd_rel x : / 2 ^ 40 <= x <= 2 ^ 40 -> (1 - 101 / 100 * eps) * x <= rnd64 x <= (1 + 101 / 100 * eps) * x.
Proof.
  intros H. pose proof (rnd_error x) as E. assert (Q0 : 0 < / 2 ^ 40) by (apply Rinv_0_lt_compat, pow_lt; lra). rewrite (Rabs_pos_eq x) in E by lra. apply Rabs_le_inv in E.
  pose proof eps_small as Es. pose proof eta_tiny as T.
  assert (B : eta <= / 100 * eps * x).
  { apply Rle_trans with (/ 100 * eps * / 2 ^ 40); [|apply Rmult_le_compat_l; lra]. apply Rle_trans with (eps * (eps * eps)); [lra|].
    replace (/ 100 * eps * / 2 ^ 40) with (eps * (/ 100 * / 2 ^ 40)) by ring. apply Rmult_le_compat_l; [lra|].
    rewrite (Rmult_comm (/ 100)). apply Rmult_le_compat; try lra. unfold eps. apply Rinv_le; [apply pow_lt; lra|]. apply Rle_pow; [lra|lia]. }
  lra.
Qed.

(** products of factors close to one *)
Lemma rel_mul u a b x y : 0 <= u <= / 1000 -> 0 <= a <= 4 -> 0 <= x -> (1 - a * u) * y <= x <= (1 + a * u) * y -> 0 <= y ->
  (1 - u) * x <= b <= (1 + u) * x -> (1 - (a + 101 / 100) * u) * y <= b <= (1 + (a + 101 / 100) * u) * y.
Proof.
  intros Hu Ha Hx [X1 X2] Hy [B1 B2]. assert (U : 0 <= a * u <= 4 * u) by (split; [apply Rmult_le_pos; lra|apply Rmult_le_compat_r; lra]).
  assert (UU : 0 <= u * (a * u) <= / 1000 * (4 * u)) by (split; [apply Rmult_le_pos; lra|apply Rmult_le_compat; lra]).
  assert (P1 : (1 - u) * ((1 - a * u) * y) <= (1 - u) * x) by (apply Rmult_le_compat_l; lra).
  assert (P2 : (1 + u) * x <= (1 + u) * ((1 + a * u) * y)) by (apply Rmult_le_compat_l; lra).
  assert (Q1 : (1 - (a + 101 / 100) * u) * y <= ((1 - u) * (1 - a * u)) * y) by (apply Rmult_le_compat_r; lra).
  assert (Q2 : ((1 + u) * (1 + a * u)) * y <= (1 + (a + 101 / 100) * u) * y) by (apply Rmult_le_compat_r; lra).
  lra.
Qed.

Section Driver.
  Variable n : Z.
  Hypotheses (H1 : (1 <= n)%Z) (H2 : (n * n * n < 2 ^ 31)%Z).
  Let dims := [n; n; n].
  Let o3 := [one; one; one].

  Lemma driver_coefs : exists dt, up_dt arD o3 o3 dims = Ok dt /\
    (forall j, (j < 3)%nat -> exists c, double_value (courant arD dims o3 o3 dt j) c /\ - / 8 <= c <= 0 /\ Rabs (c - - / 10) <= 42 / 100 * eps) /\
    (forall j, (j < 3)%nat -> exists c, double_value (acc_courant arD dims o3 o3 dt j) c /\ - / 8 <= c <= 0 /\ Rabs (c - - / 10) <= 42 / 100 * eps).
  Proof using H1 H2.
    destruct (dv_dx n H1 H2) as (h & Vh & Rh). pose proof eps_small as E. pose proof eta_tiny as T.
    assert (Q0 : 0 < / 2 ^ 30) by (apply Rinv_0_lt_compat, pow_lt; lra).
    assert (T53 : 10 + 2 ^ 30 <= 2 ^ 53) by (simpl; lra). assert (T40 : 10 + 2 ^ 30 <= 2 ^ 40) by (simpl; lra).
    assert (I40 : / 2 ^ 40 <= / 100 * / 2 ^ 30 /\ / 2 ^ 40 <= / 100) by (simpl; lra).
    assert (Hh : 0 < h) by lra. assert (Ih : 0 < / h) by (apply Rinv_0_lt_compat; exact Hh).
    assert (Ih30 : / h <= 2 ^ 30) by (rewrite <- (Rinv_inv (2 ^ 30)); apply Rinv_le; lra).
    assert (Ih1 : 1 <= / h) by (rewrite <- Rinv_1; apply Rinv_le; lra).
    set (u := 101 / 100 * eps). assert (Hu : 0 <= u <= / 1000) by (unfold u; lra).
    set (t := rnd64 (1 / 10)).
    assert (Vt : double_value (a_dec arD 1 1) t).
    { apply (dv_div _ _ _ _ (dv_ofZ 1 ltac:(reflexivity)) (dv_ofZ 10 ltac:(reflexivity))); [lra|]. rewrite Rabs_pos_eq by lra. lra. }
    assert (Rt : (1 - 1 * u) * (1 / 10) <= t <= (1 + 1 * u) * (1 / 10)).
    { rewrite !Rmult_1_l. apply rnd_rel. lra. }
    set (d := rnd64 (t * h)).
    assert (P : / 20 * h <= t * h <= / 5 * h) by (split; apply Rmult_le_compat_r; lra).
    assert (Rd0 : (1 - u) * (t * h) <= d <= (1 + u) * (t * h)) by (apply rnd_rel; lra).
    assert (Rd : (1 - 201 / 100 * u) * (1 / 10 * h) <= d <= (1 + 201 / 100 * u) * (1 / 10 * h)).
    { replace (201 / 100) with (1 + 101 / 100) by lra. apply (rel_mul u 1 d (t * h) (1 / 10 * h)); try lra. split.
      - rewrite <- Rmult_assoc. apply Rmult_le_compat_r; lra.
      - rewrite <- Rmult_assoc. apply Rmult_le_compat_r; lra. }
    assert (D0 : / 40 * h <= d <= / 4 * h).
    { split; [apply Rle_trans with ((1 - 201 / 100 * u) * (1 / 10 * h)); [|apply Rd]|apply Rle_trans with ((1 + 201 / 100 * u) * (1 / 10 * h)); [apply Rd|]];
      rewrite <- Rmult_assoc; apply Rmult_le_compat_r; lra. }
    assert (V : double_value (a_div arD (a_mul arD (a_dec arD 1 1) (a_div arD one (a_ofZ arD n))) one) d).
    { replace d with (rnd64 (d / 1)) by (unfold Rdiv; rewrite Rinv_1, Rmult_1_r; apply rnd_fmt, rnd_is_fmt).
      apply dv_div; [|exact dv_one|lra|unfold Rdiv; rewrite Rinv_1, Rmult_1_r, Rabs_pos_eq; lra].
      apply dv_mul; [exact Vt|exact Vh|rewrite Rabs_pos_eq; lra]. }
    set (val := a_div arD (a_mul arD (a_dec arD 1 1) (a_div arD one (a_ofZ arD n))) one) in *.
    assert (Edt : up_dt arD o3 o3 dims = Ok val).
    { destruct dv_max as (M & VM & RM).
      assert (L1 : a_lt arD val (a_max arD) = true) by (change (a_max arD) with dbl_max; rewrite (dv_lt _ _ _ _ V VM); apply Rlt_bool_true; lra).
      assert (L2 : a_lt arD val val = false) by (rewrite (dv_lt _ _ _ _ V V); apply Rlt_bool_false; lra).
      unfold up_dt. change (vlen o3) with 3%Z. unfold for_upto. change (Z.to_nat 3) with 3%nat. cbn [for_from].
      change (Z.of_nat 0) with 0%Z. change (Z.of_nat 1) with 1%Z. change (Z.of_nat 2) with 2%Z.
      repeat (change (vget o3 ?k) with (Ok one); change (vget dims ?k) with (Ok n); cbn [bind]).
      fold val. rewrite L1, L2. rewrite L2. reflexivity. }
    exists val. split; [exact Edt|]. pose proof (dv_fmt _ _ V) as Fd.
    (* d / h *)
    assert (Rq : (1 - 201 / 100 * u) * (1 / 10) <= d * / h <= (1 + 201 / 100 * u) * (1 / 10)).
    { split.
      - apply Rle_trans with ((1 - 201 / 100 * u) * (1 / 10 * h) * / h); [|apply Rmult_le_compat_r; lra].
        replace ((1 - 201 / 100 * u) * (1 / 10 * h) * / h) with ((1 - 201 / 100 * u) * (1 / 10) * (h * / h)) by ring. rewrite Rinv_r by lra. lra.
      - apply Rle_trans with ((1 + 201 / 100 * u) * (1 / 10 * h) * / h); [apply Rmult_le_compat_r; lra|].
        replace ((1 + 201 / 100 * u) * (1 / 10 * h) * / h) with ((1 + 201 / 100 * u) * (1 / 10) * (h * / h)) by ring. rewrite Rinv_r by lra. lra. }
    assert (Sd : forall j, (j < 3)%nat -> nth j o3 (a_zero arD) = one) by (intros [|[|[|j]]] Hj; [reflexivity..|lia]).
    assert (Sn : forall j, (j < 3)%nat -> nth j dims 0%Z = n) by (intros [|[|[|j]]] Hj; [reflexivity..|lia]).
    split; intros j Hj.
    - unfold courant, cell_size, axis_velocity. rewrite (Sd j Hj), (Sn j Hj), one_side.
      exists (rnd64 (- d / h)).
      assert (Rc : (1 - (201 / 100 + 101 / 100) * u) * (1 / 10) <= rnd64 (d * / h) <= (1 + (201 / 100 + 101 / 100) * u) * (1 / 10)).
      { apply (rel_mul u (201 / 100) _ (d * / h) (1 / 10)); try lra. apply rnd_rel. lra. }
      replace (- d / h) with (- (d * / h)) by (unfold Rdiv; ring). rewrite rnd_opp. split; [|unfold u in *; split; [|apply Rabs_le]; lra].
      rewrite <- rnd_opp. replace (- (d * / h)) with (- d / h) by (unfold Rdiv; ring).
      apply dv_div; [|exact Vh|lra|unfold Rdiv; apply Rabs_le; lra].
      replace (- d) with (rnd64 (d * - 1)) by (replace (d * - 1) with (- d) by ring; apply rnd_fmt, fmt_opp, Fd).
      apply dv_mul; [|exact dv_minus_one|apply Rabs_le; lra].
      replace d with (rnd64 (d * 1)) by (rewrite Rmult_1_r; apply rnd_fmt, Fd).
      apply dv_mul; [exact V|exact dv_one|apply Rabs_le; lra].
    - unfold acc_courant, cell_size, axis_velocity. rewrite (Sd j Hj), (Sn j Hj), one_side.
      set (w := rnd64 (- 1 / h)).
      assert (Vw : double_value (a_div arD (a_mul arD one (a_ofZ arD (-1))) (a_div arD one (a_ofZ arD n))) w).
      { apply dv_div; [|exact Vh|lra|unfold Rdiv; apply Rabs_le; lra].
        replace (- 1) with (rnd64 (1 * - 1)) by (rewrite Rmult_1_l; apply rnd_fmt, (fmt_opp 1), fmt_1).
        apply dv_mul; [exact dv_one|exact dv_minus_one|apply Rabs_le; lra]. }
      assert (Ew : w = - rnd64 (/ h)) by (unfold w; rewrite <- rnd_opp; f_equal; unfold Rdiv; ring).
      set (w' := rnd64 (/ h)) in *.
      assert (Rw : (1 - u) * / h <= w' <= (1 + u) * / h) by (apply rnd_rel; lra).
      assert (W0 : 0 <= w') by (apply rnd_nn; lra).
      assert (Rp : (1 - (201 / 100 + 101 / 100) * u) * (1 / 10) <= d * w' <= (1 + (201 / 100 + 101 / 100) * u) * (1 / 10)).
      { apply (rel_mul u (201 / 100) _ (d * / h) (1 / 10)); try lra. split.
        - replace ((1 - u) * (d * / h)) with (d * ((1 - u) * / h)) by ring. apply Rmult_le_compat_l; lra.
        - replace ((1 + u) * (d * / h)) with (d * ((1 + u) * / h)) by ring. apply Rmult_le_compat_l; lra. }
      assert (Rc : (1 - (302 / 100 + 101 / 100) * u) * (1 / 10) <= rnd64 (d * w') <= (1 + (302 / 100 + 101 / 100) * u) * (1 / 10)).
      { apply (rel_mul u (302 / 100) _ (d * w') (1 / 10)); try lra. apply rnd_rel. lra. }
      exists (rnd64 (d * w)). replace (d * w) with (- (d * w')) by (rewrite Ew; ring). rewrite rnd_opp. split; [|unfold u in *; split; [|apply Rabs_le]; lra].
      rewrite <- rnd_opp. replace (- (d * w')) with (d * w) by (rewrite Ew; ring).
      apply dv_mul; [exact V|exact Vw|]. replace (d * w) with (- (d * w')) by (rewrite Ew; ring). apply Rabs_le. lra.
  Qed.
End Driver.

(** The field of the driver in exact arithmetic *)
Definition exact_field (n : Z) (k : nat) : list Z -> R := coef_iter arR [n; n; n] (fun _ => - / 10) (fun _ => (-1)%Z) k start.

Lemma exact_driver n steps doVtk doStd : (1 <= n)%Z -> (n * n * n < 2 ^ 31)%Z ->
  exists r, up_body arR sqrt n steps doVtk doStd = Ok r /\ up_f (ur_up r) = map (exact_field n (Z.to_nat steps)) (cells [n; n; n]).
Proof.
  intros H1 H2. destruct (C42_driver arR sqrt n steps doVtk doStd ltac:(lia) H2) as (r & dt & E & Edt & Ef & _). cbv zeta in *. exists r. split; [exact E|].
  rewrite Ef. apply map_ext. intros g. rewrite dec10R in *. rewrite up_dt_driver in Edt by nia. injection Edt as <-. rewrite upwind_coefR.
  assert (HnR : 1 <= IZR n) by (apply IZR_le; exact H1).
  apply coef_iter_ext.
  - intros j Hj. unfold courant, upwind_side, axis_velocity, cell_size.
    assert (Hj' : (j < 3)%nat) by exact Hj. destruct j as [|[|[|j]]]; [| | |lia]; cbn [nth]; cbn [arR a_lt a_dec a_ofZ a_div a_mul]; replace (0 / powerRZ 10 1) with 0 by (simpl; lra);
    (destruct (Rlt_dec 1 0); [lra|]); (split; [field; lra|reflexivity]).
  - intros h. unfold first_cell, start. change (List.length [n; n; n]) with 3%nat. destruct (list_eq_dec _ _ _); cbn [arR a_ofZ a_dec]; simpl; lra.
Qed.

Lemma close_field n C sd k : (1 <= n)%Z -> (n * n * n < 2 ^ 31)%Z -> INR k <= 2 ^ 31 -> (forall j, (j < 3)%nat -> sd j = (-1)%Z) ->
  (forall j, (j < 3)%nat -> exists c, double_value (C j) c /\ - / 8 <= c <= 0 /\ Rabs (c - - / 10) <= 42 / 100 * eps) ->
  exists F, field_is [n; n; n] (coef_iter arD [n; n; n] C sd k (first_cell arD [n; n; n])) F /\ gap [n; n; n] F (exact_field n k) <= 9 * INR k * eps.
Proof.
  intros H1 H2 Hk Hs HC. set (dims := [n; n; n]). pose proof (up_pos _ _ _ (driver_args n H1 H2)) as Hp. fold dims in Hp. destruct (cells_number n H1 H2) as [N1 N2].
  set (c := fun j => SF2R radix2 (C j)).
  assert (HV : forall j, (j < List.length dims)%nat -> double_value (C j) (c j) /\ - / 8 <= c j <= 0).
  { intros j Hj. destruct (HC j Hj) as (x & (V1 & V2 & V3) & R & _). unfold c. rewrite V3. split; [repeat split; assumption|exact R]. }
  assert (HE : forall j, (j < List.length dims)%nat -> - / 8 <= - / 10 <= 0 /\ Rabs (c j - - / 10) <= 42 / 100 * eps).
  { intros j Hj. destruct (HC j Hj) as (x & (V1 & V2 & V3) & _ & R). unfold c. rewrite V3. split; [lra|exact R]. }
  assert (K0 : 0 <= 42 / 100 * eps) by (pose proof eps_small; lra).
  exists (rounded_iter dims sd c k start). split; [apply iter_field; [exact Hp|apply le_n|exact HV|exact (start_field n)]|].
  pose proof (iter_gap dims C sd c (fun _ => - / 10) (42 / 100 * eps) Hp (le_n 3) K0 HV HE k _ _ (start_field n) (start_total n H1 H2)
    ltac:(fold dims in N1; rewrite N1; exact N2) Hk (Rle_refl _)) as G.
  replace (gap dims (rounded_iter dims sd c k start) (exact_field n k)) with (gap dims (rounded_iter dims sd c k start) (coef_iter arR dims (fun _ => - / 10) sd k start)); [exact G|].
  unfold gap. f_equal. apply map_ext. intros g. f_equal. f_equal. apply coef_iter_ext; [|reflexivity]. intros j Hj. split; [reflexivity|exact (Hs j Hj)].
Qed.

(** C95: the program upwind in double precision and in exact arithmetic *)
Theorem C95_upwind dsqrt n steps doVtk doStd : (1 <= n)%Z -> (n * n * n < 2 ^ 31)%Z -> (0 <= steps < 2 ^ 31)%Z ->
  exists r r', up_body arD dsqrt n steps doVtk doStd = Ok r /\ up_body arR sqrt n steps doVtk doStd = Ok r' /\
    within (up_f (ur_up r)) (up_f (ur_up r')) (9 * IZR steps / 2 ^ 53).
Proof.
  intros H1 H2 H4. destruct (C42_driver arD dsqrt n steps doVtk doStd ltac:(lia) H2) as (r & dt & E & Edt & Ef & _). cbv zeta in *.
  destruct (driver_coefs n H1 H2) as (dt' & Edt' & HC & _). rewrite Edt in Edt'. injection Edt' as <-.
  destruct (exact_driver n steps doVtk doStd H1 H2) as (r' & E' & Ef'). exists r, r'. split; [exact E|]. split; [exact E'|].
  rewrite upwind_coef in Ef.
  destruct (close_field n _ (fun j => upwind_side arD (axis_velocity arD [one; one; one] j)) (Z.to_nat steps) H1 H2 (steps_bound steps ltac:(lia))
    ltac:(intros [|[|[|j]]] Hj; [exact one_side..|lia]) HC) as (F & HF & G).
  rewrite Ef, Ef'. apply (within_cells _ _ F); [exact HF|]. eapply Rle_trans; [exact G|]. rewrite INR_IZR_INZ, Z2Nat.id by lia. apply Rle_refl.
Qed.
Print Assumptions C95_upwind.

(** The accelerator versions, which divide the velocities by the cell sizes first, against the same exact numbers. *)
Theorem C95_upwindAcc ver dsqrt n steps doVtk doStd : (1 <= n)%Z -> (n * n * n < 2 ^ 31)%Z -> (0 <= steps < 2 ^ 31)%Z ->
  exists a s d t r', acc_body arD ver dsqrt n steps doVtk doStd = Ok (a, s, d, t) /\ up_body arR sqrt n steps doVtk doStd = Ok r' /\
    within (ac_f a) (up_f (ur_up r')) (9 * IZR steps / 2 ^ 53).
Proof.
  intros H1 H2 H4. destruct (C48_driver_field arD ver dsqrt n steps doVtk doStd H1 H2) as (a & s & d & t & dt & E & Edt & Ef & _). cbv zeta in *.
  destruct (driver_coefs n H1 H2) as (dt' & Edt' & _ & HC). rewrite Edt in Edt'. injection Edt' as <-.
  destruct (exact_driver n steps doVtk doStd H1 H2) as (r' & E' & Ef'). exists a, s, d, t, r'. split; [exact E|]. split; [exact E'|].
  rewrite acc_coef in Ef.
  destruct (close_field n _ (fun j => upwind_side arD (axis_velocity arD [one; one; one] j)) (Z.to_nat steps) H1 H2 (steps_bound steps ltac:(lia))
    ltac:(intros [|[|[|j]]] Hj; [exact one_side..|lia]) HC) as (F & HF & G).
  rewrite Ef, Ef'. apply (within_cells _ _ F); [exact HF|]. eapply Rle_trans; [exact G|]. rewrite INR_IZR_INZ, Z2Nat.id by lia. apply Rle_refl.
Qed.
Print Assumptions C95_upwindAcc.

(** Every single value: the difference is at most 9 steps / 2^53 *)
Lemma within_each f H b : within f H b -> Forall2 (fun x h => exists y, double_value x y /\ Rabs (y - h) <= b) f H.
Proof.
  intros (F & HF & L & B). revert H b L B. induction HF as [|x y f F V HF IH]; intros [|h H] b L B; try discriminate L; [constructor|].
  cbn [combine map fold_right fst snd] in B.
  assert (P : forall l, 0 <= fold_right Rplus 0 (map (fun p : R * R => Rabs (fst p - snd p)) l)).
  { induction l as [|p l IHl]; cbn [map fold_right]; [lra|]. pose proof (Rabs_pos (fst p - snd p)). lra. }
  specialize (P (combine F H)). pose proof (Rabs_pos (y - h)) as A. constructor; [exists y; split; [exact V|lra]|]. apply IH; [injection L as L; exact L|lra].
Qed.

Theorem C95_each_cell dsqrt ver n steps doVtk doStd : (1 <= n)%Z -> (n * n * n < 2 ^ 31)%Z -> (0 <= steps < 2 ^ 31)%Z ->
  exists r a s d t r', up_body arD dsqrt n steps doVtk doStd = Ok r /\ acc_body arD ver dsqrt n steps doVtk doStd = Ok (a, s, d, t) /\
    up_body arR sqrt n steps doVtk doStd = Ok r' /\
    Forall2 (fun x h => exists y, double_value x y /\ Rabs (y - h) <= 9 * IZR steps / 2 ^ 53) (up_f (ur_up r)) (up_f (ur_up r')) /\
    Forall2 (fun x h => exists y, double_value x y /\ Rabs (y - h) <= 9 * IZR steps / 2 ^ 53) (ac_f a) (up_f (ur_up r')).
Proof.
  intros H1 H2 H4. destruct (C95_upwind dsqrt n steps doVtk doStd H1 H2 H4) as (r & r' & E & E' & W).
  destruct (C95_upwindAcc ver dsqrt n steps doVtk doStd H1 H2 H4) as (a & s & d & t & r'' & Ea & E'' & W'). rewrite E' in E''. injection E'' as <-.
  exists r, a, s, d, t, r'. split; [exact E|]. split; [exact Ea|]. split; [exact E'|]. split; apply within_each; assumption.
Qed.
Print Assumptions C95_each_cell.

(** Fewer steps than cells along an axis: the multinomial distribution in double precision *)
Theorem C95_multinomial dsqrt n steps doVtk doStd : (1 <= n)%Z -> (n * n * n < 2 ^ 31)%Z -> (0 <= steps < n)%Z ->
  exists r G, up_body arD dsqrt n steps doVtk doStd = Ok r /\ up_f (ur_up r) = map G (cells [n; n; n]) /\
    forall i j k : nat, (Z.of_nat i < n)%Z -> (Z.of_nat j < n)%Z -> (Z.of_nat k < n)%Z ->
      let m := Z.to_nat steps in
      let x := if (i + j + k <=? m)%nat then
        INR (fact m) / (INR (fact i) * INR (fact j) * INR (fact k) * INR (fact (m - (i + j + k)))) * (1 / 10) ^ (i + j + k) * (7 / 10) ^ (m - (i + j + k))
      else 0 in
      exists y, double_value (G [Z.of_nat i; Z.of_nat j; Z.of_nat k]) y /\ Rabs (y - x) <= 9 * IZR steps / 2 ^ 53.
Proof.
  intros H1 H2 H4. destruct (C95_each_cell dsqrt Acc1 n steps doVtk doStd H1 H2 ltac:(nia)) as (r & _ & _ & _ & _ & r' & E & _ & E' & W & _).
  destruct (C84_driver n steps doVtk doStd H1 H2 H4) as (r'' & H & E'' & Ef' & HH). rewrite E' in E''. injection E'' as <-.
  destruct (C42_driver arD dsqrt n steps doVtk doStd ltac:(lia) H2) as (r0 & dt & E0 & _ & Ef & _). cbv zeta in Ef. rewrite E in E0. injection E0 as <-.
  match type of Ef with _ = map ?g _ => set (G := g) in * end. exists r, G. split; [exact E|]. split; [exact Ef|]. intros i j k Hi Hj Hk m x.
  rewrite Ef, Ef' in W. assert (P : forall g, In g (cells [n; n; n]) -> exists y, double_value (G g) y /\ Rabs (y - H g) <= 9 * IZR steps / 2 ^ 53).
  { revert W. generalize (cells [n; n; n]) as l. induction l as [|h l IH]; intros W g Hg; [destruct Hg|]. inversion W; subst. destruct Hg as [<-|Hg]; auto. }
  specialize (HH i j k Hi Hj Hk). cbv zeta in HH. fold m in HH. fold x in HH. rewrite <- HH. apply P. apply in_cells, in_grid_nth. split; [reflexivity|].
  clear - Hi Hj Hk. intros [|[|[|q]]] Hq; simpl in *; lia.
Qed.
Print Assumptions C95_multinomial.

(** ** The standard deviation *)
Lemma body_std {D} (ar : arith D) dsqrt n steps doVtk r : up_body ar dsqrt n steps doVtk true = Ok r ->
  exists s, up_std ar dsqrt (ur_up r) = Ok s /\ ur_std r = Some s /\ ur_sum r = up_checksum ar (ur_up r).
Proof.
  unfold up_body. intros E. apply bind_ok in E as (dt & _ & E). apply bind_ok in E as (u & _ & E). apply bind_ok in E as (w & _ & E). apply bind_ok in E as (u' & _ & E).
  apply bind_ok in E as (o & Eo & E). apply bind_ok in Eo as (s & Es & Eo). injection Eo as <-. apply bind_ok in E as (w' & _ & E). injection E as <-.
  exists s. split; [exact Es|]. split; reflexivity.
Qed.

Lemma body_ntot {D} (ar : arith D) dsqrt n steps doVtk doStd r : (1 <= n)%Z -> (n * n * n < 2 ^ 31)%Z -> up_body ar dsqrt n steps doVtk doStd = Ok r ->
  up_ntot (ur_up r) = (n * n * n)%Z.
Proof.
  intros H1 H2 E. set (o3 := repeat (a_dec ar 10 1) 3).
  assert (Ep : prodZ [n; n; n] = (n * n * n)%Z) by (rewrite !prodZ_cons; change (prodZ []) with 1%Z; ring).
  assert (Ha : up_args [n; n; n] o3 o3).
  { repeat split; try discriminate; try reflexivity; [|rewrite Ep; exact H2]. intros [|[|[|j]]] Hj; simpl in *; lia. }
  assert (Hsh : short_axes [n; n; n]) by (intros [|[|[|j]]] Hj; simpl in *; nia).
  destruct (C42_constructor ar [n; n; n] o3 o3 Ha) as (u & Eu & Hu & HG).
  unfold up_body in E. rewrite u64_id in E by (unfold two64; nia). change (repeat n 3) with [n; n; n] in E. fold o3 in E.
  apply bind_ok in E as (dt & _ & E). change (up_new ar 3) with (up_new ar (vlen [n; n; n])) in E. rewrite Eu in E. cbn [bind] in E.
  apply bind_ok in E as (w & _ & E). apply bind_ok in E as (u' & Eu' & E). apply bind_ok in E as (o & _ & E). apply bind_ok in E as (w' & _ & E). injection E as <-. cbn [ur_up].
  destruct (C42_advect ar _ _ _ _ _ dt steps Ha Hsh Hu HG) as (u'' & E2 & Hu' & Hh'). change (up_advect ar 3) with (up_advect ar (vlen [n; n; n])) in Eu'. rewrite E2 in Eu'. injection Eu' as <-.
  destruct (holds_of ar _ _ _ _ _ Ha Hu' Hh') as (old & _ & ->). exact Ep.
Qed.

Lemma exact_total n k : (1 <= n)%Z -> (n * n * n < 2 ^ 31)%Z -> total [n; n; n] (exact_field n k) = 1.
Proof.
  intros H1 H2. pose proof (up_pos _ _ _ (driver_args n H1 H2)) as Hp. unfold exact_field. induction k as [|k IH]; [apply start_total; assumption|].
  cbn [coef_iter]. rewrite <- IH. rewrite <- (unrounded_total [n; n; n] (fun _ => (-1)%Z) (fun _ => - / 10) Hp (coef_iter _ _ _ _ k start)). unfold total. apply (f_equal rsum), map_ext. intros g. apply unrounded_coef.
Qed.

(** The number printed by upwind -std, with the square root of IEEE 754 *)
Theorem C95_std n steps doVtk : (1 <= n)%Z -> (n * n * n < 2 ^ 31)%Z -> (0 <= steps < 2 ^ 31)%Z ->
  exists r r' x y sigma, up_body arD dbl_sqrt n steps doVtk true = Ok r /\ ur_std r = Some x /\ double_value x y /\
    up_body arR sqrt n steps doVtk true = Ok r' /\ ur_std r' = Some sigma /\
    Rabs (y - sigma) <= (16 * IZR steps + 12 * IZR (n * n * n)) / (sqrt (IZR (n * n * n)) * 2 ^ 53).
Proof.
  intros H1 H2 H4. set (dims := [n; n; n]). set (k := Z.to_nat steps). assert (Hk : INR k <= 2 ^ 31) by (apply steps_bound; lia).
  assert (Ik : INR k = IZR steps) by (unfold k; rewrite INR_IZR_INZ, Z2Nat.id by lia; reflexivity).
  destruct (C42_driver arD dbl_sqrt n steps doVtk true ltac:(lia) H2) as (r & dt & E & Edt & Ef & Es). cbv zeta in *.
  destruct (driver_coefs n H1 H2) as (dt' & Edt' & HC & _). rewrite Edt in Edt'. injection Edt' as <-.
  destruct (exact_driver n steps doVtk true H1 H2) as (r' & E' & Ef').
  destruct (body_std _ _ _ _ _ _ E) as (x & Ex & Sx & Cx). destruct (body_std _ _ _ _ _ _ E') as (sigma & Esg & Ssg & Csg).
  pose proof (body_ntot _ _ _ _ _ _ _ H1 H2 E) as Nt. pose proof (body_ntot _ _ _ _ _ _ _ H1 H2 E') as Nt'.
  rewrite upwind_coef in Ef. fold dims k in Ef, Ef'.
  destruct (close_field n _ (fun j => upwind_side arD (axis_velocity arD [one; one; one] j)) k H1 H2 Hk ltac:(intros [|[|[|j]]] Hj; [exact one_side..|lia]) HC) as (F & HF & Gp).
  fold dims in HF, Gp. match type of Ef with _ = map ?g _ => set (G := g) in * end.
  destruct (cells_number n H1 H2) as [N1 N2]. fold dims in N1. pose proof eps_small as Ee. pose proof (pos_INR k) as K0.
  assert (N3 : 1 <= IZR (n * n * n)) by (apply IZR_le; nia).
  assert (T31 : 2 ^ 31 * eps <= / 1000000) by (unfold eps; simpl; lra).
  assert (Ke : INR k * eps <= / 1000000) by (apply Rle_trans with (2 ^ 31 * eps); [apply Rmult_le_compat_r; lra|exact T31]).
  (* the check sum *)
  destruct (C65_upwind_driver dbl_sqrt n steps doVtk true H1 H2 H4) as (r2 & s & E2 & Vs & Bs). rewrite E in E2. injection E2 as <-.
  unfold Rdiv in Bs. change (/ 2 ^ 53) with eps in Bs. rewrite <- Ik in Bs.
  assert (Ne : IZR (n * n * n) * eps <= / 1000000) by (apply Rle_trans with (2 ^ 31 * eps); [apply Rmult_le_compat_r; lra|exact T31]).
  (* the exact field *)
  set (H := exact_field n k) in *. pose proof (exact_total n k H1 H2) as T1. fold H dims in T1. unfold total in T1.
  assert (HR : forall g, In g (cells dims) -> 0 <= H g <= 1).
  { intros g Hg. destruct (C54_driver n steps doVtk true H1 H2) as (r3 & _ & E3 & _ & _ & _ & _ & _ & B3). rewrite E' in E3. injection E3 as <-. apply B3. rewrite Ef'. apply in_map, Hg. }
  set (N := IZR (n * n * n)) in *.
  assert (Dev : rsum (map (fun g => (H g - 1 / N) ^ 2) (cells dims)) = rsum (map (fun g => H g ^ 2) (cells dims)) - 1 / N).
  { rewrite (map_ext _ (fun g => H g ^ 2 + (- 2 / N * H g + (1 / N) ^ 2))) by (intros; field; lra). rewrite rsum_add, rsum_add, rsum_scale, rsum_const, T1, N1. field. lra. }
  assert (HB : norm2 (cells dims) (fun g => H g - 1 / INR (List.length (cells dims))) <= 1).
  { rewrite N1. unfold norm2. rewrite Dev. apply Rle_trans with (sqrt 1); [apply sqrt_le_1_alt|rewrite sqrt_1; lra].
    assert (rsum (map (fun g => H g ^ 2) (cells dims)) <= rsum (map H (cells dims))) by (apply rsum_le; intros g Hg; specialize (HR g Hg); simpl; nra).
    assert (0 < 1 / N) by (apply Rdiv_lt_0_compat; lra). lra. }
  assert (HT : rsum (map F (cells dims)) <= 1 + / 100000).
  { assert (Q : rsum (map F (cells dims)) <= rsum (map (fun g => Rabs (F g - H g) + H g) (cells dims))).
    { apply rsum_le. intros g _. pose proof (Rle_abs (F g - H g)). lra. }
    rewrite rsum_add, T1 in Q. unfold gap in Gp. lra. }
  destruct (std_close (cells dims) G F H (ur_sum r) s (9 * INR k * eps) (n * n * n) N1 ltac:(nia) ltac:(intros g Hg; apply HF, in_cells, Hg) HT Gp ltac:(lra) Vs
    ltac:(eapply Rle_trans; [exact Bs|]; lra) HB) as (z & Vz & Bz).
  (* the exact standard deviation *)
  assert (Esig : sqrt N * sigma = norm2 (cells dims) (fun g => H g - 1 / INR (List.length (cells dims)))).
  { rewrite std_loop in Esg by (rewrite Ef'; unfold dims; rewrite cube_cells by assumption; exact H2). injection Esg as <-. rewrite N1. unfold norm2. rewrite <- sqrt_mult_alt by lra. f_equal.
    rewrite Nt', Ef'. cbn [arR a_div a_ofZ a_sub a_mul a_add]. fold N.
    assert (Cs : up_checksum arR (ur_up r') = 1).
    { unfold up_checksum. rewrite Ef'. rewrite <- T1. cbn [arR a_add a_dec]. replace (0 / powerRZ 10 1) with 0 by (simpl; lra). apply fold_symmetric; intros; ring. }
    rewrite Cs. rewrite (fold_symmetric Rplus) by (intros; ring). rewrite map_map. unfold rsum.
    replace (map (fun g => (H g - 1 / N) * (H g - 1 / N)) (cells dims)) with (map (fun g => (H g - 1 / N) ^ 2) (cells dims)) by (apply map_ext; intros; ring). field. lra. }
  exists r, r', x, z, sigma. split; [exact E|]. split; [exact Sx|]. split.
  { rewrite std_loop in Ex by (rewrite Ef; unfold dims; rewrite cube_cells by assumption; exact H2). injection Ex as <-. rewrite Nt, Ef, <- Cx. exact Vz. }
  split; [exact E'|]. split; [exact Ssg|].
  rewrite <- Esig, N1 in Bz. rewrite <- Ik.
  assert (sN : 1 <= sqrt N) by (rewrite <- sqrt_1; apply sqrt_le_1_alt, N3).
  apply Rmult_le_reg_l with (sqrt N); [lra|]. rewrite <- (Rabs_pos_eq (sqrt N)) at 1 by lra. rewrite <- Rabs_mult, Rmult_minus_distr_l.
  replace (sqrt N * ((16 * INR k + 12 * N) / (sqrt N * 2 ^ 53))) with ((16 * INR k + 12 * N) * eps) by (unfold eps; field; lra).
  eapply Rle_trans; [exact Bz|]. assert (0 <= N * eps) by (apply Rmult_le_pos; lra). lra.
Qed.
Print Assumptions C95_std.

(** and its closed form *)
Theorem C95_std_closed_form n steps doVtk : (1 <= n)%Z -> (n * n * n < 2 ^ 31)%Z -> (Z.of_nat steps < 2 ^ 31)%Z ->
  exists r x y, up_body arD dbl_sqrt n (Z.of_nat steps) doVtk true = Ok r /\ ur_std r = Some x /\ double_value x y /\
    Rabs (y - sqrt (rsum (map (fun k => if list_eq_dec Z.eq_dec [0; 0; 0]%Z k then 0 else cube_factor2 n k ^ steps) (cells [n; n; n]))) / IZR (n * n * n)) <=
    (16 * INR steps + 12 * IZR (n * n * n)) / (sqrt (IZR (n * n * n)) * 2 ^ 53).
Proof.
  intros H1 H2 H4. destruct (C95_std n (Z.of_nat steps) doVtk H1 H2 ltac:(lia)) as (r & r' & x & y & sg & E & Sx & V & E' & Ss & B).
  exists r, x, y. split; [exact E|]. split; [exact Sx|]. split; [exact V|].
  destruct (C94_program n steps doVtk H1 H2) as (r'' & E'' & S''). rewrite E' in E''. injection E'' as <-. rewrite Ss in S''.
  match goal with |- Rabs (y - ?t) <= _ => remember t as q eqn:Eq end.
  assert (S3 : Some sg = Some q) by (rewrite Eq; exact S''). injection S3 as ->. rewrite <- INR_IZR_INZ in B. exact B.
Qed.
Print Assumptions C95_std_closed_form.

(** ** Examples *)

(** The default command line with -std: 128 cells along each axis, 10 steps; the number printed is right to 2e-12. *)
Example C95_default : exists r x y, up_body arD dbl_sqrt 128 10 false true = Ok r /\ ur_std r = Some x /\ double_value x y /\
  Rabs (y - sqrt (rsum (map (fun k => if list_eq_dec Z.eq_dec [0; 0; 0]%Z k then 0 else cube_factor2 128 k ^ 10) (cells [128; 128; 128]%Z))) / 2097152) < 2 / 10 ^ 12.
Proof.
  destruct (C95_std_closed_form 128 10 false ltac:(lia) ltac:(reflexivity) ltac:(reflexivity)) as (r & x & y & E & S & V & B).
  exists r, x, y. split; [exact E|]. split; [exact S|]. split; [exact V|]. change (128 * 128 * 128)%Z with 2097152%Z in B. eapply Rle_lt_trans; [exact B|].
  assert (Q : 1448 <= sqrt 2097152) by (rewrite <- (sqrt_Rsqr 1448) by lra; apply sqrt_le_1_alt; unfold Rsqr; lra).
  apply Rle_lt_trans with ((16 * INR 10 + 12 * 2097152) / (1448 * 2 ^ 53)); [|simpl; lra].
  unfold Rdiv. apply Rmult_le_compat_l; [simpl; lra|]. apply Rinv_le; [simpl; lra|]. apply Rmult_le_compat_r; [simpl; lra|exact Q].
Qed.

(** One step on 10 x 10 x 10 cells: the first cell is within 9 / 2^53 of 7/10; the double computed. *)
Example C95_first_cell : exists r G y, up_body arD dbl_sqrt 10 1 false false = Ok r /\ up_f (ur_up r) = map G (cells [10; 10; 10]%Z) /\
  double_value (G [0; 0; 0]%Z) y /\ Rabs (y - 7 / 10) <= 9 / 2 ^ 53.
Proof.
  destruct (C95_multinomial dbl_sqrt 10 1 false false ltac:(lia) ltac:(reflexivity) ltac:(lia)) as (r & G & E & Ef & H).
  destruct (H 0%nat 0%nat 0%nat ltac:(reflexivity) ltac:(reflexivity) ltac:(reflexivity)) as (y & V & B).
  exists r, G, y. split; [exact E|]. split; [exact Ef|]. split; [exact V|]. change (Z.to_nat 1) with 1%nat in B. cbn [Nat.add Nat.leb Nat.sub fact] in B.
  match type of B with Rabs (y - ?t) <= _ => replace t with (7 / 10) in B by (simpl; field) end. lra.
Qed.
