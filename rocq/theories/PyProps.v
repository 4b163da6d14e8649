(** * Properties of the Python version of the upwind benchmark: C76, C77 *)
From Coq Require Import List ZArith Bool Lia Permutation Reals Lra String SpecFloat.
From Flocq Require Import Core BinarySingleNaN.
From Verif Require Import Cpp CppProof MaiModel MaiSpec Radix MaiProof CmdModel CdModel CdSpec FilterModel FilterSpec FilterProof
  FilterSum RealArith Ieee Double DblSpec DblProof DblField DblSten LapSpec LapProof VtkModel UpModel UpSpec UpProof UpExact UpProps AccModel AccSpec AccProof AccProps
  UpMpiProps DblProps ParModel ParSpec ParProof LangSpec FortModel FortProof FortProps NumModel NumSpec NumProof TextModel TextSpec TextProof PySpec PyModel PyProof.
From Coq Require Import List.
Import ListNotations.
Local Open Scope Z_scope.
Local Arguments prodZ : simpl never.
Local Arguments Z.of_nat : simpl never.

(** An object built by the constructor, the field being arbitrary. *)
Definition py_object {D} (ar : arith D) (dims : list Z) (v lengths : list D) (p : py D) : Prop :=
  exists p0 f, py_new ar v lengths dims = Ok p0 /\ vlen f = prodZ dims /\ p = py_setF p0 f.

Lemma py_object_of {D} (ar : arith D) dims v lengths p : up_args dims v lengths ->
  (py_object ar dims v lengths p <-> exists f, vlen f = prodZ dims /\ p = py_of ar dims v lengths f).
Proof.
  intros (Hg & Hv & Hl). unfold py_object. rewrite py_new_eq by auto. split.
  - intros (p0 & f & E & L & ->). injection E as <-. exists f. split; [exact L|reflexivity].
  - intros (f & L & ->). eexists _, f. split; [reflexivity|]. split; [exact L|reflexivity].
Qed.

(** ** C76 *)

(** The constructor: one in the first cell, zero in the others. *)
Theorem C76_constructor {D} (ar : arith D) dims v lengths :
  up_args dims v lengths ->
  exists p, py_new ar v lengths dims = Ok p /\ py_object ar dims v lengths p /\
            py_f p = map (corner (a_ofZ ar 0) (a_ofZ ar 1) dims) (cells dims).
Proof.
  intros Ha. pose proof Ha as (Hg & Hv & Hl). exists (py_of ar dims v lengths (map (corner (a_ofZ ar 0) (a_ofZ ar 1) dims) (cells dims))).
  split; [apply py_new_eq; auto|]. split; [|reflexivity]. apply py_object_of; auto. eexists. split; [apply cells_vlen, Hg|reflexivity].
Qed.
Print Assumptions C76_constructor.

(** Any number of calls of advect: the upwind scheme, with (dt (v (+-1) / dx)) (f(upwind neighbour) - f) evaluated in this order;
    numpy's element-wise operations on whole arrays compute it cell by cell. *)
Theorem C76_advect {D} (ar : arith D) dims v lengths p G dt n :
  up_args dims v lengths -> py_object ar dims v lengths p -> py_f p = map G (cells dims) ->
  exists p', py_run ar p n dt = Ok p' /\ py_object ar dims v lengths p' /\
    py_f p' = map (scheme_iter ar (Z.to_nat n) (py_term ar dims v lengths dt) dims v G) (cells dims).
Proof.
  intros Ha Ho HG. apply (py_object_of ar _ _ _ _ Ha) in Ho as (f & L & ->). cbn [py_of py_f] in HG. subst f. pose proof Ha as (Hg & Hv & Hl).
  rewrite py_run_eq by auto. eexists. split; [reflexivity|]. split; [|reflexivity]. apply py_object_of; auto. eexists. split; [apply cells_vlen, Hg|reflexivity].
Qed.
Print Assumptions C76_advect.

(** The same numbers, to the last bit, as upwindAcc, upwindAcc2 and upwindOMP5 (three axes). *)
Lemma acc_iter_scheme {D} (ar : arith D) dims v lengths dt n G :
  acc_iter ar n dims v lengths dt G = scheme_iter ar n (py_term ar dims v lengths dt) dims v G.
Proof. induction n as [|n IH]; [reflexivity|]. cbn [acc_iter scheme_iter]. rewrite IH. reflexivity. Qed.

Theorem C76_same_as_acc {D} (ar : arith D) ver dims v lengths p a dt n :
  acc_args dims v lengths -> shorter_axes dims ->
  py_object ar dims v lengths p -> acc_object ar (has_old ver) dims v lengths a -> py_f p = ac_f a ->
  exists p' a', py_run ar p n dt = Ok p' /\ acc_run ar ver a n dt = Ok a' /\ py_f p' = ac_f a'.
Proof.
  intros Ha Hsh Hp Ho E. pose proof Ho as (a0 & f & old & _ & Lf & _ & Ea).
  destruct (field_exists ar dims f (proj1 (proj1 Ha)) Lf) as (G & HG).
  assert (HG1 : acc_holds a dims G) by (rewrite Ea; exact HG).
  destruct (C48_formula ar ver _ _ _ _ _ dt n Ha Hsh Ho HG1) as (a' & E1 & _ & H1). unfold acc_holds in *.
  destruct (C76_advect ar _ _ _ p G dt n (proj1 Ha) Hp (eq_trans E HG1)) as (p' & E2 & _ & H2).
  exists p', a'. split; [exact E2|]. split; [exact E1|]. rewrite H1, H2, acc_iter_scheme. reflexivity.
Qed.
Print Assumptions C76_same_as_acc.

(** The same field as the C++ version, in any arithmetic in which products and quotients can be regrouped. *)
Theorem C76_same_as_cxx {D} (ar : arith D) dims v lengths p u dt n :
  regroups ar -> up_args dims v lengths -> short_axes dims ->
  py_object ar dims v lengths p -> up_object ar dims v lengths u -> py_f p = up_f u ->
  exists p' u', py_run ar p n dt = Ok p' /\ up_advect ar (vlen dims) u n dt = Ok u' /\ py_f p' = up_f u'.
Proof.
  intros (HR1 & HR2) Ha Hsh Hp Hu E. destruct (C42_every_field ar _ _ _ _ Ha Hu) as (G & HG).
  destruct (C42_advect ar _ _ _ _ G dt n Ha Hsh Hu HG) as (u' & Eu & _ & Hu'). unfold holds in *.
  destruct (C76_advect ar _ _ _ _ G dt n Ha Hp (eq_trans E HG)) as (p' & Ep & _ & Hp').
  exists p', u'. split; [exact Ep|]. split; [exact Eu|]. rewrite Hp', Hu', upwind_iter_scheme. apply map_ext. intros g.
  apply scheme_iter_ext; [|reflexivity]. intros j a b. unfold py_term, cxx_term. rewrite HR2, HR1. reflexivity.
Qed.
Print Assumptions C76_same_as_cxx.

(** ** The program *)
Definition py_step {D} (ar : arith D) (n : Z) : D := a_div ar (a_mul ar (a_dec ar 1 1) (a_div ar (a_ofZ ar 1) (a_ofZ ar n))) (a_ofZ ar 1).

Lemma py_dt_eq {D} (ar : arith D) n : py_dt ar 3 (repeat (a_ofZ ar 1) 3) (repeat (a_ofZ ar 1) 3) (repeat n 3) = Ok (Some (py_step ar n)).
Proof.
  unfold py_dt, for_upto. change (Z.to_nat 3) with 3%nat. cbn [for_from]. change (Z.of_nat 0) with 0. change (Z.of_nat 1) with 1. change (Z.of_nat 2) with 2.
  repeat (change (vget (repeat (a_ofZ ar 1) 3) ?k) with (Ok (a_ofZ ar 1)); change (vget (repeat n 3) ?k) with (Ok n); cbn [bind]).
  change (a_div ar (a_mul ar (a_dec ar 1 1) (a_div ar (a_ofZ ar 1) (a_ofZ ar n))) (a_ofZ ar 1)) with (py_step ar n).
  destruct (a_lt ar (py_step ar n) (py_step ar n)) eqn:E; rewrite ?E; reflexivity.
Qed.

Lemma py_body_eq {D} (ar : arith D) n steps : 1 <= n -> n * n * n < 2 ^ 31 ->
  let o3 := repeat (a_ofZ ar 1) 3 in
  exists p, py_body ar n steps = Ok p /\ py_object ar [n; n; n] o3 o3 p /\
    py_f p = map (scheme_iter ar (Z.to_nat steps) (py_term ar [n; n; n] o3 o3 (py_step ar n)) [n; n; n] o3 (corner (a_ofZ ar 0) (a_ofZ ar 1) [n; n; n])) (cells [n; n; n]).
Proof.
  intros H1 H2 o3. destruct (cube_args (a_ofZ ar 1) n H1 H2) as (Ha & _).
  destruct (C76_constructor ar _ _ _ Ha) as (p & Ep & Hp & Hf). destruct (C76_advect ar _ _ _ _ _ (py_step ar n) steps Ha Hp Hf) as (p' & Ep' & Hp' & Hf').
  exists p'. split; [|split; assumption]. unfold py_body. rewrite py_dt_eq. cbn [bind]. change (repeat n 3) with [n; n; n]. rewrite Ep. cbn [bind]. exact Ep'.
Qed.

(** For fewer than 2^31 cells the computation of main ends normally exactly when the number of cells is positive. *)
Theorem C76_body_iff {D} (ar : arith D) n steps : n * n * n < 2 ^ 31 ->
  ((exists p, py_body ar n steps = Ok p) <-> 1 <= n).
Proof.
  intros H2. split; [|intros H1; destruct (py_body_eq ar n steps H1 H2) as (p & E & _); eauto].
  intros (p & E). destruct (Z_le_gt_dec 1 n) as [H|H]; [exact H|exfalso]. unfold py_body in E. rewrite py_dt_eq in E. cbn [bind] in E.
  apply bind_ok in E as (p0 & E & _). change (repeat n 3) with [n; n; n] in E. unfold py_new in E.
  change (vlen (repeat (a_ofZ ar 1) 3)) with (Z.of_nat (List.length [n; n; n])) in E. rewrite py_axes_eq in E by reflexivity. cbn [bind] in E.
  apply bind_ok in E as (dp & _ & E). apply bind_ok in E as (co & _ & E).
  assert (Ep : prodZ [n; n; n] = n * n * n) by (rewrite !prodZ_cons; change (prodZ []) with 1; ring).
  destruct (Z.ltb_spec (prodZ [n; n; n]) 0) as [|Hn]; [discriminate|]. apply bind_ok in E as (f & Ef & _). apply vset_inv in Ef as (Hr & _).
  unfold vlen in Hr. rewrite repeat_length in Hr. rewrite Ep in *. assert (0 <= n * n) by nia. nia.
Qed.
Print Assumptions C76_body_iff.

(** In the real numbers: the field of the C++ program run with -numCells n -numSteps steps; the check sum is one. *)
Lemma first_corner {D} (ar : arith D) dims g : a_dec ar 0 1 = a_ofZ ar 0 -> corner (a_ofZ ar 0) (a_ofZ ar 1) dims g = first_cell ar dims g.
Proof. intros H. unfold first_cell, corner. rewrite H. reflexivity. Qed.

Lemma zeros_sum l zs (y : R) : (forall z, In z zs -> z = a_ofZ arR 0 \/ z = a_neg arR (a_ofZ arR 0)) -> reduction (a_add arR) (zs ++ l) y -> y = sum_of arR l.
Proof.
  intros Hz H. rewrite (sum_reduction arR (en_ring _ arR_exact) _ _ H). clear H. induction zs as [|z zs IH]; [reflexivity|]. cbn [app].
  change (sum_of arR (z :: zs ++ l)) with (z + sum_of arR (zs ++ l))%R. rewrite IH by (intros w Hw; apply Hz; right; exact Hw). destruct (Hz z (or_introl eq_refl)) as [-> | ->]; cbn [arR a_add a_neg a_ofZ]; lra.
Qed.

Theorem C76_driver n steps doVtk doStd : 1 <= n -> n * n * n < 2 ^ 31 ->
  exists p r, py_body arR n steps = Ok p /\ up_body arR sqrt n steps doVtk doStd = Ok r /\ py_f p = up_f (ur_up r) /\
    (forall psum, sums arR psum -> psum (py_f p) = 1%R).
Proof.
  intros H1 H2. destruct (C54_driver n steps doVtk doStd H1 H2) as (r & dt & Er & _ & _ & _ & Hs & _ & _).
  destruct (C42_driver arR sqrt n steps doVtk doStd ltac:(lia) H2) as (r' & dt' & Er' & Edt & Ef & Es). rewrite Er in Er'. injection Er' as <-.
  destruct (py_body_eq arR n steps H1 H2) as (p & Ep & _ & Hf). exists p, r. split; [exact Ep|]. split; [exact Er|].
  assert (Edec : a_dec arR 10 1 = 1%R) by apply dec10R. assert (Ed : py_step arR n = dt').
  { pose proof (up_dt_driver n H1 ltac:(nia)) as E. rewrite Edec in Edt. rewrite Edt in E. injection E as ->. unfold py_step. cbn [arR a_div a_mul a_dec a_ofZ]. simpl.
    assert (1 <= IZR n)%R by (apply IZR_le; lia). field. lra. }
  assert (Hff : py_f p = up_f (ur_up r)).
  { rewrite Hf, Ef, Ed, upwind_iter_scheme, Edec. change [1%R; 1%R; 1%R] with (repeat (a_ofZ arR 1) 3). apply map_ext. intros g. apply scheme_iter_ext.
    - intros j a b. destruct C48_reals as (HR1 & HR2). unfold py_term, cxx_term. rewrite HR2, HR1. reflexivity.
    - intros h. apply first_corner. cbn [arR a_dec a_ofZ]. simpl. lra. }
  split; [exact Hff|]. intros psum Hp. destruct (Hp (py_f p)) as (zs & _ & Hz & Hr). rewrite (zeros_sum _ _ _ Hz Hr), Hff, <- Hs, Es.
  rewrite (sum_fold_left arR (en_ring _ arR_exact)). cbn [arR a_add a_dec]. simpl. lra.
Qed.
Print Assumptions C76_driver.

(** ** In IEEE doubles *)
Lemma up_dt_cases {D} (ar : arith D) o n :
  let val := a_div ar (a_mul ar (a_dec ar 1 1) (a_div ar o (a_ofZ ar n))) o in
  up_dt ar [o; o; o] [o; o; o] [n; n; n] = Ok (if a_lt ar val (a_max ar) then val else a_max ar).
Proof.
  intros val. unfold up_dt. change (vlen [o; o; o]) with 3. unfold for_upto. change (Z.to_nat 3) with 3%nat. cbn [for_from].
  change (Z.of_nat 0) with 0. change (Z.of_nat 1) with 1. change (Z.of_nat 2) with 2.
  repeat (change (vget [o; o; o] ?k) with (Ok o); change (vget [n; n; n] ?k) with (Ok n); cbn [bind]). fold val.
  destruct (a_lt ar val (a_max ar)) eqn:E; [|rewrite E, E; reflexivity]. destruct (a_lt ar val val) eqn:E2; rewrite ?E2; reflexivity.
Qed.

Lemma py_dt_double n : 1 <= n -> n * n * n < 2 ^ 31 -> up_dt arD [one; one; one] [one; one; one] [n; n; n] = Ok (py_step arD n).
Proof.
  intros H1 H2. assert (Eo : a_ofZ arD 1 = one) by (vm_compute; reflexivity). unfold py_step. rewrite Eo.
  destruct (dv_dx n H1 H2) as (h & Vh & Rh). destruct (dv_dt n h Vh Rh) as (dt & d & E & Vd & Rd). rewrite up_dt_cases in *.
  destruct (a_lt arD _ (a_max arD)); [reflexivity|]. exfalso. injection E as <-. change (a_max arD) with dbl_max in Vd.
  destruct dv_max as (M & VM & RM). rewrite (dv_unique _ _ _ Vd VM) in Rd. lra.
Qed.

(** The program computes, to the last bit, the field of upwindAcc. *)
Theorem C76_doubles_same_as_acc ver dsqrt n steps doVtk doStd : 1 <= n -> n * n * n < 2 ^ 31 ->
  exists p a x d t, py_body arD n steps = Ok p /\ acc_body arD ver dsqrt n steps doVtk doStd = Ok (a, x, d, t) /\ py_f p = ac_f a.
Proof.
  intros H1 H2. destruct (C48_driver_field arD ver dsqrt n steps doVtk doStd H1 H2) as (a & x & d & t & dt & E & Edt & Ef & _).
  rewrite py_dt_double in Edt by assumption. injection Edt as <-.
  destruct (py_body_eq arD n steps H1 H2) as (p & Ep & _ & Hf). exists p, a, x, d, t. split; [exact Ep|]. split; [exact E|]. rewrite Hf, Ef, acc_iter_scheme.
  assert (Eo : a_ofZ arD 1 = one) by (vm_compute; reflexivity). change (repeat (a_ofZ arD 1) 3) with [a_ofZ arD 1; a_ofZ arD 1; a_ofZ arD 1].
  apply map_ext. intros g. assert (Eo3 : [a_ofZ arD 1; a_ofZ arD 1; a_ofZ arD 1] = [one; one; one]) by (rewrite Eo; reflexivity). rewrite Eo3.
  apply scheme_iter_ext; [reflexivity|]. intros h. apply first_corner. vm_compute. reflexivity.
Qed.
Print Assumptions C76_doubles_same_as_acc.

(** All values stay between 0 and 1; the check sum, added up in any order, is one up to rounding. *)
Theorem C76_check_sum psum n steps : sums arD psum -> 1 <= n -> n * n * n < 2 ^ 31 -> 0 <= steps < 2 ^ 31 ->
  exists p s, py_body arD n steps = Ok p /\ unit_values (py_f p) /\ double_value (psum (py_f p)) s /\
    (Rabs (s - 1) <= (7 * IZR steps + 12 / 10 * (IZR (n * n * n) + 2)) / 2 ^ 53)%R.
Proof.
  intros Hps H1 H2 H4. destruct (C76_doubles_same_as_acc Acc1 (fun x => x) n steps false false H1 H2) as (p & a & x & d & t & Ep & Ea & Ef).
  destruct (C48_driver_field arD Acc1 (fun x => x) n steps false false H1 H2) as (a' & x' & d' & t' & dt & E & Edt & Efa & _).
  rewrite Ea in E. inversion E; subst a' x' d' t'. clear E.
  destruct (driver_dt n H1 H2) as (dt' & Edt' & _ & HC). rewrite Edt in Edt'. inversion Edt'; subst dt'. rewrite acc_coef in Efa.
  pose proof (check_unit n H1 H2 _ _ _ _ HC Efa) as Hu. rewrite <- Ef in Efa, Hu.
  set (C := acc_courant arD [n; n; n] [one; one; one] [one; one; one] dt) in *. set (sd := fun j => upwind_side arD (axis_velocity arD [one; one; one] j)) in *.
  set (k := Z.to_nat steps) in *.
  pose proof (up_pos _ _ _ (driver_args n H1 H2)) as Hp. pose proof (small_values _ _ HC) as HC'. set (dims := [n; n; n]) in *.
  set (c := fun j => SF2R radix2 (C j)) in *. destruct (cells_number n H1 H2) as [N1 N2]. fold dims in N1.
  assert (L3 : (List.length dims <= 3)%nat) by apply le_n.
  pose proof (iter_field dims C sd c Hp L3 HC' k _ _ (start_field n)) as HF.
  pose proof (iter_total dims C sd c Hp L3 HC' k _ _ (start_field n) (start_total n H1 H2) ltac:(rewrite N1; exact N2) (steps_bound steps ltac:(lia))) as HT.
  fold dims in HF. set (G := coef_iter arD dims C sd k (first_cell arD dims)) in *. set (F := rounded_iter dims sd c k start) in *.
  destruct (Hps (py_f p)) as (zs & Lz & Hz & Hr).
  assert (Vz : forall z, In z zs -> double_value z 0%R).
  { intros z Hi. destruct (Hz z Hi) as [-> | ->]; [exact (dv_ofZ 0 ltac:(reflexivity))|]. split; [reflexivity|split; reflexivity]. }
  pose proof eps_small as Ee. pose proof eta_tiny as Te. pose proof (pos_INR k) as K0.
  assert (T31 : (2 ^ 31 * eps <= / 1000000)%R) by (unfold eps; simpl; lra).
  assert (Ke : (INR k * eps <= / 1000000)%R) by (apply Rle_trans with (2 ^ 31 * eps)%R; [apply Rmult_le_compat_r; [lra|apply steps_bound; lia]|exact T31]).
  apply Rabs_le_inv in HT as HT'.
  assert (ES : rsum (map val (zs ++ py_f p)) = total dims F).
  { rewrite map_app, rsum_app. replace (rsum (map val zs)) with 0%R.
    - rewrite Rplus_0_l, Efa, map_map. unfold total. f_equal. apply map_ext_in. intros g Hg. apply fmt_val. apply HF. apply in_cells, Hg.
    - clear - Vz. induction zs as [|z zs IH]; [reflexivity|]. cbn [map]. change (rsum (?y :: ?l)) with (y + rsum l)%R. rewrite <- IH by (intros w Hw; apply Vz; right; exact Hw).
      rewrite (fmt_val _ _ (Vz z (or_introl eq_refl))). lra. }
  assert (Len : (INR (List.length (zs ++ py_f p)) <= IZR (n * n * n) + 2)%R).
  { rewrite app_length, plus_INR, Efa, map_length, N1. apply (le_INR) in Lz. simpl INR in Lz. lra. }
  assert (Hn : n <= 1290) by nia. assert (Hn3 : n * n * n <= 2 ^ 31 - 2) by nia.
  assert (N31 : (IZR (n * n * n) + 2 <= 2 ^ 31)%R).
  { rewrite pow_IZR, <- plus_IZR. apply IZR_le. change (2 ^ Z.of_nat 31) with (2 ^ 31). lia. }
  destruct (red_double _ _ Hr (1 + / 1000)%R) as (L1 & s & V & P & B).
  - intros y Hy. apply in_app_or in Hy as [Hy|Hy]; [exists 0%R; split; [apply Vz; exact Hy|lra]|]. destruct (Hu y Hy) as (r & Vr & Rr). exists r. split; [exact Vr|lra].
  - rewrite ES. lra.
  - lra.
  - lra.
  - exists p, s. split; [exact Ep|]. split; [exact Hu|]. split; [exact V|]. rewrite ES in B.
    replace (s - 1)%R with ((s - total dims F) + (total dims F - 1))%R by ring. eapply Rle_trans; [apply Rabs_triang|].
    assert (D0 : (0 <= 11 / 10 * eps * (1 + / 1000) + 2 * eta <= 12 / 10 * eps)%R) by (assert (eps * eps * eps <= / 1000 * eps)%R by nra; lra).
    assert (B2 : ((INR (List.length (zs ++ py_f p)) - 1) * (11 / 10 * eps * (1 + / 1000) + 2 * eta) <= (IZR (n * n * n) + 2) * (12 / 10 * eps))%R).
    { apply Rle_trans with ((IZR (n * n * n) + 2) * (11 / 10 * eps * (1 + / 1000) + 2 * eta))%R; [apply Rmult_le_compat_r; lra|apply Rmult_le_compat_l; [|lra]].
      assert (0 <= IZR (n * n * n))%R by (apply IZR_le; nia). lra. }
    unfold k in *. rewrite INR_IZR_INZ, Z2Nat.id in HT by lia. unfold Rdiv at 1. change (/ 2 ^ 53)%R with eps. lra.
Qed.
Print Assumptions C76_check_sum.

(** ** C77: the file *)
Lemma tens_nil {A} : tens (@nil A) = [].
Proof. reflexivity. Qed.
Lemma tens_short {A} (l : list A) : l <> [] -> (List.length l <= 10)%nat -> tens l = [l].
Proof.
  intros Hn Hl. unfold tens. replace ((List.length l + 9) / 10)%nat with 1%nat.
  - cbn [seq map]. rewrite Nat.mul_0_r. cbn [skipn]. rewrite firstn_all2 by exact Hl. reflexivity.
  - apply (Nat.div_unique _ 10 1 (List.length l - 1)); [lia|]. destruct l; [congruence|cbn [List.length] in *; lia].
Qed.
Lemma tens_cons {A} (g t : list A) : List.length g = 10%nat -> tens (g ++ t) = g :: tens t.
Proof.
  intros Hg. unfold tens. rewrite app_length, Hg. replace ((10 + List.length t + 9) / 10)%nat with (S ((List.length t + 9) / 10)).
  - cbn [seq map]. f_equal.
    + rewrite Nat.mul_0_r. cbn [skipn]. rewrite firstn_app, Hg, Nat.sub_diag, firstn_O, app_nil_r. apply firstn_all2. lia.
    + rewrite <- seq_shift, map_map. apply map_ext. intros k. f_equal. rewrite skipn_app, Hg. rewrite skipn_all2 by lia. cbn [app]. f_equal. lia.
  - replace (10 + List.length t + 9)%nat with (1 * 10 + (List.length t + 9))%nat by lia. rewrite Nat.div_add_l by lia. lia.
Qed.
Lemma tens_length {A} (l : list A) : List.length (tens l) = ((List.length l + 9) / 10)%nat.
Proof. unfold tens. rewrite map_length, seq_length. reflexivity. Qed.

Section Values.
  Context {A : Type} (show : A -> string).
  Hypothesis Hs : forall x, nospace (show x) = true /\ show x <> ""%string.
  Local Open Scope string_scope.
  Local Open Scope Z_scope.
  Let piece (g : list A) : string := texts (map show g).

  Lemma piece_nospace g : nospace (piece g) = true.
  Proof using Hs. unfold piece. induction g as [|x g IH]; [reflexivity|]. cbn [map texts]. rewrite nospace_app, IH, (proj1 (Hs x)). reflexivity. Qed.
  Lemma piece_nonempty g : g <> [] -> piece g <> "".
  Proof using Hs. destruct g as [|x g]; [congruence|]. intros _. unfold piece. cbn [map texts]. pose proof (proj2 (Hs x)) as N. destruct (show x); [congruence|discriminate]. Qed.

  Lemma values_line g : forall i t, i mod 10 + Z.of_nat (List.length g) = 10 -> g <> [] -> py_values_text show i (g ++ t) = piece g ++ newline ++ py_values_text show (i + Z.of_nat (List.length g)) t.
  Proof using Type.
    clear Hs. induction g as [|x g IH]; intros i t Hi Hn; [congruence|]. cbn [app py_values_text]. cbn [List.length] in *. unfold piece in *. cbn [map texts].
    assert (Em : (i + 1) mod 10 = if i mod 10 =? 9 then 0 else i mod 10 + 1).
    { rewrite Zplus_mod. pose proof (Z.mod_pos_bound i 10 ltac:(lia)). change (1 mod 10) with 1. destruct (Z.eqb_spec (i mod 10) 9) as [->|]; [reflexivity|]. apply Z.mod_small. lia. }
    rewrite Em. destruct g as [|y g].
    - cbn [List.length] in Hi. replace (i mod 10) with 9 by lia. cbn [Z.eqb app map texts]. rewrite append_assoc. reflexivity.
    - cbn [List.length] in *. destruct (Z.eqb_spec (i mod 10) 9); [lia|]. destruct (Z.eqb_spec (i mod 10 + 1) 0); [pose proof (Z.mod_pos_bound i 10 ltac:(lia)); lia|].
      cbn [append]. rewrite IH; [|rewrite Em; destruct (Z.eqb_spec (i mod 10) 9); lia|discriminate]. rewrite append_assoc.
      replace (i + 1 + Z.of_nat (S (List.length g))) with (i + Z.of_nat (S (S (List.length g)))) by lia. reflexivity.
  Qed.
  Lemma values_rest l : forall i, i mod 10 + Z.of_nat (List.length l) < 10 -> py_values_text show i l = piece l.
  Proof using Type.
    clear Hs. induction l as [|x l IH]; intros i Hi; [reflexivity|]. cbn [py_values_text List.length] in *. unfold piece in *. cbn [map texts].
    assert (Em : (i + 1) mod 10 = i mod 10 + 1).
    { rewrite Zplus_mod. pose proof (Z.mod_pos_bound i 10 ltac:(lia)). change (1 mod 10) with 1. apply Z.mod_small. lia. }
    rewrite Em. pose proof (Z.mod_pos_bound i 10 ltac:(lia)). destruct (Z.eqb_spec (i mod 10 + 1) 0); [lia|]. cbn [append]. rewrite IH by (rewrite Em; lia). reflexivity.
  Qed.

  (** One word per line of ten values. *)
  Lemma split_py_values l : forall i, i mod 10 = 0 -> split_words "" (py_values_text show i l) = map piece (tens l).
  Proof using Hs.
    remember (List.length l) as n eqn:En. revert l En. induction n as [n IH] using (well_founded_induction Wf_nat.lt_wf). intros l -> i Hi.
    destruct (Nat.lt_ge_cases (List.length l) 10) as [Hl|Hl].
    - rewrite values_rest by lia. destruct l as [|x l]; [reflexivity|]. rewrite tens_short by (discriminate || lia). rewrite <- (append_nil (piece _)).
      rewrite split_append by apply piece_nospace. cbn [append split_words map]. apply word_one, piece_nonempty. discriminate.
    - rewrite <- (firstn_skipn 10 l). assert (L10 : List.length (firstn 10 l) = 10%nat) by (rewrite firstn_length; lia).
      assert (Hne : firstn 10 l <> []) by (intros E; rewrite E in L10; discriminate).
      rewrite values_line by (rewrite ?L10, ?Hi; (reflexivity || exact Hne)). rewrite split_word_newline by (apply piece_nospace || apply piece_nonempty; exact Hne).
      rewrite tens_cons by exact L10. cbn [map]. f_equal. apply (IH (List.length (skipn 10 l))); [rewrite skipn_length; lia|reflexivity|].
      rewrite L10. rewrite Zplus_mod, Hi. reflexivity.
  Qed.
End Values.

Section File.
  Context {D : Type} (ar : arith D) (show : D -> string).
  Hypothesis Hs : forall x, nospace (show x) = true /\ show x <> ""%string.
  Local Open Scope string_scope.
  Local Open Scope Z_scope.

  Lemma py_coords_eq dims v lengths f j : up_args dims v lengths -> (j < List.length dims)%nat ->
    py_coords ar (py_of ar dims v lengths f) (Z.of_nat j) = Ok (snd (axis_coords ar dims lengths j)).
  Proof using Type.
    clear Hs. intros (Hg & Hv & Hl) Hj. unfold py_coords. cbn [py_of py_deltas py_numCells]. rewrite (vget_nat _ j (a_zero ar)) by (unfold sizes; rewrite map_length, seq_length; exact Hj).
    cbn [bind]. rewrite (vget_nat dims j 0) by exact Hj. cbn [bind]. rewrite sizes_nth by exact Hj.
    rewrite (tabulate_ok (fun i => a_add ar (a_dec ar 0 1) (a_mul ar (cell_size ar dims lengths j) (a_ofZ ar (Z.of_nat i))))) by reflexivity.
    unfold axis_coords, range. cbn [snd]. rewrite map_map, Z.sub_0_r. reflexivity.
  Qed.
  Lemma py_coords_text_eq dims lengths j : up_grid dims -> (j < List.length dims)%nat ->
    py_coords_text show dims (Z.of_nat j) (snd (axis_coords ar dims lengths j)) =
    Ok (show_int (nth j dims 0 + 1) ++ " double" ++ texts (map (fun x => " " ++ show x) (snd (axis_coords ar dims lengths j)))).
  Proof using Type.
    clear Hs. intros Hg Hj. unfold py_coords_text. rewrite (vget_nat dims j 0) by exact Hj. cbn [bind]. set (l := snd (axis_coords ar dims lengths j)).
    assert (L : List.length l = Z.to_nat (nth j dims 0 + 1)) by (unfold l, axis_coords; cbn [snd]; rewrite map_length, range_length; f_equal; lia).
    rewrite (tabulate_ok (fun i => " " ++ show (nth i l (a_zero ar)))).
    2: { intros i Hi. rewrite (vget_nat l i (a_zero ar)) by lia. reflexivity. }
    cbn [bind]. do 3 f_equal. f_equal. rewrite <- L. clear. induction l as [|x l IH]; [reflexivity|]. cbn [List.length seq map]. rewrite <- seq_shift, map_map. f_equal. exact IH.
  Qed.

  (** The words before the values. *)
  Definition head_words (dims : list Z) (lengths : list D) : list string :=
    let ax j := if (j <? List.length dims)%nat then snd (axis_coords ar dims lengths j) else [] in
    let pts j := if (j <? List.length dims)%nat then nth j dims 0 + 1 else 1 in
    ("DATASET" :: "RECTILINEAR_GRID" :: "DIMENSIONS" :: show_int (pts 2%nat) :: show_int (pts 1%nat) :: show_int (pts 0%nat) ::
     "X_COORDINATES" :: show_int (pts 2%nat) :: "double" :: axis_words show (2 <? List.length dims)%nat (ax 2%nat) ++
     "Y_COORDINATES" :: show_int (pts 1%nat) :: "double" :: axis_words show (1 <? List.length dims)%nat (ax 1%nat) ++
     "Z_COORDINATES" :: show_int (pts 0%nat) :: "double" :: axis_words show true (ax 0%nat) ++
     ["CELL_DATA"; show_int (prodZ dims); "SCALARS"; "f"; "double"; "1"; "LOOKUP_TABLE"; "default"])%list.

  Lemma NL : forall l s, forallb (fun c => negb (Ascii.eqb c (ascii_of_N 10))) (list_ascii_of_string l) = true -> next_line (l ++ newline ++ s) = (l, s).
  Proof using Type.
    clear. intros l s H. apply next_line_newline. clear - H. induction l as [|x l IH]; intros i d G; [destruct i; discriminate|].
    cbn [list_ascii_of_string forallb] in H. apply andb_prop in H as [H1 H2]. destruct i; cbn [String.get] in G; [|exact (IH H2 i d G)].
    injection G as <-. intros ->. discriminate.
  Qed.

  (** An axis as it stands in the file: absent axes have one coordinate. *)
  Definition py_axis_text (dims : list Z) (lengths : list D) (j : nat) : string :=
    if (j <? List.length dims)%nat
    then show_int (nth j dims 0 + 1) ++ " double" ++ texts (map (fun x => " " ++ show x) (snd (axis_coords ar dims lengths j)))
    else "1 double 0.0".
  Definition py_file (dims : list Z) (lengths : list D) (f : list D) : string :=
    let pts j := if (j <? List.length dims)%nat then nth j dims 0 + 1 else 1 in
    "# vtk DataFile Version 2.0" ++ newline ++ "upwind" ++ newline ++ "ASCII" ++ newline ++ "DATASET RECTILINEAR_GRID" ++ newline ++
    "DIMENSIONS" ++ (" " ++ show_int (pts 2%nat)) ++ (" " ++ show_int (pts 1%nat)) ++ " " ++ show_int (pts 0%nat) ++ newline ++
    "X_COORDINATES " ++ py_axis_text dims lengths 2 ++ newline ++ "Y_COORDINATES " ++ py_axis_text dims lengths 1 ++
    newline ++ "Z_COORDINATES " ++ py_axis_text dims lengths 0 ++ newline ++ "CELL_DATA " ++ show_int (prodZ dims) ++ newline ++ "SCALARS f double 1" ++ newline ++
    "LOOKUP_TABLE default" ++ newline ++ py_values_text show 0 f.

  Lemma py_saveVTK_eq dims v lengths f : up_args dims v lengths -> (List.length dims <= 3)%nat -> vlen f = prodZ dims ->
    py_saveVTK ar show (py_of ar dims v lengths f) = Ok (py_file dims lengths f).
  Proof using Type.
    clear Hs. intros Ha H3 L. pose proof Ha as (Hg & Hv & Hl). pose proof (fun j => py_coords_eq dims v lengths f j Ha) as C. pose proof (fun j => py_coords_text_eq dims lengths j Hg) as T.
    pose proof (fun j Hj => vget_nat dims j 0 Hj) as V. pose proof Hg as (Hn & _).
    unfold py_saveVTK. change (py_ndims (py_of ar dims v lengths f)) with (vlen dims). change (py_numCells (py_of ar dims v lengths f)) with dims. change (py_f (py_of ar dims v lengths f)) with f.
    change (fold_right Z.mul 1 dims) with (prodZ dims). rewrite L, Z.eqb_refl. unfold py_rectilinear, py_file, py_axis_text. rewrite L. change (vlen dims) with (Z.of_nat (List.length dims)).
    pose proof (C 0%nat) as C0. pose proof (C 1%nat) as C1. pose proof (C 2%nat) as C2. pose proof (T 0%nat) as T0. pose proof (T 1%nat) as T1. pose proof (T 2%nat) as T2.
    pose proof (V 0%nat) as V0. pose proof (V 1%nat) as V1. pose proof (V 2%nat) as V2. clear C T V.
    change (Z.of_nat 0) with 0 in *. change (Z.of_nat 1) with 1 in *. change (Z.of_nat 2) with 2 in *.
    destruct (List.length dims) as [|[|[|[|k]]]] eqn:El; [destruct dims; [congruence|discriminate]|..|lia].
    - change (2 <? Z.of_nat 1) with false. change (1 <? Z.of_nat 1) with false. change (0 <? Z.of_nat 1) with true. cbn [Nat.ltb Nat.leb bind].
      rewrite C0 by lia. cbn [bind]. rewrite V0 by lia. cbn [bind]. rewrite T0 by lia. reflexivity.
    - change (2 <? Z.of_nat 2) with false. change (1 <? Z.of_nat 2) with true. change (0 <? Z.of_nat 2) with true. cbn [Nat.ltb Nat.leb bind].
      rewrite C1, C0 by lia. cbn [bind]. rewrite V1, V0 by lia. cbn [bind]. rewrite T1, T0 by lia. reflexivity.
    - change (2 <? Z.of_nat 3) with true. change (1 <? Z.of_nat 3) with true. change (0 <? Z.of_nat 3) with true. cbn [Nat.ltb Nat.leb bind].
      rewrite C2, C1, C0 by lia. cbn [bind]. rewrite V2, V1, V0 by lia. cbn [bind]. rewrite T2, T1, T0 by lia. reflexivity.
  Qed.

  Lemma split_py_axis key dims lengths j s : nospace key = true -> key <> "" ->
    split_words "" (key ++ " " ++ py_axis_text dims lengths j ++ newline ++ s) =
    (key :: show_int (if (j <? List.length dims)%nat then nth j dims 0 + 1 else 1) :: "double" ::
     axis_words show (j <? List.length dims)%nat (if (j <? List.length dims)%nat then snd (axis_coords ar dims lengths j) else []) ++ split_words "" s)%list.
  Proof using Hs.
    intros K1 K2. rewrite split_word_space by assumption. f_equal. unfold py_axis_text. destruct (j <? List.length dims)%nat; cbn [axis_words].
    - rewrite !append_assoc. rewrite (lit2 " double" " " "double" _ eq_refl).
      rewrite split_word_space by (apply nospace_int || apply show_int_nonempty). f_equal. rewrite split_append by reflexivity.
      rewrite (split_spaced show Hs _ ("" ++ "double")) by reflexivity. reflexivity.
    - reflexivity.
  Qed.

  Lemma py_file_words dims lengths f : (1 <= List.length dims)%nat ->
    read_header (py_file dims lengths f) = Some (head_words dims lengths ++ map (fun g => texts (map show g)) (tens f))%list.
  Proof using Hs.
    intros Hd. unfold read_header, py_file.
    rewrite (NL "# vtk DataFile Version 2.0") by reflexivity. rewrite (NL "upwind") by reflexivity. rewrite (NL "ASCII") by reflexivity.
    rewrite !String.eqb_refl. cbn [andb]. f_equal. unfold words.
    rewrite (lit3 "DATASET RECTILINEAR_GRID" "DATASET" " " "RECTILINEAR_GRID" _ eq_refl).
    rewrite split_word_space by (reflexivity || discriminate). rewrite split_word_newline by (reflexivity || discriminate). rewrite !append_assoc.
    rewrite split_word_space by (reflexivity || discriminate). rewrite !(split_word_space (show_int _)) by (apply nospace_int || apply show_int_nonempty).
    rewrite (split_word_newline (show_int _)) by (apply nospace_int || apply show_int_nonempty).
    rewrite (lit2 "X_COORDINATES " "X_COORDINATES" " " _ eq_refl). rewrite split_py_axis by (reflexivity || discriminate).
    rewrite (lit2 "Y_COORDINATES " "Y_COORDINATES" " " _ eq_refl). rewrite split_py_axis by (reflexivity || discriminate).
    rewrite (lit2 "Z_COORDINATES " "Z_COORDINATES" " " _ eq_refl). rewrite split_py_axis by (reflexivity || discriminate).
    rewrite (lit2 "CELL_DATA " "CELL_DATA" " " _ eq_refl). rewrite split_word_space by (reflexivity || discriminate).
    rewrite split_word_newline by (apply nospace_int || apply show_int_nonempty).
    rewrite (lit3 "SCALARS f double 1" "SCALARS" " " "f double 1" _ eq_refl), (lit3 "f double 1" "f" " " "double 1" _ eq_refl), (lit3 "double 1" "double" " " "1" _ eq_refl).
    do 3 rewrite split_word_space by (reflexivity || discriminate). rewrite split_word_newline by (reflexivity || discriminate).
    rewrite (lit3 "LOOKUP_TABLE default" "LOOKUP_TABLE" " " "default" _ eq_refl).
    rewrite split_word_space by (reflexivity || discriminate). rewrite split_word_newline by (reflexivity || discriminate).
    rewrite split_py_values by (exact Hs || reflexivity). unfold head_words.
    assert (E0 : (0 <? List.length dims)%nat = true) by (apply Nat.ltb_lt; lia). rewrite E0.
    cbn [app]. rewrite <- !app_assoc. cbn [app]. rewrite <- !app_assoc. cbn [app]. rewrite <- !app_assoc. reflexivity.
  Qed.

  (** The C++ file of the same field. *)
  Lemma cxx_file_words dims lengths f : (1 <= List.length dims <= 3)%nat -> vlen f = prodZ dims ->
    read_header (rect_text show (vlen dims) (mkRect
      (map (fun j => if (j <? List.length dims)%nat then nth j dims 0 + 1 else 1) [2; 1; 0]%nat)
      (map (fun j => if (j <? List.length dims)%nat then axis_coords ar dims lengths j else (1, [a_dec ar 0 1])) [2; 1; 0]%nat)
      (prodZ dims) f)) = Some (head_words dims lengths ++ map show f)%list.
  Proof using Hs.
    intros Hd L. unfold rect_text. cbn [rg_dims rg_coords rg_count rg_values nth map]. unfold read_header.
    rewrite (NL "# vtk DataFile Version 2.0") by reflexivity. rewrite (NL "upwind.cxx") by reflexivity. rewrite (NL "ASCII") by reflexivity.
    rewrite !String.eqb_refl. cbn [andb bindo]. unfold words. f_equal.
    rewrite (lit3 "DATASET RECTILINEAR_GRID" "DATASET" " " "RECTILINEAR_GRID" _ eq_refl).
    rewrite split_word_space by (reflexivity || discriminate). rewrite split_word_newline by (reflexivity || discriminate).
    rewrite split_append by reflexivity. change ("" ++ "DIMENSIONS") with "DIMENSIONS".
    match goal with |- context [texts [" " ++ show_int ?a; " " ++ show_int ?b; " " ++ show_int ?c]] =>
      change (texts [" " ++ show_int a; " " ++ show_int b; " " ++ show_int c]) with (texts (map (fun d => " " ++ show_int d) [a; b; c]));
      rewrite (split_spaced show_int (fun x => conj (nospace_int x) (show_int_nonempty x)) [a; b; c] "DIMENSIONS") by reflexivity end.
    assert (SA : forall key j s, nospace key = true -> key <> "" -> forall b, b = (j <? List.length dims)%nat ->
      split_words "" (key ++ " " ++ coords_text show b (if (j <? List.length dims)%nat then axis_coords ar dims lengths j else (1, [a_dec ar 0 1])) ++ newline ++ s) =
      (key :: show_int (if (j <? List.length dims)%nat then nth j dims 0 + 1 else 1) :: "double" ::
       axis_words show (j <? List.length dims)%nat (if (j <? List.length dims)%nat then snd (axis_coords ar dims lengths j) else []) ++ split_words "" s)%list).
    { intros key j s K1 K2 b ->. destruct (j <? List.length dims)%nat.
      - change (axis_coords ar dims lengths j) with (nth j dims 0 + 1, snd (axis_coords ar dims lengths j)). rewrite split_axis by assumption. reflexivity.
      - rewrite split_axis by assumption. reflexivity. }
    rewrite (lit2 "X_COORDINATES " "X_COORDINATES" " " _ eq_refl). rewrite (SA "X_COORDINATES" 2%nat) by (reflexivity || discriminate || (unfold vlen; destruct (Z.ltb_spec 2 (Z.of_nat (List.length dims))), (Nat.ltb_spec 2 (List.length dims)); reflexivity || lia)).
    rewrite (lit2 "Y_COORDINATES " "Y_COORDINATES" " " _ eq_refl). rewrite (SA "Y_COORDINATES" 1%nat) by (reflexivity || discriminate || (unfold vlen; destruct (Z.ltb_spec 1 (Z.of_nat (List.length dims))), (Nat.ltb_spec 1 (List.length dims)); reflexivity || lia)).
    rewrite (lit2 "Z_COORDINATES " "Z_COORDINATES" " " _ eq_refl). rewrite (SA "Z_COORDINATES" 0%nat) by (reflexivity || discriminate || (destruct (Nat.ltb_spec 0 (List.length dims)); reflexivity || lia)).
    rewrite (lit2 "CELL_DATA " "CELL_DATA" " " _ eq_refl). rewrite split_word_space by (reflexivity || discriminate).
    rewrite split_word_newline by (apply nospace_int || apply show_int_nonempty).
    rewrite (lit3 "SCALARS f double 1" "SCALARS" " " "f double 1" _ eq_refl), (lit3 "f double 1" "f" " " "double 1" _ eq_refl), (lit3 "double 1" "double" " " "1" _ eq_refl).
    do 3 rewrite split_word_space by (reflexivity || discriminate). rewrite split_word_newline by (reflexivity || discriminate).
    rewrite (lit3 "LOOKUP_TABLE default" "LOOKUP_TABLE" " " "default" _ eq_refl).
    rewrite split_word_space by (reflexivity || discriminate). rewrite split_word_newline by (reflexivity || discriminate).
    rewrite <- (append_nil (values_text show 0 f ++ newline)), append_assoc, split_values by exact Hs. cbn [split_words word]. rewrite app_nil_r.
    unfold head_words. assert (E0 : (0 <? List.length dims)%nat = true) by (apply Nat.ltb_lt; lia). rewrite E0. cbn [word app map].
    rewrite <- !app_assoc. cbn [app]. rewrite <- !app_assoc. cbn [app]. rewrite <- !app_assoc. reflexivity.
  Qed.

  (** ** Reading the words *)
  Lemma numbers_left (l : list D) ws a r : next_numbers (List.length l) (map show l ++ ws)%list = Some (a, r) -> r = ws.
  Proof using Type.
    clear. revert a r. induction l as [|x l IH]; intros a r E; [injection E as _ <-; reflexivity|]. cbn [List.length next_numbers map app next bindo fst snd] in E.
    destruct (numeral (show x)); [|discriminate]. cbn [bindo] in E. destruct (next_numbers (List.length l) (map show l ++ ws)) as [[b q]|] eqn:E2; [|discriminate].
    cbn [bindo fst snd] in E. injection E as _ <-. exact (IH _ _ eq_refl).
  Qed.
  Lemma numbers_few n ws : (List.length ws < n)%nat -> next_numbers n ws = None.
  Proof using Type.
    clear. revert ws. induction n as [|n IH]; intros ws H; [lia|]. cbn [next_numbers]. destruct ws as [|w ws]; [reflexivity|]. cbn [next bindo fst snd].
    destruct (numeral w); [|reflexivity]. cbn [bindo]. rewrite IH by (cbn [List.length] in H; lia). reflexivity.
  Qed.
  Lemma axis_left key n (present : bool) (xs : list D) ws p : (if present then Z.of_nat (List.length xs) = n else n = 1) ->
    read_axis key n (key :: show_int n :: "double" :: axis_words show present xs ++ ws)%list = Some p -> snd p = ws.
  Proof using Type.
    clear. intros L E. unfold read_axis in E. rewrite expect_same in E. cbn [bindo] in E. unfold next_nat in E. cbn [next bindo fst snd] in E.
    rewrite read_nat_int in E by (destruct present; lia). cbn [bindo fst snd] in E. rewrite Z.eqb_refl in E. cbn [next_type next bindo fst snd] in E.
    change (("double" =? "float")%string || ("double" =? "double")%string)%bool with true in E. cbv iota in E. cbn [bindo] in E. destruct p as [a r].
    destruct present; cbn [axis_words] in E.
    - rewrite <- L, Nat2Z.id in E. exact (numbers_left _ _ _ _ E).
    - subst n. change (Z.to_nat 1) with 1%nat in E. cbn in E. injection E as _ <-. reflexivity.
  Qed.

  Lemma head_read dims lengths vs text : up_grid dims -> (List.length dims <= 3)%nat -> read_header text = Some (head_words dims lengths ++ vs)%list ->
    (List.length vs < Z.to_nat (prodZ dims))%nat -> read_rectilinear text = None.
  Proof using Type.
    clear Hs. intros Hg H3 Hh Hv. pose proof (up_big _ Hg) as Hb. pose proof (axis_range dims Hb) as P. pose proof (nd_pos dims Hb) as Hn.
    unfold read_rectilinear. rewrite Hh. cbn [bindo]. unfold head_words.
    set (pts := fun j => if (j <? List.length dims)%nat then nth j dims 0 + 1 else 1). set (ax := fun j => if (j <? List.length dims)%nat then snd (axis_coords ar dims lengths j) else []).
    fold (pts 0%nat) (pts 1%nat) (pts 2%nat) (ax 0%nat) (ax 1%nat) (ax 2%nat).
    assert (P0 : forall j, 1 <= pts j) by (intros j; unfold pts; destruct (Nat.ltb_spec j (List.length dims)) as [Hj|]; [specialize (P j Hj)|]; lia).
    assert (Lx : forall j, if (j <? List.length dims)%nat then Z.of_nat (List.length (ax j)) = pts j else pts j = 1).
    { intros j. unfold ax, pts. destruct (Nat.ltb_spec j (List.length dims)) as [Hj|]; [|reflexivity]. unfold axis_coords. cbn [snd]. rewrite map_length, range_length. specialize (P j Hj). lia. }
    cbn [app]. repeat (rewrite <- app_assoc; cbn [app]). rewrite expect_same. cbn [bindo]. rewrite expect_same. cbn [bindo].
    unfold read_dims. rewrite expect_same. cbn [bindo].
    unfold next_nat at 1 2 3. cbn [next bindo fst snd]. rewrite read_nat_int by (specialize (P0 2%nat); lia). cbn [next bindo fst snd]. rewrite read_nat_int by (specialize (P0 1%nat); lia).
    cbn [next bindo fst snd]. rewrite read_nat_int by (specialize (P0 0%nat); lia). cbn [bindo fst snd].
    match goal with |- bindo ?r _ = _ => destruct r as [x|] eqn:Ex; [|reflexivity] end. cbn [bindo]. apply axis_left in Ex; [|apply (Lx 2%nat)]. rewrite Ex.
    match goal with |- bindo ?r _ = _ => destruct r as [y|] eqn:Ey; [|reflexivity] end. cbn [bindo]. apply axis_left in Ey; [|apply (Lx 1%nat)]. rewrite Ey.
    match goal with |- bindo ?r _ = _ => destruct r as [z|] eqn:Ez; [|reflexivity] end. cbn [bindo]. apply axis_left in Ez.
    2: { pose proof (Lx 0%nat) as L0. destruct (Nat.ltb_spec 0 (List.length dims)); [exact L0|lia]. }
    rewrite Ez.
    assert (Ec : cells_along (pts 2%nat) * cells_along (pts 1%nat) * cells_along (pts 0%nat) = prodZ dims).
    { clear - P H3 Hn. unfold cells_along, pts. destruct dims as [|a [|b [|c [|d t]]]]; cbn [List.length] in *; try lia; cbn [Nat.ltb Nat.leb nth];
        pose proof (P 0%nat ltac:(cbn; lia)); try pose proof (P 1%nat ltac:(cbn; lia)); try pose proof (P 2%nat ltac:(cbn; lia)); cbn [nth] in *;
        rewrite !prodZ_cons; change (prodZ []) with 1; change (Z.max 1 (1 - 1)) with 1; repeat match goal with |- context [Z.max 1 (?x + 1 - 1)] => replace (Z.max 1 (x + 1 - 1)) with x by lia end; ring. }
    rewrite Ec. unfold read_scalars. rewrite expect_same. cbn [bindo]. unfold next_nat. cbn [next bindo fst snd].
    pose proof (prod_range dims Hb) as Pr. rewrite read_nat_int by lia. cbn [bindo fst snd]. rewrite Z.eqb_refl, expect_same. cbn [next bindo fst snd].
    unfold next_type. cbn [next bindo fst snd]. change (("double" =? "float")%string || ("double" =? "double")%string)%bool with true. cbv iota. cbn [bindo].
    rewrite expect_same, expect_same. cbn [bindo]. rewrite expect_same. cbn [bindo]. rewrite numbers_few by exact Hv. reflexivity.
  Qed.
End File.

(** Against the C++ file of the same field: the same words up to the values; then one word for every ten values, the
    decimals of ten numbers written without anything between them. *)
Theorem C77_words {D} (ar : arith D) show dims v lengths p u :
  (forall x, nospace (show x) = true /\ show x <> ""%string) ->
  up_args dims v lengths -> (List.length dims <= 3)%nat -> shorter_axes dims ->
  py_object ar dims v lengths p -> up_object ar dims v lengths u -> py_f p = up_f u ->
  exists text r ws, py_saveVTK ar show p = Ok text /\ up_saveVTK ar (vlen dims) u = Ok r /\
    read_header (rect_text show (vlen dims) r) = Some (ws ++ map show (up_f u)) /\
    read_header text = Some (ws ++ map (fun g => texts (map show g)) (tens (up_f u))).
Proof.
  intros Hs Ha H3 Hsh Hp Hu E. pose proof Ha as (Hg & _). pose proof (nd_pos dims (up_big _ Hg)) as Hn.
  apply (py_object_of ar _ _ _ _ Ha) in Hp as (f & L & ->). apply (up_object_of ar _ _ _ _ Ha) in Hu as (f' & old & L' & _ & ->).
  cbn [py_of up_of py_f up_f] in *. subst f'. rewrite py_saveVTK_eq, up_saveVTK_eq by auto. eexists _, _, (head_words ar show dims lengths).
  split; [reflexivity|]. split; [reflexivity|]. split; [apply cxx_file_words; auto|apply py_file_words; auto].
Qed.
Print Assumptions C77_words.

(** With two cells or more the file cannot be read. *)
Theorem C77_unreadable {D} (ar : arith D) show dims v lengths p :
  (forall x, nospace (show x) = true /\ show x <> ""%string) ->
  up_args dims v lengths -> (List.length dims <= 3)%nat -> 2 <= prodZ dims -> py_object ar dims v lengths p ->
  exists text, py_saveVTK ar show p = Ok text /\ read_rectilinear text = None.
Proof.
  intros Hs Ha H3 H2 Hp. pose proof Ha as (Hg & _). pose proof (nd_pos dims (up_big _ Hg)) as Hn.
  apply (py_object_of ar _ _ _ _ Ha) in Hp as (f & L & ->). rewrite py_saveVTK_eq by auto. eexists. split; [reflexivity|].
  apply (head_read ar show dims lengths _ _ Hg H3 (py_file_words ar show Hs dims lengths f Hn)). rewrite map_length, tens_length.
  unfold vlen in L. replace (Z.to_nat (prodZ dims)) with (List.length f) by lia. apply Nat.div_lt_upper_bound; lia.
Qed.
Print Assumptions C77_unreadable.

(** With one cell a reader that skips white space reads from it what it reads from the C++ file. *)
Lemma read_same a b : read_header a = read_header b -> read_rectilinear a = read_rectilinear b.
Proof. intros H. unfold read_rectilinear. rewrite H. reflexivity. Qed.

Theorem C77_one_cell {D} (ar : arith D) show dims v lengths p u :
  (forall x, nospace (show x) = true /\ show x <> ""%string) ->
  up_args dims v lengths -> (List.length dims <= 3)%nat -> prodZ dims = 1 -> shorter_axes dims ->
  py_object ar dims v lengths p -> up_object ar dims v lengths u -> py_f p = up_f u ->
  exists text r, py_saveVTK ar show p = Ok text /\ up_saveVTK ar (vlen dims) u = Ok r /\
    read_rectilinear text = read_rectilinear (rect_text show (vlen dims) r).
Proof.
  intros Hs Ha H3 H1 Hsh Hp Hu E. destruct (C77_words ar show _ _ _ p u Hs Ha H3 Hsh Hp Hu E) as (text & r & ws & E1 & E2 & R1 & R2).
  exists text, r. split; [exact E1|]. split; [exact E2|]. apply read_same. rewrite R1, R2. do 2 f_equal.
  apply (up_object_of ar _ _ _ _ Ha) in Hu as (f & old & L & _ & ->). cbn [up_of up_f]. rewrite H1 in L. unfold vlen in L.
  destruct f as [|x [|y f]]; cbn [List.length] in L; try lia. rewrite tens_short by (discriminate || (cbn; lia)). cbn [map texts]. rewrite append_nil. reflexivity.
Qed.
Print Assumptions C77_one_cell.

(** ** The whole program *)
Lemma cube_prod n : prodZ [n; n; n] = n * n * n.
Proof. rewrite !prodZ_cons. change (prodZ []) with 1. ring. Qed.

(** Without an argument: a message and status 1. *)
Theorem C76_usage {D} (ar : arith D) show read psum argv : (List.length argv <= 1)%nat ->
  exists r, py_main ar show read psum argv = Ok r /\ r_exit r = 1 /\ r_files r = [] /\ r_out r <> ""%string.
Proof. intros H. destruct argv as [|a [|b t]]; [..|cbn in H; lia]; (eexists; split; [reflexivity|repeat split; discriminate]). Qed.
Print Assumptions C76_usage.

(** The words after the number of cells: the number of time steps (100 when there is none) and whether the third is vtk. *)
Definition py_rest (read : string -> option Z) (rest : list string) (steps : Z) (vtk : bool) : Prop :=
  match rest with
  | [] => steps = 100 /\ vtk = false
  | [a2] => read a2 = Some steps /\ vtk = false
  | a2 :: a3 :: _ => read a2 = Some steps /\ (vtk = true <-> a3 = "vtk"%string)
  end.

Lemma py_main_eq {D} (ar : arith D) show read psum exec a1 rest n steps vtk : read a1 = Some n -> py_rest read rest steps vtk -> 1 <= n -> n * n * n < 2 ^ 31 ->
  exists p text, py_body ar n steps = Ok p /\ py_saveVTK ar show p = Ok text /\ py_object ar [n; n; n] (repeat (a_ofZ ar 1) 3) (repeat (a_ofZ ar 1) 3) p /\
    py_main ar show read psum (exec :: a1 :: rest) = Ok (mkRun
      ("number of cells:  " ++ py_list_text (repeat n 3) ++ newline ++ "number of time steps:  " ++ show_int steps ++ newline ++ "check sum:  " ++ show (psum (py_f p)) ++ newline)
      "" (if vtk then [("up.vtk", text)] else []) 0)%string.
Proof.
  intros R1 R2 H1 H2. destruct (py_body_eq ar n steps H1 H2) as (p & Ep & Hp & _). destruct (cube_args (a_ofZ ar 1) n H1 H2) as (Ha & _).
  pose proof Hp as Hp'. apply (py_object_of ar _ _ _ _ Ha) in Hp' as (f & L & Epf).
  exists p, (py_file ar show [n; n; n] (repeat (a_ofZ ar 1) 3) f). split; [exact Ep|].
  assert (Ev : py_saveVTK ar show p = Ok (py_file ar show [n; n; n] (repeat (a_ofZ ar 1) 3) f)) by (rewrite Epf; apply py_saveVTK_eq; [exact Ha|cbn; lia|exact L]).
  split; [exact Ev|]. split; [exact Hp|].
  unfold py_main. rewrite R1. cbn [bind]. destruct rest as [|a2 [|a3 t]]; cbn [py_rest] in R2; destruct R2 as (R2 & Rv).
  - subst steps vtk. cbn [bind]. rewrite Ep. reflexivity.
  - subst vtk. rewrite R2. cbn [bind]. rewrite Ep. reflexivity.
  - rewrite R2. cbn [bind]. rewrite Ep. cbn [bind]. destruct (String.eqb_spec a3 "vtk") as [E|E]; destruct vtk.
    + rewrite Ev. reflexivity.
    + exfalso. apply Rv in E. discriminate.
    + exfalso. apply E, Rv. reflexivity.
    + reflexivity.
Qed.

(** In doubles: with a positive number of cells (fewer than 2^31 in all) and up to two hundred million steps the program ends
    with status 0, its check sum is 1 to six decimals, and the test accepts the output, provided the text of a double between
    1/2 and 3/2 starts with 0 or 1. *)
Theorem C76_program show read psum exec a1 rest n steps vtk :
  sums arD psum -> read a1 = Some n -> py_rest read rest steps vtk -> 1 <= n -> n * n * n < 2 ^ 31 -> 0 <= steps <= 2 * 10 ^ 8 ->
  exists r x s, py_main arD show read psum (exec :: a1 :: rest) = Ok r /\ r_exit r = 0 /\ (vtk = false -> r_files r = []) /\
    double_value x s /\ (Rabs (s - 1) < / 2000000)%R /\
    (exists pre, r_out r = pre ++ "check sum:  " ++ show x ++ line_end)%string /\
    ((forall x r, double_value x r -> (1 / 2 < r < 3 / 2)%R -> exists c t, show x = String c t /\ In c ["0"; "1"]%char) -> ctest_accepts (r_out r)).
Proof.
  intros Hps R1 R2 H1 H2 H4. destruct (C76_check_sum psum n steps Hps H1 H2 ltac:(lia)) as (p & s & Ep & _ & Vs & B).
  destruct (py_main_eq arD show read psum exec a1 rest n steps vtk R1 R2 H1 H2) as (p' & text & Ep' & _ & _ & Em). rewrite Ep in Ep'. injection Ep' as <-.
  eexists _, (psum (py_f p)), s. split; [exact Em|]. split; [reflexivity|]. split; [intros ->; reflexivity|]. split; [exact Vs|].
  assert (Bs : (Rabs (s - 1) < / 2000000)%R).
  { eapply Rle_lt_trans; [exact B|]. assert (S2 : (IZR steps <= 200000000)%R) by (apply IZR_le; lia). assert (N2 : (IZR (n * n * n) <= 2147483648)%R) by (apply IZR_le; lia).
    unfold Rdiv. change (/ 2 ^ 53)%R with eps. apply Rle_lt_trans with ((7 * 200000000 + 12 / 10 * (2147483648 + 2)) * eps)%R.
    - apply Rmult_le_compat_r; [pose proof eps_small; lra|lra].
    - unfold eps. simpl. lra. }
  split; [exact Bs|]. cbn [r_out].
  set (pre := ("number of cells:  " ++ py_list_text (repeat n 3) ++ newline ++ "number of time steps:  " ++ show_int steps ++ newline)%string).
  assert (Eo : forall t, ("number of cells:  " ++ py_list_text (repeat n 3) ++ newline ++ "number of time steps:  " ++ show_int steps ++ newline ++ t)%string = (pre ++ t)%string).
  { intros t. unfold pre. rewrite !append_assoc. reflexivity. }
  rewrite Eo. split; [exists pre; reflexivity|]. intros Hsh. apply Rabs_def2 in Bs. destruct (Hsh _ _ Vs ltac:(lra)) as (c & t & Es & Hc). rewrite Es.
  exists pre, "c"%char, "  "%string, c, (t ++ newline)%string. split; [reflexivity|]. split; [right; reflexivity|]. split.
  - intros [|[|i]] a E; cbn in E; [injection E as <-; reflexivity..|destruct i; discriminate].
  - cbn [In] in *. tauto.
Qed.
Print Assumptions C76_program.

(** With vtk and two cells or more along each axis the program leaves a file that cannot be read. *)
Theorem C77_program {D} (ar : arith D) show read psum exec a1 rest n steps :
  (forall x, nospace (show x) = true /\ show x <> ""%string) ->
  read a1 = Some n -> py_rest read rest steps true -> 2 <= n -> n * n * n < 2 ^ 31 ->
  exists r text, py_main ar show read psum (exec :: a1 :: rest) = Ok r /\ r_files r = [("up.vtk"%string, text)] /\ read_rectilinear text = None.
Proof.
  intros Hs R1 R2 H1 H2. destruct (py_main_eq ar show read psum exec a1 rest n steps true R1 R2 ltac:(lia) H2) as (p & text & _ & Ev & Hp & Em).
  destruct (cube_args (a_ofZ ar 1) n ltac:(lia) H2) as (Ha & _).
  destruct (C77_unreadable ar show _ _ _ p Hs Ha ltac:(cbn; lia) ltac:(rewrite cube_prod; nia) Hp) as (text' & Ev' & Hr). rewrite Ev in Ev'. injection Ev' as <-.
  eexists _, text. split; [exact Em|]. split; [reflexivity|exact Hr].
Qed.
Print Assumptions C77_program.

(** ** 2^31 cells or more: the table of index sets is wrong *)

Lemma py_row_at N d n i : 0 <= i < N -> vget (py_row N d n) i = Ok (np_mod (np_div (i32 i) d) n).
Proof.
  intros H. unfold py_row. rewrite <- (Z2Nat.id i) at 1 by lia. rewrite (vget_nat _ _ 0) by (rewrite map_length, seq_length; lia).
  rewrite map_seq_nth by lia. rewrite Z2Nat.id by lia. reflexivity.
Qed.
Lemma py_new_many {D} (ar : arith D) v lengths a b c : List.length v = 3%nat -> List.length lengths = 3%nat -> 0 < prodZ [a; b; c] ->
  forall dp rows, py_strides 3 [a; b; c] = Ok dp -> py_rows 3 (prodZ [a; b; c]) dp [a; b; c] = Ok rows ->
  exists p, py_new ar v lengths [a; b; c] = Ok p /\ py_ntot p = prodZ [a; b; c] /\ py_inds p = rows.
Proof.
  intros Lv Ll Hp dp rows Es Er. destruct (py_coeffs_eq ar [a; b; c] v lengths Lv Ll) as (co & Eco & _).
  unfold py_new. replace (vlen v) with 3 by (unfold vlen; rewrite Lv; reflexivity).
  pose proof (py_axes_eq ar [a; b; c] v lengths Lv Ll) as Ea. change (Z.of_nat (List.length [a; b; c])) with 3 in *. rewrite Ea. cbn [bind]. rewrite Es. cbn [bind]. rewrite Eco. cbn [bind].
  destruct (Z.ltb_spec (prodZ [a; b; c]) 0); [lia|].
  change 0 with (Z.of_nat 0) at 2. rewrite vset_nat by (rewrite repeat_length; lia). cbn [bind]. rewrite Er. cbn [bind]. eexists. split; [reflexivity|]. split; reflexivity.
Qed.
Lemma py_rows3 N d0 d1 n : np_int n = Ok n -> py_rows 3 N [d0; d1; 1] [n; n; n] = Ok [py_row N d0 n; py_row N d1 n; py_row N 1 n].
Proof.
  intros Hn. unfold py_rows, tabulate. change (Z.to_nat 3) with 3%nat. cbn [tab_from]. change (Z.of_nat 0) with 0. change (Z.of_nat 1) with 1. change (Z.of_nat 2) with 2.
  change (vget [d0; d1; 1] 0) with (Ok d0). change (vget [d0; d1; 1] 1) with (Ok d1). change (vget [d0; d1; 1] 2) with (Ok 1).
  repeat (change (vget [n; n; n] ?k) with (Ok n); cbn [bind]; rewrite Hn; cbn [bind]). reflexivity.
Qed.

(** With 1291 cells along each axis the object is built without an error, but the index along the last axis of cell number
    2^31 is 609 in its table, while 2^31 mod 1291 is 682 (numpy.arange holds numbers that do not fit the int32 table). *)
Theorem C76_index_table_refuted :
  exists n p row x, py_new arR (repeat 1%R 3) (repeat 1%R 3) (repeat n 3) = Ok p /\ 2 ^ 31 < py_ntot p /\
    vget (py_inds p) 2 = Ok row /\ vget row (2 ^ 31) = Ok x /\ x <> 2 ^ 31 mod n.
Proof.
  assert (Es : py_strides 3 [1291; 1291; 1291] = Ok [1666681; 1291; 1]) by (vm_compute; reflexivity).
  destruct (py_new_many arR (repeat 1%R 3) (repeat 1%R 3) 1291 1291 1291 eq_refl eq_refl ltac:(reflexivity) _ _ Es (py_rows3 _ 1666681 1291 1291 eq_refl)) as (p & Ep & En & Ei).
  exists 1291, p, (py_row (prodZ [1291; 1291; 1291]) 1 1291), 609. change (repeat 1291 3) with [1291; 1291; 1291]. split; [exact Ep|]. split; [rewrite En; reflexivity|].
  split; [rewrite Ei; reflexivity|]. split; [|discriminate]. rewrite py_row_at by (split; [discriminate|reflexivity]). reflexivity.
Qed.
Print Assumptions C76_index_table_refuted.

(** ** Examples *)

(** One step on 3 x 2 x 2 cells, in whole numbers: the field of the Fortran example. *)
Example C76_example :
  match py_new arInt [1; -1; 1] [3; 2; 2] [3; 2; 2] with
  | Ok p => match py_run arInt p 1 1 with Ok p' => py_f p' = [-2; 1; 1; 0; 1; 0; 0; 0; 0; 0; 0; 0] | Undef _ => False end
  | Undef _ => False
  end.
Proof. vm_compute. reflexivity. Qed.

(** numpy.sum as a loop from zero meets [sums]. *)
Example C76_sums {D} (ar : arith D) : sums ar (fun l => fold_left (a_add ar) l (a_ofZ ar 0)).
Proof.
  intros l. exists [a_ofZ ar 0]. split; [cbn; lia|]. split; [intros z [<-|[]]; left; reflexivity|]. cbn [app].
  assert (H : forall k x y, reduction (a_add ar) x y -> reduction (a_add ar) (x ++ k) (fold_left (a_add ar) k y)).
  { induction k as [|z k IH]; intros x y Hr; [rewrite app_nil_r; exact Hr|]. cbn [fold_left]. change (z :: k) with ([z] ++ k). rewrite app_assoc. apply IH.
    eapply red_node; [apply Permutation_refl|exact Hr|apply red_one]. }
  apply (H l [a_ofZ ar 0]). apply red_one.
Qed.

(** The command line "upwind.py 3 2 vtk". *)
Example C76_rest : py_rest one_digit ["2"; "vtk"]%string 2 true /\ py_rest one_digit [] 100 false.
Proof. repeat split. Qed.

(** In whole numbers, two cells along each axis, no step: the eight values make up one word. *)
Example C77_example :
  match py_main arInt show_int (fun s => if string_dec s "0" then Some 0 else one_digit s) (fun l => fold_left Z.add l 0) ["upwind.py"; "2"; "0"; "vtk"]%string with
  | Ok r => match r_files r with
            | [(name, text)] => name = "up.vtk"%string /\ r_exit r = 0 /\ In "10000000"%string (words text) /\ read_rectilinear text = None
            | _ => False
            end
  | Undef _ => False
  end.
Proof. vm_compute. repeat split. repeat (first [left; reflexivity|right]). Qed.
