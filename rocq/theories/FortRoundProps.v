(** * The Fortran and Cython versions in double precision against exact arithmetic: property C95 *)
From Coq Require Import Reals ZArith Lia Lra Psatz Floats.SpecFloat List Permutation String.
From Flocq Require Import Core BinarySingleNaN.
From Verif Require Import Cpp CppProof MaiModel MaiSpec Radix MaiProof CdModel CdSpec FilterModel FilterSpec FilterProof FilterSum RealArith LapSpec
  UpModel UpSpec UpProof UpExact UpProps AccModel AccProps LangSpec FortModel FortProof FortProps Ieee Double DblSpec DblProof DblField DblProps FlowProof FortDbl FortDblProps
  PyModel PySpec PyProps CyModel CyProps RoundProof RoundProps RoundOtherProps FlowGap UpMpiProps.
From Coq Require Import List.
Import ListNotations.
Local Open Scope R_scope.
Local Arguments prodZ : simpl never.
Local Arguments Z.of_nat : simpl never.

Section Program.
  Variable n : Z.
  Hypotheses (H1 : (1 <= n)%Z) (H2 : (n * n * n < 2 ^ 31)%Z).
  Let dims := [n; n; n].
  Let o3 := [uno; uno; uno].

  Lemma f90_dt_close h : double_value (a_div arD uno (a_ofZ arD n)) h -> / 2 ^ 11 <= h <= 1 ->
    exists dt d, fo_dt arD o3 o3 dims = Ok dt /\ double_value dt d /\ 0 <= d <= 111 / 1000 * h /\ Rabs (d - h / 10) <= 23 / 100 * eps * h.
  Proof using H1 H2.
    intros Vh Rh. destruct dv_tenth as (t & Vt & Rt). pose proof eps_small as E. pose proof eta_tiny as Te.
    assert (St : Rabs (t - 1 / 10) <= / 10 * eps + eta) by (rewrite (dv_fun _ _ _ Vt tenth_value); pose proof (rnd_error (1 / 10)) as RT; rewrite (Rabs_pos_eq (1 / 10)) in RT by lra; lra).
    assert (Q0 : 0 < / 2 ^ 11) by (apply Rinv_0_lt_compat, pow_lt; lra).
    assert (T53 : 10 <= 2 ^ 53) by (simpl; lra).
    assert (P : 0 <= t * h <= 11 / 100 * h) by (split; [apply Rmult_le_pos; lra|apply Rmult_le_compat_r; lra]).
    set (d := rnd64 (t * h)).
    assert (Hd : 0 <= d <= 111 / 1000 * h).
    { split; [apply rnd_nn; lra|]. pose proof (rnd_error (t * h)) as R1. apply Rabs_le_inv in R1. rewrite Rabs_pos_eq in R1 by lra. fold d in R1.
      assert (eps * (t * h) <= / 1000000 * (t * h)) by (apply Rmult_le_compat_r; lra).
      assert (eta <= / 10000 * h).
      { apply Rle_trans with (/ 1000000 * / 1000000 * / 1000000); [|simpl in Rh |- *; lra].
        apply Rle_trans with (eps * eps * eps); [lra|]. apply Rmult_le_compat; try lra; [apply Rmult_le_pos; lra|]. apply Rmult_le_compat; lra. }
      lra. }
    assert (Sd : Rabs (d - h / 10) <= 23 / 100 * eps * h).
    { pose proof (rnd_error (t * h)) as R1. apply Rabs_le_inv in R1. rewrite Rabs_pos_eq in R1 by lra. fold d in R1. apply Rabs_le_inv in St.
      assert (eta <= eps * / 10000 * h).
      { apply Rle_trans with (eps * (/ 1000000 * / 1000000)); [|simpl in Rh |- *; nra].
        apply Rle_trans with (eps * (eps * eps)); [lra|]. apply Rmult_le_compat_l; [lra|]. apply Rmult_le_compat; lra. }
      assert (eps * (t * h) <= eps * (11 / 100 * h)) by (apply Rmult_le_compat_l; lra).
      assert (Th : - ((/ 10 * eps + eta) * h) <= t * h - h / 10 <= (/ 10 * eps + eta) * h) by (replace (t * h - h / 10) with ((t - 1 / 10) * h) by field; split; [rewrite Ropp_mult_distr_l|]; apply Rmult_le_compat_r; lra).
      assert (eta * h <= / 1000 * eps * h) by (apply Rmult_le_compat_r; [lra|]; apply Rle_trans with (eps * eps * eps); [lra|]; assert (eps * eps <= / 1000000 * / 1000000) by (apply Rmult_le_compat; lra); replace (eps * eps * eps) with ((eps * eps) * eps) by ring; apply Rmult_le_compat_r; lra).
      assert (0 < eps * h) by (apply Rmult_lt_0_compat; lra).
      apply Rabs_le. lra. }
    assert (V1 : double_value uno 1) by exact (dv_ofZ 1 ltac:(reflexivity)).
    assert (V : double_value (a_div arD (a_mul arD (a_dec arD 1 1) (a_div arD uno (a_ofZ arD n))) uno) d).
    { replace d with (rnd64 (d / 1)) by (unfold Rdiv; rewrite Rinv_1, Rmult_1_r; apply rnd_fmt, rnd_is_fmt).
      apply dv_div; [|exact V1|lra|unfold Rdiv; rewrite Rinv_1, Rmult_1_r, Rabs_pos_eq; lra].
      apply dv_mul; [exact Vt|exact Vh|rewrite Rabs_pos_eq; lra]. }
    set (val := a_div arD (a_mul arD (a_dec arD 1 1) (a_div arD uno (a_ofZ arD n))) uno) in *.
    exists val, d. split; [|split; [assumption|split; assumption]].
    destruct dv_max as (M & VM & RM).
    assert (L1 : a_lt arD (a_max arD) val = false) by (change (a_max arD) with dbl_max; rewrite (dv_lt _ _ _ _ VM V); apply Rlt_bool_false; lra).
    assert (L2 : a_lt arD val val = false) by (rewrite (dv_lt _ _ _ _ V V); apply Rlt_bool_false; lra).
    unfold fo_dt, f_do. change (vlen o3) with 3%Z. unfold for_upto. change (Z.to_nat 3) with 3%nat. cbn [for_from].
    change (Z.of_nat 0 + 1)%Z with 1%Z. change (Z.of_nat 1 + 1)%Z with 2%Z. change (Z.of_nat 2 + 1)%Z with 3%Z. unfold o3, dims.
    repeat (change (fget [uno; uno; uno] ?k) with (Ok uno); change (fget [n; n; n] ?k) with (Ok n); cbn [bind]).
    fold val. rewrite L1, L2. rewrite L2. reflexivity.
  Qed.


  Lemma f90_close k dt : fo_dt arD o3 o3 dims = Ok dt -> INR k <= 2 ^ 31 ->
    exists F, field_is dims (scheme_iter arD k (f90_term arD dims o3 o3 dt) dims o3 (corner (a_ofZ arD 0) (a_ofZ arD 1) dims)) F /\
      gap dims F (exact_field n k) <= 9 * INR k * eps.
  Proof using H1 H2.
    intros Edt Hk. destruct (f90_dx n H1 H2) as (h & Vh & Rh). destruct (f90_dt_close h Vh Rh) as (dt' & d & Edt' & Vd & Rd & Sd). rewrite Edt in Edt'. injection Edt' as <-.
    destruct (inv_h d h Rh Rd) as (H0 & (I1 & I2) & (C0 & C1)).
    destruct (f90_is n H1 H2 k dt d h Vh Rh Vd Rd) as (HF & _). exists (f90_values n d h k). split; [exact HF|].
    set (sd := fun j => upwind_side arD (axis_velocity arD o3 j)). set (fl := fun (_ : nat) => f90_flow d h).
    assert (Hp : pos_axes dims) by exact (up_pos _ _ _ (driver_args n H1 H2)).
    assert (H3 : (List.length dims <= 3)%nat) by apply le_n.
    assert (HK : 0 <= 2 ^ 12 <= 2 ^ 20) by (simpl; lra). pose proof eps_small as E.
    assert (Hc : forall j, (j < List.length dims)%nat -> - / 8 <= (fun _ : nat => - (d * / h)) j <= 0) by (intros j _; cbv beta; lra).
    assert (HT : forall j a b u f, (j < List.length dims)%nat -> double_value a u -> double_value b f -> 0 <= u <= 1 -> 0 <= f <= 1 -> double_value (f90_term arD dims o3 o3 dt j a b) (- fl j f u)).
    { intros j a b u f Hj Va Vb Hu Hf. apply f90_term_value; auto. }
    assert (HE : forall j, (j < List.length dims)%nat -> - / 8 <= (fun _ : nat => - / 10) j <= 0 /\ Rabs ((fun _ : nat => - (d * / h)) j - (fun _ : nat => - / 10) j) <= 23 / 100 * eps).
    { intros j _. cbv beta. split; [lra|]. replace (- (d * / h) - - / 10) with (- ((d - h / 10) * / h)) by (field; lra).
      rewrite Rabs_Ropp, Rabs_mult, (Rabs_pos_eq (/ h)) by lra. apply Rle_trans with (23 / 100 * eps * h * / h); [apply Rmult_le_compat_r; lra|]. rewrite Rmult_assoc, Rinv_r by lra. lra. }
    destruct (cells_number n H1 H2) as [N1 N2].
    assert (G : gap dims (flowed_iter dims sd fl k start) (coef_iter arR dims (fun _ => - / 10) sd k start) <= 9 * INR k * eps).
    { apply (flow_iter_gap dims (f90_term arD dims o3 o3 dt) sd fl (fun _ => - (d * / h)) (f90_low d h) (f90_up d h) (2 ^ 12) Hp H3 HK Hc HT) with (kappa := 23 / 100 * eps) (G := first_cell arD dims).
      - intros f Ff Hf. apply f90_low_ok; assumption.
      - intros f Ff Hf. apply f90_up_ok; assumption.
      - intros j f u _ Ff Hf Fu Hu. apply f90_flow_ok; assumption.
      - intros j f u _ Ff Hf Fu Hu. apply f90_flow_error; assumption.
      - lra.
      - exact HE.
      - exact (start_field n).
      - exact (start_total n H1 H2).
      - unfold dims. rewrite N1. exact N2.
      - exact Hk.
      - apply Rle_refl. }
    exact G.
  Qed.
End Program.

(** upwind.F90 and its variants: the program's field *)
Theorem C95_fortran n steps : (1 <= n)%Z -> (n * n * n < 2 ^ 31)%Z -> (0 <= steps < 2 ^ 31)%Z ->
  let ones := repeat (a_ofZ arD 1) 3 in
  exists dt o u r', fo_dt arD ones ones (repeat n 3) = Ok dt /\ fo_new arD ones ones (repeat n 3) = Ok o /\ fo_run arD o steps dt = Ok u /\
    up_body arR sqrt n steps false false = Ok r' /\ within (fo_f u) (up_f (ur_up r')) (9 * IZR steps / 2 ^ 53).
Proof.
  intros H1 H2 Hs ones. destruct (C87_field n steps H1 H2 ltac:(lia)) as (dt & o & u & Edt & Eo & Eu & _). fold ones in Edt, Eo.
  destruct (exact_driver n steps false false H1 H2) as (r' & Er & Ef). exists dt, o, u, r'. do 3 (split; [assumption|]). split; [exact Er|].
  destruct (cube_args (a_ofZ arD 1) n H1 H2) as (Ha & Hsh). change (repeat n 3) with [n; n; n] in *. fold ones in Ha, Hsh.
  destruct (C74_constructor arD [n; n; n] ones ones Ha) as (o' & Eo' & Ho & Hf). rewrite Eo in Eo'. injection Eo' as <-.
  destruct (C74_advect arD [n; n; n] ones ones o _ dt steps Ha Hsh Ho Hf) as (u' & Eu' & _ & Hu). rewrite Eu in Eu'. injection Eu' as <-.
  destruct (f90_close n H1 H2 (Z.to_nat steps) dt Edt) as (F & HF & G).
  { rewrite INR_IZR_INZ, Z2Nat.id, pow_IZR by lia. apply IZR_le. change (2 ^ Z.of_nat 31)%Z with (2 ^ 31)%Z. lia. }
  rewrite Hu, Ef. apply (within_cells _ _ F); [exact HF|]. eapply Rle_trans; [exact G|]. rewrite INR_IZR_INZ, Z2Nat.id by lia. apply Rle_refl.
Qed.
Print Assumptions C95_fortran.

(** The Cython version, in an interpreter that runs it *)
Theorem C95_cython env n steps :
  cy_python2 env = true -> cy_numpy_unsafe env = true -> (1 <= n)%Z -> (n * n * n < 2 ^ 31)%Z -> (0 <= steps < 2 ^ 31)%Z ->
  exists c c' r', cy_new arD env (repeat (a_ofZ arD 1) 3) (repeat (a_ofZ arD 1) 3) [n; n; n] = Ok c /\ cy_run arD env c steps (py_step arD n) = Ok c' /\
    up_body arR sqrt n steps false false = Ok r' /\ within (cy_f c') (up_f (ur_up r')) (9 * IZR steps / 2 ^ 53).
Proof.
  intros He Hu H1 H2 H4. destruct (cube_args (a_ofZ arD 1) n H1 H2) as (Ha & _).
  destruct (proj1 (C90_constructor arD env _ _ _ Ha) He) as (c & Ec & Oc & Fc). destruct (C76_constructor arD _ _ _ Ha) as (p & Ep & Op & Fp).
  destruct (C90_same_as_python arD env _ _ _ c p (py_step arD n) steps Hu Ha Oc Op (eq_trans Fc (eq_sym Fp))) as (c' & p' & Ec' & Ep' & F).
  destruct (C95_python n steps H1 H2 H4) as (p'' & r' & E & Er & W).
  unfold py_body in E. rewrite py_dt_eq in E. cbn [bind] in E. change (repeat n 3) with [n; n; n] in E.
  change [a_ofZ arD 1; a_ofZ arD 1; a_ofZ arD 1] with (repeat (a_ofZ arD 1) 3) in *. rewrite Ep in E. cbn [bind] in E. rewrite Ep' in E. injection E as <-. exists c, c', r'. do 3 (split; [assumption|]). rewrite F. exact W.
Qed.
Print Assumptions C95_cython.

(** ** The versions among each other *)

(** Two fields of doubles: the sum over all cells of the distances between their values is at most [b]. *)
Definition agree (f g : list spec_float) (b : R) : Prop :=
  exists F G, Forall2 double_value f F /\ Forall2 double_value g G /\ List.length F = List.length G /\
    fold_right Rplus 0 (map (fun p => Rabs (fst p - snd p)) (combine F G)) <= b.

Lemma within_agree f g H b c : within f H b -> within g H c -> agree f g (b + c).
Proof.
  intros (F & VF & LF & SF) (G & VG & LG & SG). exists F, G. split; [exact VF|]. split; [exact VG|]. split; [congruence|].
  eapply Rle_trans; [|exact (Rplus_le_compat _ _ _ _ SF SG)]. clear - LF LG. revert F G LF LG. induction H as [|h H IH]; intros [|x F] [|y G] LF LG; try discriminate; cbn [combine map fold_right fst snd]; [lra|].
  injection LF as LF. injection LG as LG. specialize (IH F G LF LG). assert (Rabs (x - y) <= Rabs (x - h) + Rabs (y - h)).
  { replace (x - y) with ((x - h) + - (y - h)) by ring. eapply Rle_trans; [apply Rabs_triang|]. rewrite Rabs_Ropp. lra. }
  lra.
Qed.

(** The C++ program, the accelerator versions, the Python version and the Fortran version, run with the same command line: whatever two are compared, the fields differ by at
    most 18 steps / 2^53, all cells taken together. *)
Theorem C95_versions_agree dsqrt ver n steps doVtk doStd : (1 <= n)%Z -> (n * n * n < 2 ^ 31)%Z -> (0 <= steps < 2 ^ 31)%Z ->
  let ones := repeat (a_ofZ arD 1) 3 in
  exists r a s d t p dt o u, up_body arD dsqrt n steps doVtk doStd = Ok r /\ acc_body arD ver dsqrt n steps doVtk doStd = Ok (a, s, d, t) /\
    py_body arD n steps = Ok p /\ fo_dt arD ones ones (repeat n 3) = Ok dt /\ fo_new arD ones ones (repeat n 3) = Ok o /\ fo_run arD o steps dt = Ok u /\
    (forall f g, In f [up_f (ur_up r); ac_f a; py_f p; fo_f u] -> In g [up_f (ur_up r); ac_f a; py_f p; fo_f u] -> agree f g (18 * IZR steps / 2 ^ 53)).
Proof.
  intros H1 H2 Hs ones. destruct (C95_upwind dsqrt n steps false false H1 H2 Hs) as (r0 & r1 & E0 & X & W0).
  destruct (C42_driver arD dsqrt n steps doVtk doStd ltac:(lia) H2) as (r & dtr & E & Edt & Ef & _).
  destruct (C42_driver arD dsqrt n steps false false ltac:(lia) H2) as (r2 & dtr2 & E2 & Edt2 & Ef2 & _). cbv zeta in *.
  rewrite E0 in E2. injection E2 as <-. rewrite Edt in Edt2. injection Edt2 as <-. rewrite Ef2, <- Ef in W0.
  destruct (C95_upwindAcc ver dsqrt n steps doVtk doStd H1 H2 Hs) as (a & s & d & t & r3 & Ea & X3 & Wa).
  destruct (exact_driver n steps doVtk doStd H1 H2) as (r4 & X4 & F4). rewrite X3 in X4. injection X4 as <-.
  destruct (exact_driver n steps false false H1 H2) as (r5 & X5 & F5). rewrite X in X5. injection X5 as <-. rewrite F4, <- F5 in Wa.
  destruct (C95_python n steps H1 H2 Hs) as (p & r6 & Ep & X6 & Wp). rewrite X in X6. injection X6 as <-.
  destruct (C95_fortran n steps H1 H2 Hs) as (dt & o & u & r7 & Ed & Eo & Eu & X7 & Wu). rewrite X in X7. injection X7 as <-.
  exists r, a, s, d, t, p, dt, o, u. do 6 (split; [assumption|]).
  assert (W : forall f, In f [up_f (ur_up r); ac_f a; py_f p; fo_f u] -> within f (up_f (ur_up r1)) (9 * IZR steps / 2 ^ 53)).
  { intros f [<-|[<-|[<-|[<-|[]]]]]; assumption. }
  intros f g Hf Hg. replace (18 * IZR steps / 2 ^ 53) with (9 * IZR steps / 2 ^ 53 + 9 * IZR steps / 2 ^ 53) by field. exact (within_agree _ _ _ _ _ (W f Hf) (W g Hg)).
Qed.
Print Assumptions C95_versions_agree.

(** ** Examples *)

(** The Fortran program with 128 cells along each axis and 10 steps. *)
Example C95_fortran_example : let ones := repeat (a_ofZ arD 1) 3 in exists dt o u r', fo_dt arD ones ones (repeat 128%Z 3) = Ok dt /\ fo_new arD ones ones (repeat 128%Z 3) = Ok o /\
  fo_run arD o 10 dt = Ok u /\ up_body arR sqrt 128 10 false false = Ok r' /\ within (fo_f u) (up_f (ur_up r')) (90 / 2 ^ 53).
Proof. destruct (C95_fortran 128 10 ltac:(lia) ltac:(reflexivity) ltac:(lia)) as (dt & o & u & r' & A & B & C & D & W). exists dt, o, u, r'. do 4 (split; [assumption|]). replace (90 / 2 ^ 53) with (9 * 10 / 2 ^ 53) by (unfold Rdiv; ring). exact W. Qed.

(** A value that is off by one is not within the bound of 1000 steps. *)
Example C95_notices : ~ within [a_ofZ arD 1] [0] (9 * 1000 / 2 ^ 53).
Proof.
  intros (F & V & _ & S). inversion V as [|x y xs ys V1 V2]; subst. inversion V2; subst. pose proof (dv_fun _ _ _ V1 (dv_ofZ 1 ltac:(reflexivity))) as E. subst y. cbn [combine map fold_right fst snd] in S.
  rewrite Rminus_0_r, Rabs_pos_eq in S by lra. assert (9 * 1000 / 2 ^ 53 < 1) by (simpl; lra). lra.
Qed.
