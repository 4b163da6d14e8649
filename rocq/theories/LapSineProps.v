(** * The Laplacian benchmark in IEEE double precision with the double next to pi and a sine of given accuracy (C81) *)
From Coq Require Import Reals ZArith Lia Lra Psatz Floats.SpecFloat List Machin.
From Flocq Require Import Core BinarySingleNaN.
From Verif Require Import Cpp MaiSpec Radix MaiProof CdModel CdSpec FilterModel FilterSpec FilterProof FilterSum FilterProg FilterProps RealArith UpSpec UpExact
  UpMpiSpec UpMpiProof LapModel LapSpec LapProof LapProps Ieee Double DblSpec DblProof DblField DblSten MmProps LapDbl LapDblProps.
From Coq Require Import List.
Import ListNotations.
Local Open Scope R_scope.
Local Arguments prodZ : simpl never.
Local Arguments Z.of_nat : simpl never.

(** What is assumed of the C library: sin of a finite double is a finite double of absolute value at most 1 that differs from the
    sine by at most u. *)
Definition accurate_sin (u : R) (dsin : spec_float -> spec_float) : Prop :=
  forall x r, double_value x r -> exists s, double_value (dsin x) s /\ Rabs s <= 1 /\ Rabs (s - sin r) <= u.

(** M_PI: 3.141592653589793115997963... *)
Definition m_pi_64 : spec_float := S754_finite false 7074237752028440 (-51).

Lemma pi_close : Rabs (IZR 7074237752028440 * / 2 ^ 51 - PI) <= / 2 ^ 52.
Proof.
  pose proof (PI_2_3_7_ineq 8) as (L & U).
  change (S (2 * 8)) with 17%nat in L. change (2 * 8)%nat with 16%nat in U.
  assert (E : forall n, tg_alt PI_2_3_7_tg n = IZR ((-1) ^ Z.of_nat n) * ((2 * / IZR (3 ^ Z.of_nat (2 * n + 1)) + / IZR (7 ^ Z.of_nat (2 * n + 1))) * / IZR (2 * Z.of_nat n + 1))).
  { intros n. unfold tg_alt, PI_2_3_7_tg, Ratan_seq. rewrite INR_IZR_INZ, !pow_inv, !pow_IZR. replace (Z.of_nat (2 * n + 1)) with (2 * Z.of_nat n + 1)%Z by lia. unfold Rdiv. ring. }
  cbn [sum_f_R0] in L, U. rewrite !E in L. rewrite !E in U. rewrite ?E in L. clear E.
  repeat match type of L with context [IZR ?k] => lazymatch k with Z0 => fail | Zpos _ => fail | Zneg _ => fail | _ => let z := eval compute in k in change (IZR k) with (IZR z) in L, U end end.
  apply Rabs_le. replace (2 ^ 51) with 2251799813685248 by (simpl; lra). replace (2 ^ 52) with 4503599627370496 by (simpl; lra). split; [clear L|clear U]; lra.
Qed.

Lemma dv_pi : double_value m_pi_64 (IZR 7074237752028440 * / 2 ^ 51).
Proof. split; [reflexivity|]. split; [reflexivity|]. cbn [m_pi_64 SF2R cond_Zopp]. unfold F2R. cbn [Fnum Fexp]. rewrite bpow_powerRZ. reflexivity. Qed.

Lemma sin_close a b : Rabs (sin a - sin b) <= Rabs (a - b).
Proof.
  destruct (MVT_abs sin cos b a) as (c & E & _).
  - intros c _. apply derivable_pt_lim_sin.
  - rewrite E. rewrite <- (Rmult_1_l (Rabs (a - b))) at 2. apply Rmult_le_compat_r; [apply Rabs_pos|]. apply Rabs_le, COS_bound.
Qed.

(** ** The positions *)
Definition position (m k : Z) : spec_float :=
  a_add arD (a_dec arD 0 1) (a_mul arD (a_add arD (a_ofZ arD k) (a_dec arD 5 1)) (a_div arD (a_sub arD (a_dec arD 10 1) (a_dec arD 0 1)) (a_ofZ arD m))).

Lemma mul_err x y a b da db X Y : Rabs (x - a) <= da -> Rabs (y - b) <= db -> Rabs x <= X -> Rabs b <= Y -> Rabs (x * y - a * b) <= X * db + Y * da.
Proof.
  intros H1 H2 H3 H4. replace (x * y - a * b) with (x * (y - b) + b * (x - a)) by ring.
  eapply Rle_trans; [apply Rabs_triang|]. rewrite !Rabs_mult. apply Rplus_le_compat; apply Rmult_le_compat; try apply Rabs_pos; assumption.
Qed.

Lemma position_close m k : (0 < m < 2 ^ 31)%Z -> (0 <= k < m)%Z ->
  exists r, double_value (position m k) r /\ Rabs r <= IZR m /\ Rabs (r - (IZR k + 1 / 2) / IZR m) <= 4 * eps.
Proof.
  intros Hm Hk.
  assert (V0 : double_value (a_dec arD 0 1) 0) by (replace (a_dec arD 0 1) with (S754_zero false) by reflexivity; repeat split).
  assert (V5 : double_value (a_dec arD 5 1) (/ 2)).
  { replace (a_dec arD 5 1) with (S754_finite false 4503599627370496 (-53)) by reflexivity.
    split; [reflexivity|]. split; [reflexivity|]. cbn [SF2R cond_Zopp]. unfold F2R. cbn [Fnum Fexp]. rewrite bpow_powerRZ. simpl. lra. }
  pose proof (dv_ofZ k ltac:(lia)) as Vk. pose proof (dv_ofZ m ltac:(lia)) as Vm.
  assert (K0 : 0 <= IZR k) by (apply IZR_le; lia). assert (KM : IZR k + 1 <= IZR m) by (rewrite <- plus_IZR; apply IZR_le; lia).
  pose proof (T53 m ltac:(lia)) as M53. assert (M1 : 1 <= IZR m) by lra.
  assert (M31 : IZR m <= 2147483648) by (apply IZR_le; lia).
  assert (B1 : Rabs (IZR k + / 2) <= IZR m) by (rewrite Rabs_pos_eq; lra).
  pose proof (dv_add _ _ _ _ Vk V5 ltac:(lra)) as Va. pose proof (rnd_int_bound _ m ltac:(lia) B1) as Ra. pose proof (rnd_error (IZR k + / 2)) as Ea.
  assert (Vs : double_value (a_sub arD (a_dec arD 10 1) (a_dec arD 0 1)) 1).
  { pose proof (dv_sub _ _ _ _ dv_dec1 V0) as Q. rewrite Rminus_0_r, (rnd_IZR 1) in Q by lia. apply Q. rewrite Rabs_pos_eq; lra. }
  assert (I0 : 0 < / IZR m) by (apply Rinv_0_lt_compat; lra). assert (IM : IZR m * / IZR m = 1) by (apply Rinv_r; lra).
  assert (I1 : 0 <= 1 / IZR m <= 1).
  { unfold Rdiv. rewrite Rmult_1_l. split; [left; exact I0|]. rewrite <- Rinv_1. apply Rinv_le_contravar; lra. }
  assert (B2 : Rabs (1 / IZR m) <= 1) by (rewrite Rabs_pos_eq; lra).
  pose proof (dv_div _ _ _ _ Vs Vm ltac:(lra) ltac:(lra)) as Vd. pose proof (rnd_int_bound _ 1 ltac:(lia) B2) as Rd. pose proof (rnd_error (1 / IZR m)) as Ed.
  assert (B3 : Rabs (rnd64 (IZR k + / 2) * rnd64 (1 / IZR m)) <= IZR m).
  { rewrite Rabs_mult. apply Rle_trans with (IZR m * 1); [apply Rmult_le_compat; try apply Rabs_pos; assumption|lra]. }
  pose proof (dv_mul _ _ _ _ Va Vd ltac:(lra)) as Vp. pose proof (rnd_int_bound _ m ltac:(lia) B3) as Rp. pose proof (rnd_error (rnd64 (IZR k + / 2) * rnd64 (1 / IZR m))) as Ep.
  assert (B4 : Rabs (0 + rnd64 (rnd64 (IZR k + / 2) * rnd64 (1 / IZR m))) <= IZR m) by (rewrite Rplus_0_l; exact Rp).
  pose proof (dv_add _ _ _ _ V0 Vp ltac:(lra)) as Vr. eexists. split; [exact Vr|]. split; [apply rnd_int_bound; [lia|exact B4]|].
  rewrite Rplus_0_l, rnd_fmt by apply rnd_is_fmt. clear Vr Vp Vd Va Vs B4 V0 V5 Vk Vm.
  set (a := rnd64 (IZR k + / 2)) in *. set (b := rnd64 (1 / IZR m)) in *. set (c := rnd64 (a * b)) in *.
  pose proof eps_small as Es. pose proof eta_tiny as Et. assert (Eq : eta <= eps * / 1000000000000) by nra.
  rewrite (Rabs_pos_eq (IZR k + / 2)) in Ea by lra. rewrite (Rabs_pos_eq (1 / IZR m)) in Ed by lra.
  (* eta is small against eps / m *)
  assert (Eh : eta <= eps * (/ 100 * (1 / IZR m))).
  { apply Rle_trans with (eps * eps * eps); [lra|]. rewrite Rmult_assoc. apply Rmult_le_compat_l; [lra|].
    assert (J : / 2147483648 <= / IZR m) by (apply Rinv_le_contravar; lra). unfold Rdiv. rewrite Rmult_1_l.
    assert (eps * eps <= / 1000000 * / 1000000) by (apply Rmult_le_compat; lra). lra. }
  assert (Ea' : Rabs (a - (IZR k + / 2)) <= 1.01 * eps * IZR m).
  { assert (eta <= eps * (/ 100)) by lra. eapply Rle_trans; [exact Ea|]. assert (eps * (IZR k + / 2) <= eps * IZR m) by (apply Rmult_le_compat_l; lra).
    assert (eps * 1 <= eps * IZR m) by (apply Rmult_le_compat_l; lra). lra. }
  assert (Ed' : Rabs (b - 1 / IZR m) <= 1.01 * eps * (1 / IZR m)) by (eapply Rle_trans; [exact Ed|]; lra).
  pose proof (mul_err a b _ _ _ _ (IZR m) (1 / IZR m) Ea' Ed' Ra ltac:(rewrite Rabs_pos_eq; lra)) as Em.
  assert (Em' : Rabs (a * b - (IZR k + / 2) * (1 / IZR m)) <= 2.02 * eps).
  { eapply Rle_trans; [exact Em|]. right. unfold Rdiv. replace (IZR m * (1.01 * eps * (1 * / IZR m)) + 1 * / IZR m * (1.01 * eps * IZR m)) with (1.01 * eps * (IZR m * / IZR m) + 1.01 * eps * (IZR m * / IZR m)) by ring. rewrite IM. lra. }
  assert (X1 : 0 <= (IZR k + / 2) * (1 / IZR m) <= 1).
  { split; [apply Rmult_le_pos; lra|]. apply Rle_trans with (IZR m * (1 / IZR m)); [apply Rmult_le_compat_r; lra|]. unfold Rdiv. rewrite Rmult_1_l, IM. lra. }
  replace ((IZR k + 1 / 2) / IZR m) with ((IZR k + / 2) * (1 / IZR m)) by (unfold Rdiv; ring).
  assert (Bab : Rabs (a * b) <= 1.01).
  { replace (a * b) with ((a * b - (IZR k + / 2) * (1 / IZR m)) + (IZR k + / 2) * (1 / IZR m)) by ring. eapply Rle_trans; [apply Rabs_triang|]. rewrite (Rabs_pos_eq (_ * (1 / _))) by lra. lra. }
  replace (c - (IZR k + / 2) * (1 / IZR m)) with ((c - a * b) + (a * b - (IZR k + / 2) * (1 / IZR m))) by ring.
  eapply Rle_trans; [apply Rabs_triang|]. assert (eps * Rabs (a * b) <= eps * 1.01) by (apply Rmult_le_compat_l; lra). lra.
Qed.

(** ** The initial field *)
Lemma centre_positions m g : centre arD (repeat m (length g)) (repeat (a_dec arD 0 1) (length g)) (repeat (a_dec arD 10 1) (length g)) g = map (position m) g.
Proof. unfold centre. induction g as [|k g IH]; [reflexivity|]. cbn [length repeat combine map]. rewrite IH. reflexivity. Qed.

Lemma init_close u dsin m nd g : accurate_sin u dsin -> (0 < m < 2 ^ 31)%Z -> in_grid (repeat m nd) g ->
  Rabs (SF2R radix2 (lap_init arD dsin m_pi_64 m nd g) - sines m g) <= INR nd * (u + 42 * / 2 ^ 53).
Proof.
  intros Hs Hm Hg. apply in_grid_nth in Hg as [L Hg]. rewrite repeat_length in L, Hg.
  assert (Hk : forall k, In k g -> (0 <= k < m)%Z).
  { intros k Hin. apply (In_nth _ _ 0%Z) in Hin as (j & Hj & <-). rewrite L in Hj. specialize (Hg j Hj). rewrite square_nth in Hg by lia. exact Hg. }
  unfold lap_init, lap_func. rewrite <- L. rewrite centre_positions. clear Hg L nd.
  assert (V2 : double_value (a_dec arD 20 1) 2).
  { replace (a_dec arD 20 1) with (S754_finite false 4503599627370496 (-51)) by reflexivity.
    split; [reflexivity|]. split; [reflexivity|]. cbn [SF2R cond_Zopp]. unfold F2R. cbn [Fnum Fexp]. rewrite bpow_powerRZ. simpl. lra. }
  pose proof pi_close as Pc. pose proof dv_pi as Vp. set (p := IZR 7074237752028440 * / 2 ^ 51) in *.
  assert (P3 : 3 <= p <= 3.2) by (unfold p; replace (2 ^ 51) with 2251799813685248 by (simpl; lra); lra).
  pose proof (T53 8 ltac:(lia)) as T8. assert (P8 : Rabs (2 * p) <= IZR 8) by (rewrite Rabs_pos_eq; lra).
  pose proof (dv_mul _ _ _ _ V2 Vp ltac:(lra)) as V2p. rewrite rnd_fmt in V2p by (apply fmt_double, (dv_fmt _ _ Vp)).
  change (/ 2 ^ 53) with eps. pose proof eps_small as Es. pose proof eta_tiny as Et. assert (Eq : eta <= eps * / 1000000000000) by nra.
  replace (/ 2 ^ 52) with (2 * eps) in Pc by (unfold eps; simpl; lra).
  (* one factor *)
  assert (F : forall k, In k g -> exists s, double_value (dsin (a_mul arD (a_mul arD (a_dec arD 20 1) m_pi_64) (position m k))) s /\ Rabs s <= 1 /\
    Rabs (s - sin (2 * PI * ((IZR k + 1 / 2) / IZR m))) <= u + 40 * eps).
  { intros k Hin. destruct (position_close m k Hm (Hk k Hin)) as (c & Vc & Bc & Ec). set (x := (IZR k + 1 / 2) / IZR m) in *.
    assert (X1 : 0 <= x <= 1).
    { specialize (Hk k Hin). assert (0 <= IZR k) by (apply IZR_le; lia). assert (IZR k + 1 <= IZR m) by (rewrite <- plus_IZR; apply IZR_le; lia).
      unfold x. split; [apply Rmult_le_pos; [lra|left; apply Rinv_0_lt_compat; lra]|]. apply Rmult_le_reg_r with (IZR m); [lra|]. unfold Rdiv. rewrite Rmult_assoc, Rinv_l by lra. lra. }
    assert (Bm : Rabs (2 * p * c) <= 2 ^ 53).
    { rewrite Rabs_mult. apply Rle_trans with (8 * IZR m); [apply Rmult_le_compat; try apply Rabs_pos; assumption|]. rewrite <- mult_IZR. apply T53. lia. }
    destruct (Hs _ _ (dv_mul _ _ _ _ V2p Vc Bm)) as (s & Vs & Bs & As). exists s. split; [exact Vs|]. split; [exact Bs|].
    assert (E2 : Rabs (2 * p - 2 * PI) <= 4 * eps) by (replace (2 * p - 2 * PI) with (2 * (p - PI)) by ring; rewrite Rabs_mult, (Rabs_pos_eq 2) by lra; lra).
    pose proof (mul_err (2 * p) c (2 * PI) x _ _ 6.4 1 E2 Ec ltac:(rewrite Rabs_pos_eq; lra) ltac:(rewrite Rabs_pos_eq; lra)) as Em.
    assert (Bc1 : Rabs c <= 1.01) by (replace c with ((c - x) + x) by ring; eapply Rle_trans; [apply Rabs_triang|]; rewrite (Rabs_pos_eq x) by lra; lra).
    assert (Bq : Rabs (2 * p * c) <= 6.5) by (rewrite Rabs_mult, (Rabs_pos_eq (2 * p)) by lra; apply Rle_trans with (6.4 * 1.01); [apply Rmult_le_compat; try apply Rabs_pos; lra|lra]).
    pose proof (rnd_error (2 * p * c)) as Er. assert (eps * Rabs (2 * p * c) <= eps * 6.5) by (apply Rmult_le_compat_l; lra).
    set (q := rnd64 (2 * p * c)) in *. pose proof (sin_close q (2 * PI * x)) as Ls.
    assert (Eqx : Rabs (q - 2 * PI * x) <= 40 * eps).
    { replace (q - 2 * PI * x) with ((q - 2 * p * c) + (2 * p * c - 2 * PI * x)) by ring. eapply Rle_trans; [apply Rabs_triang|]. lra. }
    replace (s - sin (2 * PI * x)) with ((s - sin q) + (sin q - sin (2 * PI * x))) by ring. eapply Rle_trans; [apply Rabs_triang|]. lra. }
  clear Hk Pc P3 P8 V2p V2 Vp.
  assert (Q : forall l, (forall k, In k l -> In k g) -> forall a r R0 d, double_value a r -> Rabs r <= 1 -> Rabs R0 <= 1 -> Rabs (r - R0) <= d ->
    exists s, double_value (fold_left (fun res x => a_mul arD res (dsin (a_mul arD (a_mul arD (a_dec arD 20 1) m_pi_64) x))) (map (position m) l) a) s /\
      Rabs (s - R0 * sines m l) <= d + INR (length l) * (u + 42 * eps)).
  { induction l as [|k l IH]; intros Hl a r R0 d Va Ba B0 Hd.
    - exists r. split; [exact Va|]. unfold sines. cbn [map prodR fold_right length INR]. rewrite Rmult_1_r. lra.
    - cbn [map fold_left]. destruct (F k (Hl k (or_introl eq_refl))) as (s & Vs & Bs & As). set (S := sin (2 * PI * ((IZR k + 1 / 2) / IZR m))) in *.
      assert (BS : Rabs S <= 1) by (apply Rabs_le, SIN_bound).
      assert (Brs : Rabs (r * s) <= 1) by (rewrite Rabs_mult; apply Rle_trans with (1 * 1); [apply Rmult_le_compat; try apply Rabs_pos; assumption|lra]).
      assert (BRS : Rabs (R0 * S) <= 1) by (rewrite Rabs_mult; apply Rle_trans with (1 * 1); [apply Rmult_le_compat; try apply Rabs_pos; assumption|lra]).
      pose proof (T53 1 ltac:(lia)) as T1. pose proof (mul_err r s R0 S _ _ 1 1 Hd As Ba BS) as Em. pose proof (rnd_error (r * s)) as Er.
      assert (eps * Rabs (r * s) <= eps * 1) by (apply Rmult_le_compat_l; lra).
      assert (Hd' : Rabs (rnd64 (r * s) - R0 * S) <= d + (u + 42 * eps)).
      { replace (rnd64 (r * s) - R0 * S) with ((rnd64 (r * s) - r * s) + (r * s - R0 * S)) by ring. eapply Rle_trans; [apply Rabs_triang|]. lra. }
      destruct (IH ltac:(intros j Hj; apply Hl; right; exact Hj) _ (rnd64 (r * s)) (R0 * S) _ (dv_mul _ _ _ _ Va Vs ltac:(lra)) (rnd_int_bound _ 1 ltac:(lia) Brs) BRS Hd') as (t & Vt & Et').
      exists t. split; [exact Vt|]. unfold sines in *. cbn [map prodR fold_right]. fold (prodR (map (fun k => sin (2 * PI * ((IZR k + 1 / 2) / IZR m))) l)). fold S.
      rewrite <- Rmult_assoc. eapply Rle_trans; [exact Et'|]. cbn [length]. rewrite S_INR. lra. }
  destruct (Q g (fun k H => H) (a_ofZ arD 1) 1 1 0 (dv_ofZ 1 ltac:(reflexivity)) ltac:(rewrite Rabs_pos_eq; lra) ltac:(rewrite Rabs_pos_eq; lra) ltac:(rewrite Rminus_diag_eq, Rabs_R0 by reflexivity; lra)) as (s & Vs & E).
  rewrite (fmt_val _ _ Vs). rewrite Rmult_1_l, Rplus_0_l in E. exact E.
Qed.

(** With M_PI and a sine of accuracy u the values of the benchmark are those of the continuous problem's eigenfunction times the
    power of the eigenvalue, up to an error that is known. *)
Theorem C81_sine u dsin sz m nd k e vtk :
  let dims := repeat m nd in
  accurate_sin u dsin ->
  grid_ok dims -> (1 <= sz <= 2 ^ 30)%Z -> decomposable sz dims -> (m | 2 ^ 64)%Z ->
  (0 <= e)%Z -> (4 * Z.of_nat nd <= 2 ^ e)%Z -> (e * Z.of_nat k <= 900)%Z ->
  exists r, lap_body arD dsin m_pi_64 sz m (Z.of_nat nd) k vtk = Ok (Some r) /\
    tiling dims (map fst (in_pieces (lr_world r))) /\
    (forall lo hi data, In (lo, hi, data) (in_pieces (lr_world r)) ->
       Forall2 (fun x g => exists v, double_value x v /\
         Rabs (v - (INR nd * (2 * cos (2 * PI / IZR m) - 2)) ^ k * prodR (map (fun i => sin (2 * PI * ((IZR i + 1 / 2) / IZR m))) g)) <=
         (INR nd * (u + 42 * / 2 ^ 53) + INR k * (2 * INR nd + 3) * / 2 ^ 53) * bpow radix2 (e * Z.of_nat k)) data (col_major lo hi)).
Proof.
  intros dims Hs Hg Hn Hd Hm He0 He Hk. destruct (square_nd m nd Hg) as (Hnd & Hmr).
  apply (C81_eigenfunction dsin m_pi_64 sz m nd k e vtk (INR nd * (u + 42 * / 2 ^ 53))); auto.
  - intros x r V. destruct (Hs x r V) as (s & Vs & Bs & _). exists s. auto.
  - exists (IZR 7074237752028440 * / 2 ^ 51). split; [exact dv_pi|]. replace (2 ^ 51) with 2251799813685248 by (simpl; lra). apply Rabs_le. lra.
  - intros g Hgg. apply init_close; auto.
Qed.
Print Assumptions C81_sine.

(** ** Examples *)
(** The sizes of the examples of [LapDblProps.v] meet the hypotheses; for ten rounds on 64 x 64 cells (with e = 3) and a sine accurate
    to 2^-53 the bound is 156 2^-23. *)
Example C81_sine_example : forall dsin, accurate_sin (/ 2 ^ 53) dsin ->
  exists r, lap_body arD dsin m_pi_64 4%Z 64%Z 2%Z 10%nat false = Ok (Some r) /\
    forall lo hi data, In (lo, hi, data) (in_pieces (lr_world r)) ->
      Forall2 (fun x g => exists v, double_value x v /\
        Rabs (v - (2 * (2 * cos (2 * PI / 64) - 2)) ^ 10 * prodR (map (fun i => sin (2 * PI * ((IZR i + 1 / 2) / 64))) g)) <= 156 * / 2 ^ 23) data (col_major lo hi).
Proof.
  intros dsin Hs. destruct ex_sizes as (S1 & S2 & S3 & S4 & S5).
  destruct (C81_sine (/ 2 ^ 53) dsin 4%Z 64%Z 2%nat 10%nat 3%Z false Hs S1 ltac:(lia) S2 S3 ltac:(lia) S4 S5) as (r & E & _ & H). exists r. split; [exact E|]. intros lo hi data Hin.
  specialize (H lo hi data Hin). clear Hin. revert H. generalize (col_major lo hi). intros cs H. induction H as [|x g l1 l2 (v & V & B) _ IH]; constructor; [|exact IH].
  exists v. split; [exact V|]. change (INR 2) with 2 in B. eapply Rle_trans; [exact B|].
  change (3 * Z.of_nat 10)%Z with 30%Z. rewrite bpow_powerRZ. replace (INR 10) with 10 by (simpl; lra). simpl. lra.
Qed.

(** The assumption on the sine is met: with an accuracy of one even by the constant zero. *)
Example C81_some_sine_example : accurate_sin 1 (fun _ => a_zero arD).
Proof. intros x r _. exists 0. split; [exact dv_azero|]. rewrite Rminus_0_l, Rabs_Ropp, Rabs_R0. split; [lra|]. apply Rabs_le, SIN_bound. Qed.
