(** * The MPI version in Python in double precision *)
From Coq Require Import Reals ZArith Lia Lra Psatz Floats.SpecFloat List Permutation Bool.
From Flocq Require Import Core BinarySingleNaN.
From Verif Require Import Cpp CppProof CmdModel MaiSpec CdModel CdSpec FilterModel FilterSpec FilterProof FilterSum RealArith UpModel UpSpec UpProof UpExact Ieee Double DblSpec DblProof
  DblField DblSten DblProps PySpec PyModel PyProps PyMpiSpec.
From Coq Require Import List.
Import ListNotations.
Local Open Scope R_scope.

(** ** One cell *)
Definition rcell (a b f : R) (us : list R) : R := fold_left (fun acc u => rnd64 (acc - rnd64 (- a * u))) us (rnd64 (f + rnd64 (- b * f))).

Lemma rnd_bound x : 0 <= x -> 0 <= rnd64 x <= 1001 / 1000 * x + eta.
Proof.
  intros H. split; [apply rnd_nn, H|]. pose proof (rnd_error x) as E. apply Rabs_le_inv in E. rewrite Rabs_pos_eq in E by exact H. pose proof eps_small.
  assert (eps * x <= / 1000000 * x) by (apply Rmult_le_compat_r; lra). lra.
Qed.
Lemma rnd_err_pos x y : 0 <= x <= y -> Rabs (rnd64 x - x) <= eps * y + eta.
Proof. intros H. eapply Rle_trans; [apply rnd_error|]. rewrite Rabs_pos_eq by lra. pose proof eps_small. assert (eps * x <= eps * y) by (apply Rmult_le_compat_l; lra). lra. Qed.

Lemma start_cell b f : fmt f -> 0 <= f -> 0 <= b <= / 2 ->
  0 <= rnd64 (f + rnd64 (- b * f)) <= f /\ Rabs (rnd64 (f + rnd64 (- b * f)) - (f - b * f)) <= eps * (16 / 10 * f) + 2 * eta.
Proof.
  intros Ff Hf Hb. replace (- b * f) with (- (b * f)) by ring. rewrite rnd_opp. set (p := rnd64 (b * f)). fold (f - p). pose proof eps_small as E. pose proof eta_tiny as T.
  assert (B : 0 <= b * f <= / 2 * f) by (split; [apply Rmult_le_pos; lra|apply Rmult_le_compat_r; lra]).
  assert (P : 0 <= p <= f) by (split; [apply rnd_nn; lra|unfold p; rewrite <- (rnd_fmt f Ff) at 2; apply rnd_le; lra]).
  pose proof (rnd_err_pos (b * f) (/ 2 * f) B) as E1. fold p in E1. pose proof (rnd_err_pos (f - p) f ltac:(lra)) as E2.
  split; [split; [apply rnd_nn; lra|rewrite <- (rnd_fmt f Ff) at 2; apply rnd_le; lra]|].
  apply Rabs_le_inv in E1, E2. assert (0 <= eps * f) by (apply Rmult_le_pos; lra). apply Rabs_le. lra.
Qed.

Lemma add_cell a x u : 0 <= x -> 0 <= u -> 0 <= a <= / 8 ->
  let y := rnd64 (x - rnd64 (- a * u)) in
  0 <= y <= 1001 / 1000 * x + 13 / 100 * u + 3 * eta /\ Rabs (y - (x + a * u)) <= eps * (1001 / 1000 * x + 3 / 10 * u) + 3 * eta.
Proof.
  intros Hx Hu Ha y. unfold y. replace (- a * u) with (- (a * u)) by ring. rewrite rnd_opp. set (t := rnd64 (a * u)). replace (x - - t) with (x + t) by ring. pose proof eps_small as E. pose proof eta_tiny as T.
  assert (B : 0 <= a * u <= / 8 * u) by (split; [apply Rmult_le_pos; lra|apply Rmult_le_compat_r; lra]).
  pose proof (rnd_bound (a * u) ltac:(lra)) as P. fold t in P. pose proof (rnd_bound (x + t) ltac:(lra)) as P2.
  pose proof (rnd_err_pos (a * u) (/ 8 * u) B) as E1. fold t in E1. pose proof (rnd_err_pos (x + t) (x + 126 / 1000 * u + eta) ltac:(lra)) as E2.
  assert (eps * eta <= / 1000 * eta) by (apply Rmult_le_compat_r; lra). assert (0 <= eps * u) by (apply Rmult_le_pos; lra). assert (0 <= eps * x) by (apply Rmult_le_pos; lra).
  apply Rabs_le_inv in E1, E2. split; [lra|]. apply Rabs_le. lra.
Qed.

Lemma cell_of_three a b f u v w : fmt f -> 0 <= f -> 0 <= b <= / 2 -> 0 <= a <= / 8 -> 0 <= u -> 0 <= v -> 0 <= w ->
  0 <= rcell a b f [u; v; w] /\ Rabs (rcell a b f [u; v; w] - (f - b * f + a * (u + v + w))) <= eps * (47 / 10 * f + 6 / 10 * (u + v + w)) + 12 * eta.
Proof.
  intros Ff Hf Hb Ha Hu Hv Hw. unfold rcell. cbn [fold_left]. destruct (start_cell b f Ff Hf Hb) as [R0 E0]. set (x0 := rnd64 (f + rnd64 (- b * f))) in *.
  destruct (add_cell a x0 u ltac:(lra) Hu Ha) as [R1 E1]. set (x1 := rnd64 (x0 - rnd64 (- a * u))) in *. cbv zeta in *. fold x1 in R1, E1.
  destruct (add_cell a x1 v ltac:(lra) Hv Ha) as [R2 E2]. set (x2 := rnd64 (x1 - rnd64 (- a * v))) in *. cbv zeta in *.
  destruct (add_cell a x2 w ltac:(lra) Hw Ha) as [R3 E3]. set (x3 := rnd64 (x2 - rnd64 (- a * w))) in *. cbv zeta in *.
  pose proof eps_small as E. pose proof eta_tiny as T.
  split; [lra|]. apply Rabs_le_inv in E0, E1, E2, E3.
  assert (K0 : eps * x0 <= eps * f) by (apply Rmult_le_compat_l; lra).
  assert (K1 : eps * x1 <= eps * (1001 / 1000 * f + 13 / 100 * u + 3 * eta)) by (apply Rmult_le_compat_l; lra).
  assert (K2 : eps * x2 <= eps * (1003 / 1000 * f + 131 / 1000 * u + 13 / 100 * v + 7 * eta)) by (apply Rmult_le_compat_l; lra).
  assert (eps * eta <= / 1000 * eta) by (apply Rmult_le_compat_r; lra). assert (0 <= eps * u) by (apply Rmult_le_pos; lra). assert (0 <= eps * v) by (apply Rmult_le_pos; lra).
  assert (0 <= eps * w) by (apply Rmult_le_pos; lra). assert (0 <= eps * f) by (apply Rmult_le_pos; lra).
  apply Rabs_le. lra.
Qed.

(** The doubles that are computed *)
Lemma cell_double A B f us a b fr urs : double_value A (- a) -> double_value B (- b) -> double_value f fr -> 0 <= fr <= 2 -> 0 <= b <= / 2 -> 0 <= a <= / 8 ->
  List.length us = 3%nat -> Forall2 (fun u r => double_value u r /\ 0 <= r <= 2) us urs ->
  double_value (fold_left (fun acc u => a_sub arD acc (a_mul arD A u)) us (a_add arD f (a_mul arD B f))) (rcell a b fr urs).
Proof.
  intros VA VB Vf Rf Hb Ha L H. unfold rcell. destruct (start_cell b fr (dv_fmt _ _ Vf) ltac:(lra) Hb) as [R0 _]. assert (T53 : 1000 <= 2 ^ 53) by (simpl; lra). pose proof eps_small as E. pose proof eta_tiny as T.
  assert (Te : eta <= / 1000) by nra.
  assert (Bf : 0 <= b * fr <= 1) by (split; [apply Rmult_le_pos; lra|apply Rle_trans with (/ 2 * 2); [apply Rmult_le_compat; lra|lra]]).
  assert (V0 : double_value (a_add arD f (a_mul arD B f)) (rnd64 (fr + rnd64 (- b * fr)))).
  { apply dv_add; [exact Vf|apply dv_mul; [exact VB|exact Vf|apply Rabs_le; lra]|].
    replace (- b * fr) with (- (b * fr)) by ring. rewrite rnd_opp. pose proof (rnd_bound (b * fr) ltac:(lra)). apply Rabs_le. lra. }
  set (x := a_add arD f (a_mul arD B f)) in *. set (xr := rnd64 (fr + rnd64 (- b * fr))) in *.
  assert (Rx : 0 <= xr <= 4) by lra. clear R0. assert (Bd : (List.length us <= 3)%nat) by lia. clear L.
  assert (K : forall us urs x xr m, (List.length us + m <= 3)%nat -> Forall2 (fun u r => double_value u r /\ 0 <= r <= 2) us urs -> double_value x xr -> 0 <= xr <= 4 + INR m ->
    double_value (fold_left (fun acc u => a_sub arD acc (a_mul arD A u)) us x) (fold_left (fun acc u => rnd64 (acc - rnd64 (- a * u))) urs xr)).
  { clear - VA Ha T53 T Te. intros us. induction us as [|u us IH]; intros urs x xr m Lm H Vx Rx; inversion H as [|? ur ? urs' [Vu Ru] H']; subst; [exact Vx|]. cbn [fold_left].
    cbn [List.length] in Lm. assert (Im : INR m <= 3) by (replace 3 with (INR 3) by (simpl; lra); apply le_INR; lia).
    assert (Bu : 0 <= a * ur <= / 4) by (split; [apply Rmult_le_pos; lra|apply Rle_trans with (/ 8 * 2); [apply Rmult_le_compat; lra|lra]]).
    destruct (add_cell a xr ur ltac:(lra) ltac:(lra) Ha) as [R1 _]. cbv zeta in R1.
    apply (IH _ _ _ (S m)); [lia|exact H'| |].
    - apply dv_sub; [exact Vx|apply dv_mul; [exact VA|exact Vu|apply Rabs_le; lra]|]. replace (- a * ur) with (- (a * ur)) by ring. rewrite rnd_opp. pose proof (rnd_bound (a * ur) ltac:(lra)). apply Rabs_le. lra.
    - rewrite S_INR. split; [apply R1|]. eapply Rle_trans; [apply R1|]. lra. }
  apply (K us urs x xr 0%nat); [lia|exact H|exact V0|simpl INR; lra].
Qed.

(** ** The sum of three equal numbers, zeros being added anywhere *)
Lemma three_sum l x q : reduction (a_add arD) l x -> 0 <= q <= 2 ^ 31 -> fmt q ->
  (forall y, In y l -> double_value y 0 \/ double_value y (- q)) ->
  forall m, (m <= 3)%nat -> rsum (map val l) = INR m * - q -> 0 < q -> double_value x (rnd64 (INR m * - q)).
Proof.
  intros Hr Hq Fq. assert (T53 : 100 * 2 ^ 31 <= 2 ^ 53) by (simpl; lra). assert (P31 : 1 <= 2 ^ 31) by (simpl; lra).
  assert (Num : forall l, (forall y, In y l -> double_value y 0 \/ double_value y (- q)) -> exists m, rsum (map val l) = INR m * - q).
  { clear. induction l as [|y l IH]; intros H; [exists 0%nat; unfold rsum; simpl; lra|]. destruct (IH (fun z Hz => H z (or_intror Hz))) as (m & E). cbn [map]. change (rsum (?z :: ?k)) with (z + rsum k). rewrite E.
    destruct (H y (or_introl eq_refl)) as [V|V]; rewrite (fmt_val _ _ V); [exists m; lra|exists (S m); rewrite S_INR; lra]. }
  assert (Ex : forall m, (m <= 2)%nat -> rnd64 (INR m * - q) = INR m * - q).
  { intros m Hm. apply rnd_fmt. destruct m as [|[|[|m]]]; [..|lia]; simpl INR.
    - replace (0 * - q) with 0 by ring. apply fmt_0.
    - replace (1 * - q) with (- q) by ring. apply fmt_opp, Fq.
    - replace ((1 + 1) * - q) with (- (2 * q)) by ring. apply fmt_opp, fmt_double, Fq. }
  induction Hr as [x|l l1 l2 a b Hperm _ IH1 _ IH2]; intros HV m Hm HS Hq0.
  - cbn [map] in HS. unfold rsum in HS. cbn [fold_right] in HS. rewrite Rplus_0_r in HS. destruct (HV x (or_introl eq_refl)) as [V|V].
    + rewrite (fmt_val _ _ V) in HS. rewrite <- HS, rnd_0. exact V.
    + rewrite (fmt_val _ _ V) in HS. rewrite <- HS, (rnd_fmt _ (fmt_opp _ Fq)). exact V.
  - assert (V1 : forall y, In y l1 -> double_value y 0 \/ double_value y (- q)) by (intros y Hy; apply HV; apply (Permutation_in y (Permutation_sym Hperm)); apply in_or_app; left; exact Hy).
    assert (V2 : forall y, In y l2 -> double_value y 0 \/ double_value y (- q)) by (intros y Hy; apply HV; apply (Permutation_in y (Permutation_sym Hperm)); apply in_or_app; right; exact Hy).
    destruct (Num l1 V1) as (m1 & S1). destruct (Num l2 V2) as (m2 & S2).
    assert (Em : (m1 + m2)%nat = m).
    { apply INR_eq. rewrite plus_INR. rewrite (rsum_perm _ _ (Permutation_map val Hperm)), map_app, rsum_app, S1, S2 in HS. apply Rmult_eq_reg_r with (- q); [|lra]. lra. }
    specialize (IH1 V1 m1 ltac:(lia) S1 Hq0). specialize (IH2 V2 m2 ltac:(lia) S2 Hq0).
    assert (B : forall k, (k <= 3)%nat -> Rabs (rnd64 (INR k * - q)) <= 4 * 2 ^ 31).
    { intros k Hk. assert (0 <= INR k <= 3) by (split; [apply pos_INR|replace 3 with (INR 3) by (simpl; lra); apply le_INR; exact Hk]).
      assert (0 <= INR k * q <= 3 * 2 ^ 31) by (split; [apply Rmult_le_pos; lra|apply Rmult_le_compat; lra]).
      replace (INR k * - q) with (- (INR k * q)) by ring. rewrite rnd_opp, Rabs_Ropp. pose proof (rnd_bound (INR k * q) ltac:(lra)). pose proof eta_tiny. pose proof eps_small. assert (eta <= / 1000) by nra. rewrite Rabs_pos_eq by lra. lra. }
    pose proof (dv_add _ _ _ _ IH1 IH2) as A. replace (rnd64 (INR m * - q)) with (rnd64 (rnd64 (INR m1 * - q) + rnd64 (INR m2 * - q))).
    + apply A. eapply Rle_trans; [apply Rabs_triang|]. pose proof (B m1 ltac:(lia)). pose proof (B m2 ltac:(lia)). lra.
    + destruct (Nat.eq_dec m1 3) as [E1|E1]; [|destruct (Nat.eq_dec m2 3) as [E2|E2]].
      * assert (m2 = 0)%nat by lia. subst m2. replace m with m1 by lia. simpl (INR 0). rewrite Rmult_0_l, rnd_0, Rplus_0_r. apply rnd_fmt, rnd_is_fmt.
      * assert (m1 = 0)%nat by lia. subst m1. replace m with m2 by lia. simpl (INR 0). rewrite Rmult_0_l, rnd_0, Rplus_0_l. apply rnd_fmt, rnd_is_fmt.
      * rewrite !Ex by lia. rewrite <- Em, plus_INR. f_equal. ring.
Qed.

(** ** The numbers of the program *)
Lemma one_ofZ : a_ofZ arD 1 = one.
Proof. vm_compute. reflexivity. Qed.

Section Numbers.
  Variables (n : Z) (psum : list spec_float -> spec_float).
  Hypotheses (H1 : (1 <= n)%Z) (H2 : (n * n * n < 2 ^ 31)%Z) (Hps : sums arD psum).
  Let dims := [n; n; n].
  Let o3 := repeat (a_ofZ arD 1) 3.
  Let r0 := a_div arD (a_mul arD one (a_ofZ arD (-1))) (a_div arD one (a_ofZ arD n)).

  Lemma rate_eq j : (j < 3)%nat -> rate arD dims o3 o3 j = r0.
  Proof using Type.
    intros Hj. unfold rate, axis_velocity, cell_size, o3. rewrite one_ofZ. assert (Sd : nth j (repeat one 3) (a_zero arD) = one) by (destruct j as [|[|[|j]]]; [reflexivity..|lia]).
    assert (Sn : nth j dims 0%Z = n) by (destruct j as [|[|[|j]]]; [reflexivity..|lia]). rewrite Sd, Sn, one_side. reflexivity.
  Qed.

  Lemma numbers : exists a b, double_value (a_mul arD (py_step arD n) r0) (- a) /\ double_value (a_mul arD (py_step arD n) (psum [r0; r0; r0])) (- b) /\
    0 <= a <= / 8 /\ 0 <= b <= / 2 /\ Rabs (b - 3 * a) <= 11 / 10 * eps.
  Proof using H1 H2 Hps.
    destruct (dv_dx n H1 H2) as (h & Vh & Rh). destruct (dv_dt n h Vh Rh) as (dt & d & E & Vd & Rd). rewrite (py_dt_double n H1 H2) in E. injection E as <-.
    pose proof eps_small as Ee. pose proof eta_tiny as Te. assert (Q0 : 0 < / 2 ^ 30) by (apply Rinv_0_lt_compat, pow_lt; lra).
    assert (Hh : 0 < h) by lra. assert (Ih30 : / h <= 2 ^ 30) by (rewrite <- (Rinv_inv (2 ^ 30)); apply Rinv_le; lra). assert (Ih1 : 1 <= / h) by (rewrite <- Rinv_1; apply Rinv_le; lra).
    assert (T53 : 100 * 2 ^ 31 <= 2 ^ 53) by (simpl; lra). assert (T31 : 2 * 2 ^ 30 = 2 ^ 31) by (simpl; lra). assert (T30 : 1000 <= 2 ^ 30) by (simpl; lra).
    set (q := rnd64 (/ h)). pose proof (rnd_bound (/ h) ltac:(lra)) as Rq. fold q in Rq.
    assert (Q1 : 1 <= q) by (unfold q; rewrite <- (rnd_fmt 1 fmt_1); apply rnd_le; exact Ih1).
    assert (Fq : fmt q) by apply rnd_is_fmt.
    assert (Vr : double_value r0 (- q)).
    { unfold r0, q. rewrite <- rnd_opp. replace (- / h) with (-1 / h) by (unfold Rdiv; ring). apply dv_div; [|exact Vh|lra|].
      - replace (-1) with (rnd64 (1 * -1)) by (replace (1 * -1) with (- (1)) by ring; rewrite rnd_opp, (rnd_fmt 1 fmt_1); lra). apply dv_mul; [exact dv_one|apply dv_minus_one|apply Rabs_le; lra].
      - unfold Rdiv. apply Rabs_le. lra. }
    assert (Te1 : eta <= / 1000000 * eps) by (assert (eps * eps * eps <= / 1000000 * eps) by nra; lra).
    assert (Eq2 : Rabs (q - / h) <= eps * / h + eta) by (apply rnd_err_pos; lra). apply Rabs_le_inv in Eq2.
    assert (Qb : q <= 2 ^ 31) by lra.
    destruct (Hps [r0; r0; r0]) as (zs & Lz & Hz & Hr).
    assert (Vz : forall z, In z zs -> double_value z 0).
    { intros z Hi. destruct (Hz z Hi) as [-> | ->]; [exact (dv_ofZ 0 ltac:(reflexivity))|]. split; [reflexivity|split; reflexivity]. }
    set (s := rnd64 (3 * q)).
    assert (Vs : double_value (psum [r0; r0; r0]) (- s)).
    { unfold s. rewrite <- rnd_opp. replace (- (3 * q)) with (INR 3 * - q) by (simpl; lra). apply (three_sum _ _ q Hr ltac:(lra) Fq); [|lia| |lra].
      - intros y Hy. apply in_app_or in Hy as [Hy|Hy]; [left; apply Vz, Hy|right]. destruct Hy as [<-|[<-|[<-|[]]]]; exact Vr.
      - rewrite map_app, rsum_app. replace (rsum (map val zs)) with 0.
        + cbn [map]. rewrite (fmt_val _ _ Vr). unfold rsum. simpl. lra.
        + clear - Vz. induction zs as [|z zs IH]; [reflexivity|]. cbn [map]. change (rsum (?y :: ?l)) with (y + rsum l)%R. rewrite <- IH by (intros w Hw; apply Vz; right; exact Hw).
          rewrite (fmt_val _ _ (Vz z (or_introl eq_refl))). lra. }
    assert (Dq : 0 <= d * q <= 112 / 1000).
    { split; [apply Rmult_le_pos; lra|]. apply Rle_trans with (111 / 1000 * h * (1001 / 1000 * / h + eta)); [apply Rmult_le_compat; lra|].
      replace (111 / 1000 * h * (1001 / 1000 * / h + eta)) with (111 / 1000 * (1001 / 1000) * (h * / h) + 111 / 1000 * (h * eta)) by ring. rewrite Rinv_r by lra.
      assert (h * eta <= 1 * eta) by (apply Rmult_le_compat_r; lra). lra. }
    pose proof (rnd_err_pos (3 * q) (3 * q) ltac:(lra)) as Es. fold s in Es. apply Rabs_le_inv in Es. assert (S0 : 0 <= s) by (apply rnd_nn; lra).
    assert (Ds : Rabs (d * s - 3 * (d * q)) <= 337 / 1000 * eps).
    { replace (d * s - 3 * (d * q)) with (d * (s - 3 * q)) by ring. rewrite Rabs_mult, (Rabs_pos_eq d) by lra. apply Rle_trans with (d * (eps * (3 * q) + eta)); [apply Rmult_le_compat_l; [lra|apply Rabs_le; lra]|].
      replace (d * (eps * (3 * q) + eta)) with (3 * eps * (d * q) + d * eta) by ring. assert (3 * eps * (d * q) <= 3 * eps * (112 / 1000)) by (apply Rmult_le_compat_l; lra).
      assert (d * eta <= 1 * eta) by (apply Rmult_le_compat_r; lra). lra. }
    apply Rabs_le_inv in Ds. assert (Ds0 : 0 <= d * s <= 337 / 1000) by (split; [apply Rmult_le_pos; lra|lra]).
    set (a := rnd64 (d * q)). set (b := rnd64 (d * s)).
    pose proof (rnd_bound _ (proj1 Dq)) as Ra. fold a in Ra. pose proof (rnd_bound _ (proj1 Ds0)) as Rb. fold b in Rb.
    pose proof (rnd_err_pos _ _ Dq) as Ea. fold a in Ea. pose proof (rnd_err_pos _ _ Ds0) as Eb. fold b in Eb. apply Rabs_le_inv in Ea, Eb.
    exists a, b. split; [|split; [|split; [|split]]].
    - unfold a. rewrite <- rnd_opp. replace (- (d * q)) with (d * - q) by ring. apply dv_mul; [exact Vd|exact Vr|]. replace (d * - q) with (- (d * q)) by ring. rewrite Rabs_Ropp, Rabs_pos_eq by lra. lra.
    - unfold b. rewrite <- rnd_opp. replace (- (d * s)) with (d * - s) by ring. apply dv_mul; [exact Vd|exact Vs|]. replace (d * - s) with (- (d * s)) by ring. rewrite Rabs_Ropp, Rabs_pos_eq by lra. lra.
    - lra.
    - lra.
    - apply Rabs_le. lra.
  Qed.
End Numbers.

(** ** The field *)
Lemma order_perm {A} (p : A -> bool) l : Permutation (filter (fun x => negb (p x)) l ++ filter p l) l.
Proof.
  induction l as [|x l IH]; [constructor|]. cbn [filter]. destruct (p x); cbn [negb]; [|constructor; exact IH].
  symmetry. apply Permutation_cons_app. symmetry. exact IH.
Qed.

Section Fields.
  Variables (n : Z) (dec : list Z) (psum : list spec_float -> spec_float).
  Hypotheses (H1 : (1 <= n)%Z) (H2 : (n * n * n < 2 ^ 31)%Z).
  Let dims := [n; n; n].
  Let o3 := repeat (a_ofZ arD 1) 3.
  Variables a b : R.
  Let r0 := a_div arD (a_mul arD one (a_ofZ arD (-1))) (a_div arD one (a_ofZ arD n)).
  Hypotheses (VA : double_value (a_mul arD (py_step arD n) r0) (- a)) (VB : double_value (a_mul arD (py_step arD n) (psum [r0; r0; r0])) (- b))
    (Ra : 0 <= a <= / 8) (Rb : 0 <= b <= / 2) (Rab : Rabs (b - 3 * a) <= 11 / 10 * eps).
  Notation step := (mpi_formula arD psum dims dec o3 o3 (py_step arD n)).
  Notation N := (INR (length (cells dims))).
  Definition order (g : list Z) : list nat := filter (fun j => negb (first_layer dims dec g j)) (seq 0 3) ++ filter (first_layer dims dec g) (seq 0 3).
  Definition nbd (g : list Z) (j : nat) : list Z := neighbour dims g j (-1).
  Definition rfield (F : list Z -> R) (g : list Z) : R := rcell a b (F g) (map (fun j => F (nbd g j)) (order g)).
  Definition doubles (G : list Z -> spec_float) (F : list Z -> R) : Prop :=
    forall g, in_grid dims g -> double_value (G g) (F g) /\ 0 <= F g.

  Lemma dims_pos : pos_axes dims.
  Proof using H1. clear - H1. intros [|[|[|j]]] Hj; cbn in *; lia. Qed.

  Lemma order_three g : Permutation (order g) [0; 1; 2]%nat.
  Proof using Type. apply order_perm. Qed.

  Lemma value_le_total F g : (forall h, in_grid dims h -> 0 <= F h) -> in_grid dims g -> F g <= total dims F.
  Proof using Type.
    clear. intros H Hg. apply in_cells in Hg. unfold total. assert (K : forall h, In h (cells dims) -> 0 <= F h) by (intros h Hh; apply H, in_cells, Hh). revert Hg K. generalize (cells dims). intros l. induction l as [|x l IH]; intros Hg K; [destruct Hg|]. destruct Hg as [E|Hg]; cbn [map]; change (rsum (?z :: ?k)) with (z + rsum k).
    - subst x. assert (0 <= rsum (map F l)); [|lra]. apply rsum_nn. intros y Hy. apply in_map_iff in Hy as (h & <- & Hh). apply K. right. exact Hh.
    - pose proof (K x (or_introl eq_refl)). specialize (IH Hg (fun h Hh => K h (or_intror Hh))). lra.
  Qed.

  Lemma reach_one g j : (j < 3)%nat -> reach arD dims dec o3 g j = (-1)%Z.
  Proof using Type.
    clear. intros Hj. unfold reach, axis_velocity, o3. rewrite one_ofZ. assert (Sd : nth j (repeat one 3) (a_zero arD) = one) by (destruct j as [|[|[|j]]]; [reflexivity..|lia]).
    rewrite Sd, one_side. rewrite andb_false_r. reflexivity.
  Qed.

  Lemma cell_step_double G F g : doubles G F -> total dims F <= 2 -> in_grid dims g -> double_value (step G g) (rfield F g).
  Proof using H1 VA VB Ra Rb.
    intros HF HT Hg. pose proof dims_pos as Hp. assert (V : forall h, in_grid dims h -> double_value (G h) (F h) /\ 0 <= F h <= 2).
    { intros h Hh. destruct (HF h Hh) as [V P]. split; [exact V|]. split; [exact P|]. eapply Rle_trans; [apply value_le_total; [intros k Hk; apply HF, Hk|exact Hh]|exact HT]. }
    unfold mpi_formula, rfield. change (length dims) with 3%nat. cbv zeta. fold (order g).
    assert (Es : map (rate arD dims o3 o3) (seq 0 3) = [r0; r0; r0]) by (cbn [seq map]; unfold dims, o3; rewrite !rate_eq by lia; reflexivity). rewrite Es.
    pose proof (Permutation_length (order_three g)) as Lo. assert (Io : forall j, In j (order g) -> (j < 3)%nat).
    { intros j Hj. apply (Permutation_in j (order_three g)) in Hj. cbn in Hj. lia. }
    assert (Ef : forall l x, (forall j, In j l -> (j < 3)%nat) -> fold_left (fun acc j => a_sub arD acc (a_mul arD (a_mul arD (py_step arD n) (rate arD dims o3 o3 j)) (G (neighbour dims g j (reach arD dims dec o3 g j))))) l x =
      fold_left (fun acc u => a_sub arD acc (a_mul arD (a_mul arD (py_step arD n) r0) u)) (map (fun j => G (nbd g j)) l) x).
    { induction l as [|j l IH]; intros x Hl; [reflexivity|]. cbn [fold_left map]. rewrite IH by (intros k Hk; apply Hl; right; exact Hk). assert (Hj : (j < 3)%nat) by (apply Hl; left; reflexivity).
      unfold dims, o3. rewrite (rate_eq n j Hj). fold dims o3. rewrite (reach_one g j Hj). reflexivity. }
    rewrite Ef by exact Io. destruct (V g Hg) as [Vg Rg]. apply cell_double; auto; [rewrite map_length; exact Lo|].
    clear Ef Lo. induction (order g) as [|j l IH]; [constructor|]. cbn [map]. constructor; [apply V; apply neighbour_in; assumption|]. apply IH. intros k Hk. apply Io. right. exact Hk.
  Qed.

  Lemma three_of g (F : list Z -> R) : exists u v w, map (fun j => F (nbd g j)) (order g) = [u; v; w] /\ u + v + w = F (nbd g 0) + F (nbd g 1) + F (nbd g 2) /\
    (forall P : R -> Prop, (forall j, (j < 3)%nat -> P (F (nbd g j))) -> P u /\ P v /\ P w).
  Proof using Type.
    pose proof (order_three g) as P. pose proof (Permutation_length P) as L. destruct (order g) as [|i [|j [|k [|]]]]; try discriminate L.
    exists (F (nbd g i)), (F (nbd g j)), (F (nbd g k)). split; [reflexivity|]. split.
    - pose proof (rsum_perm _ _ (Permutation_map (fun j => F (nbd g j)) P)) as S. cbn [map] in S. unfold rsum in S. cbn [fold_right] in S. lra.
    - intros Q HQ. assert (I : forall m, In m [i; j; k] -> (m < 3)%nat) by (intros m Hm; apply (Permutation_in m P) in Hm; cbn in Hm; lia).
      repeat split; apply HQ, I; cbn; auto.
  Qed.

  Lemma rfield_cell F g : (forall h, in_grid dims h -> fmt (F h) /\ 0 <= F h) -> in_grid dims g ->
    0 <= rfield F g /\ Rabs (rfield F g - (F g - b * F g + a * (F (nbd g 0) + F (nbd g 1) + F (nbd g 2)))) <=
      eps * (47 / 10 * F g + 6 / 10 * (F (nbd g 0) + F (nbd g 1) + F (nbd g 2))) + 12 * eta.
  Proof using H1 Ra Rb.
    intros HF Hg. destruct (three_of g F) as (u & v & w & E & Es & Hu). unfold rfield. rewrite E, <- Es.
    destruct (Hu (fun x => 0 <= x)) as (U & V & W); [intros j Hj; apply HF; apply neighbour_in; [exact dims_pos|exact Hg]|].
    destruct (HF g Hg). apply cell_of_three; assumption.
  Qed.

  Lemma nbd_total F j : rsum (map (fun g => F (nbd g j)) (cells dims)) = total dims F.
  Proof using H1. rewrite <- (map_map (fun g => nbd g j) F). apply rsum_perm, Permutation_map, neighbour_perm, dims_pos. Qed.

  Lemma rfield_total F : (forall h, in_grid dims h -> fmt (F h) /\ 0 <= F h) -> Rabs (total dims (rfield F) - total dims F) <= 8 * eps * total dims F + 12 * eta * N.
  Proof using H1 Ra Rb Rab.
    intros HF. set (U := fun g => F (nbd g 0) + (F (nbd g 1) + F (nbd g 2))). pose proof eps_small as E. pose proof eta_tiny as T.
    assert (TU : rsum (map U (cells dims)) = 3 * total dims F) by (unfold U; rewrite !rsum_add, !nbd_total; ring).
    assert (T0 : 0 <= total dims F) by (apply rsum_nn; intros x Hx; apply in_map_iff in Hx as (g & <- & Hg); apply HF, in_cells, Hg).
    set (X := fun g => (1 - b) * F g + a * U g). assert (TX : total dims X = (1 - b + 3 * a) * total dims F).
    { unfold total at 1, X. rewrite rsum_add, !rsum_scale, TU. fold (total dims F). ring. }
    assert (D : Rabs (total dims (rfield F) - total dims X) <= 65 / 10 * eps * total dims F + 12 * eta * N).
    { unfold total at 1 2. replace (rsum (map (rfield F) (cells dims)) - rsum (map X (cells dims))) with (rsum (map (fun g => rfield F g + - 1 * X g) (cells dims))) by (rewrite rsum_add, rsum_scale; ring).
      eapply Rle_trans; [apply rsum_abs|]. eapply Rle_trans; [apply (rsum_le _ (fun g => 47 / 10 * eps * F g + (6 / 10 * eps * U g + 12 * eta)))|].
      - intros g Hg. apply in_cells in Hg. destruct (rfield_cell F g HF Hg) as [_ B]. unfold X, U. replace (rfield F g + -1 * ((1 - b) * F g + a * (F (nbd g 0) + (F (nbd g 1) + F (nbd g 2))))) with (rfield F g - (F g - b * F g + a * (F (nbd g 0) + F (nbd g 1) + F (nbd g 2)))) by ring. lra.
      - rewrite !rsum_add, !rsum_scale, rsum_const, TU. fold (total dims F). lra. }
    replace (total dims (rfield F) - total dims F) with ((total dims (rfield F) - total dims X) + (3 * a - b) * total dims F) by (rewrite TX; ring).
    eapply Rle_trans; [apply Rabs_triang|]. rewrite Rabs_mult, (Rabs_pos_eq (total dims F)), (Rabs_minus_sym (3 * a) b) by exact T0.
    assert (Rabs (b - 3 * a) * total dims F <= 11 / 10 * eps * total dims F) by (apply Rmult_le_compat_r; assumption). assert (0 <= eps * total dims F) by (apply Rmult_le_pos; lra). lra.
  Qed.

  Lemma iterated k : INR k <= 2 ^ 31 -> N <= 2 ^ 31 ->
    exists F, doubles (mpi_iter arD k psum dims dec o3 o3 (py_step arD n) (LangSpec.corner (a_ofZ arD 0) (a_ofZ arD 1) dims)) F /\ Rabs (total dims F - 1) <= 9 * INR k * eps.
  Proof using H1 H2 VA VB Ra Rb Rab.
    intros Hk HN. pose proof eps_small as E. pose proof eta_tiny as T. assert (T31 : 2 ^ 31 * eps <= / 1000000) by (unfold eps; simpl; lra).
    assert (ET : 12 * eta * N <= eps / 2).
    { apply Rle_trans with (12 * (eps * eps * eps) * 2 ^ 31).
      - apply Rmult_le_compat; try lra. apply pos_INR.
      - replace (12 * (eps * eps * eps) * 2 ^ 31) with (12 * eps * (eps * (2 ^ 31 * eps))) by ring.
        assert (eps * (2 ^ 31 * eps) <= / 1000000 * / 1000000) by (apply Rmult_le_compat; lra).
        apply Rle_trans with (12 * eps * (/ 1000000 * / 1000000)); [apply Rmult_le_compat_l; lra|lra]. }
    induction k as [|k IH].
    - exists start. split; [|pose proof (start_total n H1 H2) as St; fold dims in St; rewrite St, Rminus_eq_0, Rabs_R0; simpl INR; lra].
      intros g Hg. unfold LangSpec.corner, start. change (length dims) with 3%nat. cbn [mpi_iter]. destruct (list_eq_dec _ _ _).
      + split; [exact (dv_ofZ 1 ltac:(reflexivity))|lra].
      + split; [exact (dv_ofZ 0 ltac:(reflexivity))|lra].
    - rewrite S_INR in *. pose proof (pos_INR k) as K0. destruct IH as (F & HF & HT); [lra|].
      assert (Ne : INR k * eps <= / 1000000) by (apply Rle_trans with (2 ^ 31 * eps); [apply Rmult_le_compat_r; lra|exact T31]).
      apply Rabs_le_inv in HT as HT'. assert (HF' : forall h, in_grid dims h -> fmt (F h) /\ 0 <= F h) by (intros h Hh; destruct (HF h Hh) as [V P]; split; [exact (dv_fmt _ _ V)|exact P]).
      exists (rfield F). split.
      + intros g Hg. cbn [mpi_iter]. split; [apply cell_step_double; [exact HF|lra|exact Hg]|apply rfield_cell; assumption].
      + pose proof (rfield_total F HF') as St. replace (total dims (rfield F) - 1) with ((total dims (rfield F) - total dims F) + (total dims F - 1)) by ring. eapply Rle_trans; [apply Rabs_triang|].
        assert (8 * eps * total dims F <= 8 * eps * (1 + / 10000)) by (apply Rmult_le_compat_l; lra). lra.
  Qed.
End Fields.

(** ** A sum with any number of zeros among its terms *)
Definition nonzero (x : spec_float) : bool := match x with S754_zero _ => false | _ => true end.
Lemma zero_val x : nonzero x = false -> val x = 0.
Proof. destruct x; try discriminate. reflexivity. Qed.

Lemma red_zeros l x : reduction (a_add arD) l x -> forall S,
  (forall y, In y l -> exists r, double_value y r /\ 0 <= r) -> rsum (map val l) <= S -> S <= 2 -> INR (length (filter nonzero l)) <= 2 ^ 31 ->
  exists r, double_value x r /\ 0 <= r /\ (filter nonzero l = [] -> r = 0) /\
    (filter nonzero l <> [] -> Rabs (r - rsum (map val l)) <= (INR (length (filter nonzero l)) - 1) * (11 / 10 * eps * S + 2 * eta)).
Proof.
  pose proof eps_small as E. pose proof eta_tiny as T. assert (T31 : 2 ^ 31 * eps <= / 1000000) by (unfold eps; simpl; lra).
  assert (T53 : 10 <= 2 ^ 53) by (simpl; lra).
  assert (ZS : forall k, filter nonzero k = [] -> rsum (map val k) = 0).
  { induction k as [|y k IH]; intros Hk; [reflexivity|]. cbn [filter] in Hk. destruct (nonzero y) eqn:Ey; [discriminate|]. cbn [map]. change (rsum (?z :: ?k)) with (z + rsum k). rewrite IH, (zero_val _ Ey) by exact Hk. lra. }
  induction 1 as [x|l l1 l2 a b Hperm _ IH1 _ IH2]; intros S HV HS HS2 HN.
  - destruct (HV x (or_introl eq_refl)) as (r & V & P). exists r. split; [exact V|]. split; [exact P|].
    cbn [map filter]. rewrite (fmt_val _ _ V). unfold rsum. cbn [fold_right]. rewrite Rplus_0_r, Rminus_eq_0, Rabs_R0. destruct (nonzero x) eqn:Ex.
    + split; [discriminate|]. intros _. simpl. lra.
    + split; [intros _; rewrite <- (fmt_val _ _ V); apply zero_val, Ex|congruence].
  - assert (V1 : forall y, In y l1 -> exists r, double_value y r /\ 0 <= r) by (intros y Hy; apply HV; apply (Permutation_in y (Permutation_sym Hperm)); apply in_or_app; left; exact Hy).
    assert (V2 : forall y, In y l2 -> exists r, double_value y r /\ 0 <= r) by (intros y Hy; apply HV; apply (Permutation_in y (Permutation_sym Hperm)); apply in_or_app; right; exact Hy).
    assert (ES : rsum (map val l) = rsum (map val l1) + rsum (map val l2)) by (rewrite (rsum_perm _ _ (Permutation_map val Hperm)), map_app, rsum_app; reflexivity).
    assert (NN : forall k, (forall y, In y k -> exists r, double_value y r /\ 0 <= r) -> 0 <= rsum (map val k)).
    { intros k Hk. apply rsum_nn. intros z Hz. apply in_map_iff in Hz as (y & <- & Hy). destruct (Hk y Hy) as (r & V & P). rewrite (fmt_val _ _ V). exact P. }
    pose proof (NN l1 V1) as N1. pose proof (NN l2 V2) as N2.
    assert (PF : forall k k' : list spec_float, Permutation k k' -> Permutation (filter nonzero k) (filter nonzero k')).
    { clear. induction 1; cbn [filter]; [constructor|destruct (nonzero x); [constructor|]; assumption|destruct (nonzero x), (nonzero y); try apply Permutation_refl; apply perm_swap|eapply perm_trans; eassumption]. }
    pose proof (PF _ _ Hperm) as Pf. rewrite filter_app in Pf.
    assert (EL : length (filter nonzero l) = (length (filter nonzero l1) + length (filter nonzero l2))%nat) by (rewrite (Permutation_length Pf), app_length; reflexivity).
    assert (Em : filter nonzero l = [] <-> filter nonzero l1 = [] /\ filter nonzero l2 = []).
    { rewrite <- !length_zero_iff_nil. lia. }
    rewrite EL, plus_INR in HN |- *. pose proof (pos_INR (length (filter nonzero l1))) as P1. pose proof (pos_INR (length (filter nonzero l2))) as P2.
    destruct (IH1 S V1 ltac:(lra) HS2 ltac:(lra)) as (ra & Va & Pa & Za & Ba). destruct (IH2 S V2 ltac:(lra) HS2 ltac:(lra)) as (rb & Vb & Pb & Zb & Bb).
    set (d := 11 / 10 * eps * S + 2 * eta) in *. assert (S0 : 0 <= S) by lra. assert (eS : 0 <= eps * S) by (apply Rmult_le_pos; lra).
    assert (D0 : 0 <= d) by (unfold d; lra).
    assert (D3 : d <= 3 * eps) by (unfold d; assert (eps * S <= eps * 2) by (apply Rmult_le_compat_l; lra); assert (eps * eps * eps <= / 100 * eps) by nra; lra).
    set (n := INR (length (filter nonzero l1)) + INR (length (filter nonzero l2))) in *.
    assert (Nd : n * d <= / 100000). { apply Rle_trans with (2 ^ 31 * (3 * eps)); [apply Rmult_le_compat; [unfold n; lra|lra|exact HN|exact D3]|lra]. }
    assert (Na : (INR (length (filter nonzero l1)) - 1) * d <= n * d) by (apply Rmult_le_compat_r; unfold n; lra).
    assert (Nb : (INR (length (filter nonzero l2)) - 1) * d <= n * d) by (apply Rmult_le_compat_r; unfold n; lra).
    assert (Up : forall k r, (forall y, In y k -> exists r, double_value y r /\ 0 <= r) -> 0 <= rsum (map val k) <= S -> (filter nonzero k = [] -> r = 0) -> (INR (length (filter nonzero k)) - 1) * d <= n * d ->
      (filter nonzero k <> [] -> Rabs (r - rsum (map val k)) <= (INR (length (filter nonzero k)) - 1) * d) -> r <= S + n * d).
    { intros k r _ Sk Zk Nk Bk. destruct (filter nonzero k) as [|y t] eqn:Ek; [rewrite Zk by reflexivity; assert (0 <= n * d) by (apply Rmult_le_pos; unfold n; lra); lra|].
      specialize (Bk ltac:(discriminate)). apply Rabs_le_inv in Bk. lra. }
    pose proof (Up l1 ra V1 ltac:(lra) Za Na Ba) as Ua. pose proof (Up l2 rb V2 ltac:(lra) Zb Nb Bb) as Ub. clear Up.
    exists (rnd64 (ra + rb)). split; [apply dv_add; [exact Va|exact Vb|apply Rabs_le; lra]|]. split; [apply rnd_nn; lra|]. split.
    + intros Hn. apply Em in Hn as [Hn1 Hn2]. rewrite Za, Zb, Rplus_0_r, rnd_0 by assumption. reflexivity.
    + intros Hn. rewrite ES. destruct (filter nonzero l1) as [|y1 t1] eqn:E1; [|destruct (filter nonzero l2) as [|y2 t2] eqn:E2].
      * assert (Hn2 : filter nonzero l2 <> []) by (intros C; apply Hn, Em; auto). rewrite (Za eq_refl), Rplus_0_l, (ZS l1 E1), Rplus_0_l, (rnd_fmt _ (dv_fmt _ _ Vb)). unfold n. simpl (INR (length [])). rewrite Rplus_0_l. apply Bb, Hn2.
      * rewrite (Zb eq_refl), Rplus_0_r, (ZS l2 E2), Rplus_0_r, (rnd_fmt _ (dv_fmt _ _ Va)). unfold n. simpl (INR (length [])). rewrite Rplus_0_r. apply Ba. discriminate.
      * specialize (Ba ltac:(discriminate)). specialize (Bb ltac:(discriminate)).
        apply Rabs_le_inv in Ba as Ba'. apply Rabs_le_inv in Bb as Bb'. pose proof (rnd_error (ra + rb)) as RE. rewrite (Rabs_pos_eq (ra + rb)) in RE by lra.
        replace (rnd64 (ra + rb) - (rsum (map val l1) + rsum (map val l2))) with ((rnd64 (ra + rb) - (ra + rb)) + ((ra - rsum (map val l1)) + (rb - rsum (map val l2)))) by ring.
        eapply Rle_trans; [apply Rabs_triang|]. pose proof (Rabs_triang (ra - rsum (map val l1)) (rb - rsum (map val l2))) as RT.
        assert (NDE : eps * (n * d) <= / 1000000 * d).
        { replace (eps * (n * d)) with (n * eps * d) by ring. apply Rmult_le_compat_r; [exact D0|]. apply Rle_trans with (2 ^ 31 * eps); [apply Rmult_le_compat_r; lra|exact T31]. }
        assert (HSab : eps * (ra + rb) <= eps * (S + 2 * (n * d))) by (apply Rmult_le_compat_l; lra).
        unfold n in *. clear - RE RT Ba Bb HSab NDE D0 T E eS. unfold d in *. lra.
Qed.
