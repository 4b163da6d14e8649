(** * C82: the upwind scheme converges to the solution of the advection equation *)
From Coq Require Import List Reals Lra Lia RealField.
From Verif Require Import Cpp CppProof MaiModel MaiSpec Radix MaiProof CdModel CdSpec FilterModel FilterSpec FilterProof
  FilterSum RealArith LapSpec LapProof UpModel UpSpec UpProof UpExact UpProps ConvSpec ConvProof.
From Coq Require Import List ZArith.
Import ListNotations.
Local Open Scope R_scope.
Local Arguments prodZ : simpl never.
Local Arguments Z.of_nat : simpl never.

Lemma quad_derivable f x l K : (forall h, Rabs (f (x + h) - f x - l * h) <= K * h ^ 2) -> derivable_pt_lim f x l.
Proof.
  intros H eps He. assert (Hd : 0 < eps / (Rabs K + 1)) by (pose proof (Rabs_pos K); apply Rdiv_lt_0_compat; lra).
  exists (mkposreal _ Hd). intros h Hh Hlt. cbn [pos] in Hlt. pose proof (Rabs_pos K) as HK.
  replace ((f (x + h) - f x) / h - l) with ((f (x + h) - f x - l * h) * / h) by (field; auto).
  rewrite Rabs_mult, Rabs_inv. assert (Hah : 0 < Rabs h) by (apply Rabs_pos_lt; auto).
  apply Rmult_lt_reg_r with (Rabs h); auto. rewrite Rmult_assoc, Rinv_l, Rmult_1_r by lra.
  eapply Rle_lt_trans; [apply H|]. rewrite <- (pow2_abs h). apply Rle_lt_trans with (Rabs K * Rabs h ^ 2).
  { apply Rmult_le_compat_r; [apply pow2_ge_0|apply Rle_abs]. }
  apply (Rmult_lt_compat_r (Rabs K + 1)) in Hlt; [|lra]. unfold Rdiv in Hlt. rewrite Rmult_assoc, Rinv_l, Rmult_1_r in Hlt by lra.
  simpl. nra.
Qed.

(** The carried profile solves du/dt + v . grad u = 0: its derivative in time is minus the velocity times the derivatives
    along the axes. *)
Theorem C82_carried_solves {nd M u du} v x t : smooth nd M u du ->
  exists du' : nat -> R,
    (forall j, (j < nd)%nat -> derivable_pt_lim (fun a => carried v t u (move x j a)) 0 (du' j)) /\
    derivable_pt_lim (fun s => carried v s u x) t (- sum_axes nd (fun j => nth j v 0 * du' j)) /\
    carried v 0 u x = u x.
Proof.
  intros Hu. exists (du (fun j => x j - nth j v 0 * t)). split; [|split].
  - intros j Hj. apply quad_derivable with (M / 2). intros h. rewrite Rplus_0_l.
    pose proof (smooth_carried nd M u du v t Hu x (fun i => if Nat.eqb i j then h else 0)) as H. cbv beta in H.
    rewrite (sumax_one nd (fun i => du _ i * _) j Hj) in H by (intros i Hi Hne; apply Nat.eqb_neq in Hne; rewrite Hne; ring).
    rewrite (sumax_one nd (fun i => Rabs _) j Hj) in H by (intros i Hi Hne; apply Nat.eqb_neq in Hne; rewrite Hne; apply Rabs_R0).
    rewrite Nat.eqb_refl, pow2_abs in H.
    assert (E1 : carried v t u (move x j 0) = carried v t u x).
    { apply (smooth_ext nd M _ _ _ _ (smooth_carried nd M u du v t Hu)). intros i Hi. unfold move. destruct (Nat.eqb i j); ring. }
    assert (E2 : carried v t u (move x j h) = carried v t u (fun i => x i + (if Nat.eqb i j then h else 0))).
    { apply (smooth_ext nd M _ _ _ _ (smooth_carried nd M u du v t Hu)). intros i Hi. unfold move. destruct (Nat.eqb i j); ring. }
    rewrite E1, E2. exact H.
  - apply quad_derivable with (M / 2 * (sum_axes nd (fun j => Rabs (nth j v 0))) ^ 2). intros h.
    pose proof (Hu (fun j => x j - nth j v 0 * t) (fun j => - (nth j v 0 * h))) as H. cbv beta in H.
    assert (E : carried v (t + h) u x = u (fun j => x j - nth j v 0 * t + - (nth j v 0 * h))).
    { unfold carried. apply (smooth_ext nd M _ _ _ _ Hu). intros i Hi. ring. }
    rewrite E. unfold carried. set (p := fun j => x j - nth j v 0 * t) in *.
    replace (- sum_axes nd (fun j => nth j v 0 * du p j) * h) with (sum_axes nd (fun j => du p j * - (nth j v 0 * h))).
    2: { rewrite Ropp_mult_distr_l_reverse, Rmult_comm, <- sumax_scal.
         replace (- sum_axes nd (fun j => h * (nth j v 0 * du p j))) with (-1 * sum_axes nd (fun j => h * (nth j v 0 * du p j))) by ring.
         rewrite <- sumax_scal. apply sumax_ext. intros j Hj. ring. }
    eapply Rle_trans; [exact H|]. right.
    replace (sum_axes nd (fun j => Rabs (- (nth j v 0 * h)))) with (Rabs h * sum_axes nd (fun j => Rabs (nth j v 0))).
    2: { rewrite <- sumax_scal. apply sumax_ext. intros j Hj. rewrite Rabs_Ropp, Rabs_mult. ring. }
    rewrite <- (pow2_abs h). ring.
  - apply (smooth_ext nd M _ _ _ _ Hu). intros j Hj. ring.
Qed.
Print Assumptions C82_carried_solves.

(** The size of a cell along axis j. *)
Definition dx_of (dims : list Z) (lengths : list R) (j : nat) : R := nth j lengths 0 / IZR (nth j dims 0%Z).
Definition speed (nd : nat) (v : list R) : R := sum_axes nd (fun j => Rabs (nth j v 0)).

(** After n steps from a sampled profile the field differs from the carried profile by at most n times the truncation error. *)
Theorem C82_error dims v lengths u dt n M u0 du x0 :
  up_args dims v lengths -> short_axes dims -> up_object arR dims v lengths u ->
  (forall x, In x lengths -> 0 < x) -> 0 <= dt -> courant_sum dims v lengths dt <= 1 -> (0 <= n)%Z ->
  smooth (length dims) M u0 du -> periodic (length dims) lengths u0 ->
  holds u dims (sample dims lengths x0 u0) ->
  exists u' G, up_advect arR (vlen dims) u n dt = Ok u' /\ holds u' dims G /\
    forall g, in_grid dims g ->
      Rabs (G g - sample dims lengths x0 (carried v (IZR n * dt) u0) g)
      <= IZR n * (M / 2 * ((dt * speed (length dims) v) ^ 2 +
                           dt * sum_axes (length dims) (fun j => Rabs (nth j v 0) * dx_of dims lengths j))).
Proof.
  intros Ha Hsh Hu HL Hdt HC Hn Hsm Hper HG. destruct (C42_advect arR _ _ _ _ _ dt n Ha Hsh Hu HG) as (u' & E & _ & Hh').
  eexists u', _. split; [exact E|]. split; [exact Hh'|]. intros g Hg. destruct Ha as (Hgr & Hv & Hl).
  assert (En : IZR n = INR (Z.to_nat n)) by (rewrite INR_IZR_INZ, Z2Nat.id by auto; reflexivity). rewrite En.
  apply (error_bound dims v lengths dt (proj1 (proj2 (proj2 Hgr))) (fun j Hj => HL _ (nth_In lengths 0 (eq_ind_r (fun k => (j < k)%nat) Hj Hl))) Hdt HC M u0 du x0); auto.
Qed.
Print Assumptions C82_error.

(** First order: with cells of size at most h the error is at most (elapsed time) * M * |v| * h. *)
Theorem C82_first_order dims v lengths u dt n M u0 du x0 h :
  up_args dims v lengths -> short_axes dims -> up_object arR dims v lengths u ->
  (forall x, In x lengths -> 0 < x) -> 0 <= dt -> courant_sum dims v lengths dt <= 1 -> (0 <= n)%Z ->
  0 <= M -> smooth (length dims) M u0 du -> periodic (length dims) lengths u0 ->
  holds u dims (sample dims lengths x0 u0) ->
  (forall j, (j < length dims)%nat -> dx_of dims lengths j <= h) ->
  exists u' G, up_advect arR (vlen dims) u n dt = Ok u' /\ holds u' dims G /\
    forall g, in_grid dims g ->
      Rabs (G g - sample dims lengths x0 (carried v (IZR n * dt) u0) g) <= (IZR n * dt) * M * speed (length dims) v * h.
Proof.
  intros Ha Hsh Hu HL Hdt HC Hn HM Hsm Hper HG Hh.
  destruct (C82_error dims v lengths u dt n M u0 du x0 Ha Hsh Hu HL Hdt HC Hn Hsm Hper HG) as (u' & G & E & Hh' & H).
  exists u', G. split; [exact E|]. split; [exact Hh'|]. intros g Hg. eapply Rle_trans; [apply H; exact Hg|]. clear H.
  destruct Ha as (Hgr & Hv & Hl). set (nd := length dims) in *. set (V := speed nd v).
  assert (Hp : pos_axes dims) by exact (proj1 (proj2 (proj2 Hgr))).
  assert (Hdx : forall j, (j < nd)%nat -> 0 < dx_of dims lengths j).
  { intros j Hj. apply dx_pos; auto. intros k Hk. apply HL, nth_In. fold nd in Hk. lia. }
  assert (HV : 0 <= V).
  { unfold V, speed. rewrite <- (sumax_zero nd (fun _ => 0)) by auto. apply sumax_le. intros; apply Rabs_pos. }
  assert (Hnd : (0 < nd)%nat) by (destruct Hgr as (H & _); unfold nd; destruct dims; [congruence|simpl; lia]).
  assert (Hh0 : 0 < h) by (specialize (Hh O Hnd); specialize (Hdx O Hnd); lra).
  assert (H1 : sum_axes nd (fun j => Rabs (nth j v 0) * dx_of dims lengths j) <= h * V).
  { unfold V, speed. rewrite <- sumax_scal. apply sumax_le. intros j Hj. rewrite Rmult_comm. apply Rmult_le_compat_r; [apply Rabs_pos|auto]. }
  assert (H2 : dt * V <= h).
  { unfold V, speed. rewrite <- sumax_scal.
    apply Rle_trans with (h * courant_sum dims v lengths dt); [|nra].
    unfold courant_sum. rewrite sumax_sum, <- sumax_scal. apply sumax_le. intros j Hj. specialize (Hdx j Hj). specialize (Hh j Hj).
    change (nth j lengths 0 / IZR (nth j dims 0%Z)) with (dx_of dims lengths j).
    replace (dt * Rabs (nth j v 0)) with (dx_of dims lengths j * (Rabs (nth j v 0) * dt / dx_of dims lengths j)) by (field; lra).
    apply Rmult_le_compat_r; [|exact Hh]. apply Rmult_le_pos; [apply Rmult_le_pos; [apply Rabs_pos|auto]|].
    left. apply Rinv_0_lt_compat. exact Hdx. }
  assert (Hn' : 0 <= IZR n) by (apply IZR_le; exact Hn).
  assert (H3 : (dt * V) ^ 2 <= h * (dt * V)) by (assert (0 <= dt * V) by (apply Rmult_le_pos; auto); simpl; nra).
  assert (H4 : dt * sum_axes nd (fun j => Rabs (nth j v 0) * dx_of dims lengths j) <= dt * (h * V)) by (apply Rmult_le_compat_l; auto).
  fold V. apply Rle_trans with (IZR n * (M / 2 * (h * (dt * V) + dt * (h * V)))); [|right; field].
  apply Rmult_le_compat_l; [exact Hn'|]. apply Rmult_le_compat_l; lra.
Qed.
Print Assumptions C82_first_order.

(** Convergence: up to a given time the error is as small as one likes on all grids that are fine enough, for all time steps
    that meet the Courant condition. *)
Theorem C82_converges nd (v lengths : list R) M u0 du T eps :
  (forall x, In x lengths -> 0 < x) -> 0 <= M -> smooth nd M u0 du -> periodic nd lengths u0 -> 0 < eps ->
  exists h, 0 < h /\
    forall dims u dt n x0, length dims = nd -> up_args dims v lengths -> short_axes dims -> up_object arR dims v lengths u ->
      0 <= dt -> courant_sum dims v lengths dt <= 1 -> (0 <= n)%Z -> IZR n * dt <= T ->
      (forall j, (j < nd)%nat -> dx_of dims lengths j <= h) ->
      holds u dims (sample dims lengths x0 u0) ->
      exists u' G, up_advect arR (vlen dims) u n dt = Ok u' /\ holds u' dims G /\
        forall g, in_grid dims g -> Rabs (G g - sample dims lengths x0 (carried v (IZR n * dt) u0) g) <= eps.
Proof.
  intros HL HM Hsm Hper Heps. set (K := Rabs T * M * speed nd v).
  assert (HV : 0 <= speed nd v).
  { unfold speed. rewrite <- (sumax_zero nd (fun _ => 0)) by auto. apply sumax_le. intros; apply Rabs_pos. }
  assert (HK : 0 <= K) by (unfold K; repeat apply Rmult_le_pos; auto; apply Rabs_pos).
  exists (eps / (K + 1)). split; [apply Rdiv_lt_0_compat; lra|].
  intros dims u dt n x0 Ln Ha Hsh Hu Hdt HC Hn HT Hh HG. subst nd.
  destruct (C82_first_order dims v lengths u dt n M u0 du x0 _ Ha Hsh Hu HL Hdt HC Hn HM Hsm Hper HG Hh) as (u' & G & E & Hh' & H).
  exists u', G. split; [exact E|]. split; [exact Hh'|]. intros g Hg. eapply Rle_trans; [apply H; exact Hg|].
  assert (H1 : IZR n * dt * M * speed (length dims) v <= K).
  { unfold K. apply Rmult_le_compat_r; auto. apply Rmult_le_compat_r; auto. eapply Rle_trans; [exact HT|apply Rle_abs]. }
  assert (0 < eps / (K + 1)) by (apply Rdiv_lt_0_compat; lra).
  apply Rle_trans with (K * (eps / (K + 1))); [apply Rmult_le_compat_r; lra|].
  replace (K * (eps / (K + 1))) with (eps * (K / (K + 1))) by (field; lra).
  assert (K / (K + 1) <= 1) by (apply Rmult_le_reg_r with (K + 1); [lra|]; unfold Rdiv; rewrite Rmult_assoc, Rinv_l; lra).
  nra.
Qed.
Print Assumptions C82_converges.

(** When the velocity is along one axis and crosses exactly one cell in a step, the scheme moves every field by one cell per
    step, without any error. *)
Theorem C82_unit_courant dims v lengths u G dt n a :
  up_args dims v lengths -> short_axes dims -> up_object arR dims v lengths u -> holds u dims G ->
  (a < length dims)%nat -> (forall j, (j < length dims)%nat -> j <> a -> nth j v 0 = 0) ->
  Rabs (nth a v 0) * dt = dx_of dims lengths a -> dx_of dims lengths a <> 0 -> (0 <= n)%Z ->
  exists u', up_advect arR (vlen dims) u n dt = Ok u' /\
    holds u' dims (fun g => G (neighbour dims g a (if Rlt_dec (nth a v 0%R) 0%R then n else - n)%Z)).
Proof.
  intros Ha Hsh Hu HG Hj Hz Hw Hdx Hn. destruct (C42_advect arR _ _ _ _ _ dt n Ha Hsh Hu HG) as (u' & E & _ & Hh').
  exists u'. split; [exact E|]. unfold holds in *. rewrite Hh'. apply map_ext_in. intros g Hg. apply in_cells in Hg.
  pose proof Ha as (Hgr & _). assert (Hp : pos_axes dims) by exact (proj1 (proj2 (proj2 Hgr))).
  assert (Es : upwind_side arR (axis_velocity arR v a) = if Rlt_dec (nth a v 0) 0 then 1%Z else (-1)%Z).
  { unfold upwind_side, axis_velocity. cbn [arR a_lt a_dec a_zero]. replace (0 / powerRZ 10 1) with 0 by (simpl; lra).
    destruct (Rlt_dec (nth a v 0) 0); reflexivity. }
  set (s := upwind_side arR (axis_velocity arR v a)) in *.
  assert (Est : forall F g, upwind_formula arR dims v lengths dt F g = F (neighbour dims g a s)).
  { intros F h. rewrite formula_convex, !sumax_sum. unfold dx_of in Hw.
    rewrite (sumax_one (length dims) _ a Hj) by (intros i Hi Hne; rewrite (Hz i Hi Hne), Rabs_R0; unfold Rdiv; ring).
    rewrite (sumax_one (length dims) _ a Hj) by (intros i Hi Hne; rewrite (Hz i Hi Hne), Rabs_R0; unfold Rdiv; ring).
    cbv beta. fold s. rewrite Hw. unfold dx_of in Hdx. set (q := nth a lengths 0 / IZR (nth a dims 0%Z)) in *.
    replace (q / q) with 1 by (field; exact Hdx). ring. }
  assert (Hit : forall k g, in_grid dims g -> upwind_iter arR k dims v lengths dt G g = G (neighbour dims g a (Z.of_nat k * s)%Z)).
  { induction k as [|k IH]; intros h Hh.
    - cbn [upwind_iter]. f_equal. unfold neighbour. rewrite wrap_unit by auto. change (Z.of_nat 0) with 0%Z. rewrite Z.mul_0_l, Z.add_0_r.
      apply in_grid_nth in Hh as [L Hh]. rewrite Z.mod_small by (apply Hh; auto). symmetry. apply upd_self. rewrite L. exact Hj.
    - cbn [upwind_iter]. rewrite Est, IH by (apply neighbour_in; auto). f_equal.
      unfold neighbour at 1. rewrite wrap_unit by (auto; apply neighbour_in; auto). unfold neighbour. rewrite !wrap_unit by auto.
      pose proof (proj1 (in_grid_nth dims h) Hh) as [L _]. rewrite upd_nth, Nat.eqb_refl, upd_upd by (rewrite L; auto). f_equal.
      rewrite Zplus_mod_idemp_l. f_equal. rewrite Nat2Z.inj_succ. ring. }
  rewrite Hit by exact Hg. f_equal. f_equal. rewrite Z2Nat.id by exact Hn. rewrite Es. destruct (Rlt_dec (nth a v 0) 0); ring.
Qed.
Print Assumptions C82_unit_courant.

(** ** Examples *)

(** sin (2 pi (x + y)) on a domain of lengths 1 and 3. *)
Definition ex_profile (x : point) : R := sin (2 * PI * (x 0%nat + x 1%nat)).
Definition ex_gradient (x : point) (j : nat) : R := 2 * PI * cos (2 * PI * (x 0%nat + x 1%nat)).

Lemma sin_remainder a b : Rabs (sin (a + b) - sin a - b * cos a) <= b ^ 2.
Proof.
  destruct (MVT_abs (fun z => sin z - z * cos a) (fun z => cos z - cos a) a (a + b)) as (c & E & Hc).
  { intros c _. apply derivable_pt_lim_minus; [apply derivable_pt_lim_sin|].
    replace (derivable_pt_lim (fun z => z * cos a) c (cos a)) with (derivable_pt_lim (id * (fun _ => cos a)) c (1 * cos a + id c * 0)).
    2: { f_equal. unfold id. ring. }
    apply (derivable_pt_lim_mult id (fun _ => cos a)); [apply derivable_pt_lim_id|apply derivable_pt_lim_const]. }
  replace (sin (a + b) - sin a - b * cos a) with (sin (a + b) - (a + b) * cos a - (sin a - a * cos a)) by ring.
  rewrite E. destruct (MVT_abs cos (fun z => - sin z) a c) as (d & E' & _).
  { intros d _. apply derivable_pt_lim_cos. }
  rewrite E'. replace (a + b - a) with b by ring.
  assert (H1 : Rabs (- sin d) <= 1) by (rewrite Rabs_Ropp; apply Rabs_le, SIN_bound).
  assert (H2 : Rabs (c - a) <= Rabs b).
  { apply Rabs_le. unfold Rmin, Rmax in Hc. destruct (Rle_dec a (a + b)).
    - rewrite (Rabs_right b) by lra. lra.
    - rewrite (Rabs_left b) by lra. lra. }
  rewrite <- (pow2_abs b). pose proof (Rabs_pos b). pose proof (Rabs_pos (c - a)). pose proof (Rabs_pos (- sin d)).
  assert (Rabs (- sin d) * Rabs (c - a) <= 1 * Rabs b) by (apply Rmult_le_compat; auto). simpl. nra.
Qed.

Example C82_ex_smooth : smooth 2 (2 * (2 * PI) ^ 2) ex_profile ex_gradient.
Proof.
  intros x h. unfold ex_profile, ex_gradient, sum_axes. cbn [seq map fold_right].
  set (a := 2 * PI * (x 0%nat + x 1%nat)). set (b := 2 * PI * (h 0%nat + h 1%nat)).
  replace (2 * PI * (x 0%nat + h 0%nat + (x 1%nat + h 1%nat))) with (a + b) by (unfold a, b; ring).
  replace (sin (a + b) - sin a - (2 * PI * cos a * h 0%nat + (2 * PI * cos a * h 1%nat + 0))) with (sin (a + b) - sin a - b * cos a)
    by (unfold b; ring).
  eapply Rle_trans; [apply sin_remainder|]. unfold b. rewrite Rpow_mult_distr.
  replace (2 * (2 * PI) ^ 2 / 2) with ((2 * PI) ^ 2) by field. apply Rmult_le_compat_l; [apply pow2_ge_0|].
  rewrite <- (pow2_abs (h 0%nat + h 1%nat)). apply pow_incr. split; [apply Rabs_pos|]. rewrite Rplus_0_r. apply Rabs_triang.
Qed.

Example C82_ex_periodic : periodic 2 [1; 3] ex_profile.
Proof.
  intros x j Hj. unfold ex_profile, move. destruct j as [|[|j]]; [| |lia]; cbn [Nat.eqb nth].
  - replace (2 * PI * (x 0%nat + 1 + x 1%nat)) with (2 * PI * (x 0%nat + x 1%nat) + 2 * INR 1 * PI) by (simpl; ring). apply sin_period.
  - replace (2 * PI * (x 0%nat + (x 1%nat + 3))) with (2 * PI * (x 0%nat + x 1%nat) + 2 * INR 3 * PI) by (simpl; ring). apply sin_period.
Qed.

Example C82_ex_arguments : up_args [4; 6]%Z [1; -2] [1; 3] /\ short_axes [4; 6]%Z /\ courant_sum [4; 6]%Z [1; -2] [1; 3] (1 / 8) <= 1.
Proof.
  split; [|split].
  - repeat split; try discriminate; try reflexivity. intros [|[|j]] Hj; simpl in *; lia.
  - intros [|[|j]] Hj; simpl in *; lia.
  - unfold courant_sum. cbn [length seq map sum_of fold_right arR a_add a_zero nth].
    rewrite (Rabs_right 1), (Rabs_left (-2)) by lra. lra.
Qed.

(** Velocity 3 on axis 0, cells of size 1/4, time step 1/12. *)
Example C82_ex_unit : Rabs (nth 0 [3; 0] 0) * (1 / 12) = dx_of [4; 6]%Z [1; 3] 0 /\ dx_of [4; 6]%Z [1; 3] 0 <> 0.
Proof. unfold dx_of. cbn [nth]. rewrite Rabs_right by lra. lra. Qed.
