(** * C93: the pulse moves with the velocity and spreads like numerical diffusion

    C82 gives the field of the program cell by cell.  Here what a user reads off it: the centre of mass along every axis has moved
    by exactly |v| t downwind, the variance is exactly |v| t dx (1 - c) with c the Courant number of the axis (the numerical
    diffusion of the upwind scheme), and two axes have the covariance -|v_i| |v_j| t dt.  An axis must have more cells than the number of steps;
    the other axes may be shorter. *)
From Coq Require Import List Reals Lra Lia RealField Permutation.
From Verif Require Import Cpp CppProof MaiModel MaiSpec Radix MaiProof CdModel CdSpec FilterModel FilterSpec FilterProof
  FilterSum RealArith LapSpec LapProof UpModel UpSpec UpProof UpExact UpProps UpMpiProps ConvSpec ConvProof WalkSpec WalkProps WalkSumProps StabProps.
From Coq Require Import List ZArith.
Import ListNotations.
Local Open Scope R_scope.
Local Arguments prodZ : simpl never.
Local Arguments Z.of_nat : simpl never.

(** ** Vocabulary *)

(** The distance of cell [g] from the first cell along axis j, measured downwind. *)
Definition travelled (dims : list Z) (v lengths : list R) (j : nat) (g : list Z) : R :=
  (nth j lengths 0 / IZR (nth j dims 0%Z)) * INR (nth j (downwind arR dims v g) 0%nat).
(** The mean of a quantity over the cells, weighted with the field. *)
Definition weighted (dims : list Z) (G : list Z -> R) (q : list Z -> R) : R := rsum (map (fun g => q g * G g) (cells dims)).

Section Moments.
  Variables (dims : list Z) (v lengths : list R) (dt : R).
  Hypothesis Hp : pos_axes dims.
  Notation nd := (length dims).
  Notation sd j := (upwind_side arR (axis_velocity arR v j)).
  Notation nb g j := (neighbour dims g j (sd j)).
  Notation at_ g j := (nth j (downwind arR dims v g) 0%nat).
  Notation F n := (upwind_iter arR n dims v lengths dt (first_cell arR dims)).
  Notation c := (share dims v lengths dt).

  Lemma side_cases j : sd j = 1%Z \/ sd j = (-1)%Z.
  Proof using Type. clear Hp. unfold upwind_side. destruct (a_lt _ _ _); auto. Qed.

  (** The distance along an axis, seen from the neighbour. *)
  Lemma other_axis g i j : in_grid dims g -> (i < nd)%nat -> (j < nd)%nat -> i <> j -> at_ (nb g i) j = at_ g j.
  Proof using Hp.
    intros Hg Hi Hj Hne. rewrite !downwind_nth by exact Hj. unfold neighbour. rewrite wrap_unit by auto.
    apply in_grid_nth in Hg as (L & _). rewrite upd_nth by lia. apply Nat.eqb_neq in Hne. rewrite Nat.eqb_sym, Hne. reflexivity.
  Qed.
  Lemma same_axis g j : in_grid dims g -> (j < nd)%nat ->
    at_ (nb g j) j = if Nat.eqb (at_ g j) 0 then Z.to_nat (nth j dims 0 - 1)%Z else (at_ g j - 1)%nat.
  Proof using Hp.
    intros Hg Hj. rewrite !downwind_nth by exact Hj. unfold neighbour. rewrite wrap_unit by auto. pose proof (Hp j Hj) as Hn.
    apply in_grid_nth in Hg as (L & Hg). specialize (Hg j Hj). rewrite upd_nth by lia. rewrite Nat.eqb_refl.
    set (x := nth j g 0%Z) in *. set (n := nth j dims 0%Z) in *.
    assert (E : ((- sd j * ((x + sd j) mod n)) mod n = ((- sd j * x) mod n - 1) mod n)%Z).
    { rewrite Z.mul_mod_idemp_r, Zminus_mod_idemp_l by lia. f_equal. destruct (side_cases j) as [-> | ->]; lia. }
    rewrite E. pose proof (Z.mod_pos_bound (- sd j * x) n Hn) as Hb. set (y := ((- sd j * x) mod n)%Z) in *.
    destruct (Nat.eqb_spec (Z.to_nat y) 0).
    - assert (y = 0)%Z by lia. rewrite H. f_equal. rewrite <- (Z.mod_add _ 1) by lia. rewrite Z.mod_small by lia. lia.
    - rewrite Z.mod_small by lia. lia.
  Qed.
  Lemma at_bound g j : in_grid dims g -> (j < nd)%nat -> (Z.of_nat (at_ g j) < nth j dims 0)%Z.
  Proof using Hp.
    intros Hg Hj. rewrite downwind_nth by exact Hj. pose proof (Hp j Hj) as Hn. pose proof (Z.mod_pos_bound (- sd j * nth j g 0%Z) _ Hn). lia.
  Qed.

  (** After n steps nothing has moved further than n cells. *)
  Lemma support n g j : in_grid dims g -> (j < nd)%nat -> (n < at_ g j)%nat -> F n g = 0.
  Proof using Hp.
    revert g. induction n as [|n IH]; intros g Hg Hj H; cbn [upwind_iter].
    - rewrite first_value. destruct (list_eq_dec _ _ _) as [->|]; [exfalso|reflexivity]. rewrite downwind_nth, nth_repeat, Z.mul_0_r in H by exact Hj.
      pose proof (Hp j Hj). rewrite Z.mod_0_l in H by lia. simpl in H. lia.
    - rewrite formula_share. rewrite IH by (auto; lia). rewrite sumax_zero; [ring|]. intros i Hi.
      rewrite IH; [ring|apply neighbour_in; auto|exact Hj|]. destruct (Nat.eq_dec i j) as [->|Hne].
      + rewrite same_axis by auto. destruct (Nat.eqb_spec (at_ g j) 0); lia.
      + rewrite other_axis by auto. lia.
  Qed.
  Lemma upstream n g j : in_grid dims g -> (j < nd)%nat -> (Z.of_nat (S n) < nth j dims 0)%Z -> F n (nb g j) <> 0 -> at_ g j = S (at_ (nb g j) j).
  Proof using Hp.
    intros Hg Hj Hn H. assert (B : (at_ (nb g j) j <= n)%nat).
    { destruct (le_lt_dec (at_ (nb g j) j) n); [assumption|]. exfalso. apply H. apply (support n _ j); auto. apply neighbour_in; auto. }
    rewrite same_axis in * by auto. destruct (Nat.eqb_spec (at_ g j) 0); [lia|]. lia.
  Qed.

  (** ** The recursion of the moments *)
  Lemma one_axis_step n j (phi : nat -> R) : (j < nd)%nat -> (Z.of_nat (S n) < nth j dims 0)%Z ->
    weighted dims (F (S n)) (fun g => phi (at_ g j)) =
    (1 - c j) * weighted dims (F n) (fun g => phi (at_ g j)) + c j * weighted dims (F n) (fun g => phi (S (at_ g j))).
  Proof using Hp.
    intros Hj Hn. unfold weighted. cbn [upwind_iter].
    rewrite (weighted_step dims v lengths dt Hp (F n) _ (fun i g => if Nat.eqb i j then phi (S (at_ g j)) else phi (at_ g j))).
    - set (A := rsum (map (fun g => phi (at_ g j) * F n g) (cells dims))). set (B := rsum (map (fun g => phi (S (at_ g j)) * F n g) (cells dims))).
      rewrite (sumax_ext _ _ (fun i => A * c i + (if Nat.eqb i j then c j * (B - A) else 0))).
      + rewrite sumax_plus, sumax_scal, (sumax_one _ (fun i => if Nat.eqb i j then _ else 0) j Hj).
        2: { intros i Hi Hne. apply Nat.eqb_neq in Hne. rewrite Hne. reflexivity. }
        rewrite Nat.eqb_refl. unfold rest. ring.
      + intros i Hi. destruct (Nat.eqb_spec i j) as [->|]; fold A B; ring.
    - intros g i Hg Hi. destruct (Nat.eqb_spec i j) as [->|Hne]; [|rewrite other_axis by auto; reflexivity].
      destruct (Req_dec (F n (nb g j)) 0) as [->|H]; [ring|]. rewrite (upstream n g j Hg Hj Hn H). reflexivity.
  Qed.
  Lemma two_axes_step n i j (phi : nat -> nat -> R) : (i < nd)%nat -> (j < nd)%nat -> i <> j ->
    (Z.of_nat (S n) < nth i dims 0)%Z -> (Z.of_nat (S n) < nth j dims 0)%Z ->
    weighted dims (F (S n)) (fun g => phi (at_ g i) (at_ g j)) =
    (1 - c i - c j) * weighted dims (F n) (fun g => phi (at_ g i) (at_ g j)) +
    c i * weighted dims (F n) (fun g => phi (S (at_ g i)) (at_ g j)) + c j * weighted dims (F n) (fun g => phi (at_ g i) (S (at_ g j))).
  Proof using Hp.
    intros Hi Hj Hij Hni Hnj. unfold weighted. cbn [upwind_iter].
    rewrite (weighted_step dims v lengths dt Hp (F n) _
      (fun l g => if Nat.eqb l i then phi (S (at_ g i)) (at_ g j) else if Nat.eqb l j then phi (at_ g i) (S (at_ g j)) else phi (at_ g i) (at_ g j))).
    - set (A := rsum (map (fun g => phi (at_ g i) (at_ g j) * F n g) (cells dims))).
      set (B := rsum (map (fun g => phi (S (at_ g i)) (at_ g j) * F n g) (cells dims))).
      set (C := rsum (map (fun g => phi (at_ g i) (S (at_ g j)) * F n g) (cells dims))).
      rewrite (sumax_ext _ _ (fun l => (A * c l + (if Nat.eqb l i then c i * (B - A) else 0)) + (if Nat.eqb l j then c j * (C - A) else 0))).
      + rewrite !sumax_plus, sumax_scal, (sumax_one _ (fun l => if Nat.eqb l i then _ else 0) i Hi), (sumax_one _ (fun l => if Nat.eqb l j then _ else 0) j Hj).
        2, 3: intros l Hl Hne; apply Nat.eqb_neq in Hne; rewrite Hne; reflexivity.
        rewrite !Nat.eqb_refl. unfold rest. ring.
      + intros l Hl. destruct (Nat.eqb_spec l i) as [->|]; [|destruct (Nat.eqb_spec l j) as [->|]; fold A B C; ring].
        apply Nat.eqb_neq in Hij. rewrite Hij. fold A B C. ring.
    - intros g l Hg Hl. destruct (Nat.eqb_spec l i) as [->|Hli].
      + rewrite (other_axis g i j) by auto. destruct (Req_dec (F n (nb g i)) 0) as [->|H]; [ring|]. rewrite (upstream n g i Hg Hi Hni H). reflexivity.
      + rewrite (other_axis g l i) by auto. destruct (Nat.eqb_spec l j) as [->|Hlj]; [|rewrite (other_axis g l j) by auto; reflexivity].
        destruct (Req_dec (F n (nb g j)) 0) as [->|H]; [ring|]. rewrite (upstream n g j Hg Hj Hnj H). reflexivity.
  Qed.

  Lemma weighted_ext G p q : (forall g, p g = q g) -> weighted dims G p = weighted dims G q.
  Proof using Type. clear Hp. intros H. apply rsum_ext. intros g _. rewrite H. reflexivity. Qed.
  Lemma weighted_plus G p q : weighted dims G (fun g => p g + q g) = weighted dims G p + weighted dims G q.
  Proof using Type. clear Hp. unfold weighted. rewrite <- rsum_plus. apply rsum_ext. intros; ring. Qed.
  Lemma weighted_scal G a q : weighted dims G (fun g => a * q g) = a * weighted dims G q.
  Proof using Type. clear Hp. unfold weighted. rewrite <- rsum_scal. apply rsum_ext. intros; ring. Qed.
  Lemma at_zero j : (j < nd)%nat -> at_ (repeat 0%Z nd) j = 0%nat.
  Proof using Hp. intros Hj. rewrite downwind_nth, nth_repeat, Z.mul_0_r, Z.mod_0_l by (try exact Hj; specialize (Hp j Hj); lia). reflexivity. Qed.
  Lemma start q : weighted dims (F 0) q = q (repeat 0%Z nd).
  Proof using Hp. apply first_cell_sum. exact Hp. Qed.

  Lemma mass n : weighted dims (F n) (fun _ => 1) = 1.
  Proof using Hp.
    induction n as [|n IH]; [apply start|]. unfold weighted in *. cbn [upwind_iter]. rewrite (weighted_step dims v lengths dt Hp (F n) _ (fun _ _ => 1)) by auto.
    rewrite IH, (sumax_ext _ _ (c)) by (intros; ring). unfold rest. ring.
  Qed.
  Lemma first_moment n j : (j < nd)%nat -> (Z.of_nat n < nth j dims 0)%Z -> weighted dims (F n) (fun g => INR (at_ g j)) = INR n * c j.
  Proof using Hp.
    intros Hj. induction n as [|n IH]; intros Hn; [rewrite start, at_zero by exact Hj; simpl; ring|].
    rewrite (one_axis_step n j INR Hj Hn). rewrite (weighted_ext _ (fun g => INR (S (at_ g j))) (fun g => INR (at_ g j) + 1)) by (intros; apply S_INR).
    rewrite weighted_plus, mass, IH, S_INR by lia. ring.
  Qed.
  Lemma second_moment n j : (j < nd)%nat -> (Z.of_nat n < nth j dims 0)%Z ->
    weighted dims (F n) (fun g => INR (at_ g j) ^ 2) = INR n * c j * (1 - c j) + (INR n * c j) ^ 2.
  Proof using Hp.
    intros Hj. induction n as [|n IH]; intros Hn; [rewrite start, at_zero by exact Hj; simpl; ring|].
    rewrite (one_axis_step n j (fun m => INR m ^ 2) Hj Hn).
    rewrite (weighted_ext _ (fun g => INR (S (at_ g j)) ^ 2) (fun g => (INR (at_ g j) ^ 2 + 2 * INR (at_ g j)) + 1)) by (intros; rewrite S_INR; ring).
    rewrite !weighted_plus, weighted_scal, mass, first_moment, IH, S_INR by lia. ring.
  Qed.
  Lemma cross_moment n i j : (i < nd)%nat -> (j < nd)%nat -> i <> j -> (Z.of_nat n < nth i dims 0)%Z -> (Z.of_nat n < nth j dims 0)%Z ->
    weighted dims (F n) (fun g => INR (at_ g i) * INR (at_ g j)) = INR n * (INR n - 1) * c i * c j.
  Proof using Hp.
    intros Hi Hj Hij. induction n as [|n IH]; intros Hni Hnj; [rewrite start, !at_zero by assumption; simpl; ring|].
    rewrite (two_axes_step n i j (fun a b => INR a * INR b) Hi Hj Hij Hni Hnj).
    rewrite (weighted_ext _ (fun g => INR (S (at_ g i)) * INR (at_ g j)) (fun g => INR (at_ g i) * INR (at_ g j) + INR (at_ g j))) by (intros; rewrite S_INR; ring).
    rewrite (weighted_ext _ (fun g => INR (at_ g i) * INR (S (at_ g j))) (fun g => INR (at_ g i) * INR (at_ g j) + INR (at_ g i))) by (intros; rewrite S_INR; ring).
    rewrite !weighted_plus, !first_moment, IH, S_INR by (try assumption; lia). ring.
  Qed.

  (** The distribution along one axis is binomial. *)
  Lemma marginal n j (phi : nat -> R) : (j < nd)%nat -> (Z.of_nat n < nth j dims 0)%Z ->
    weighted dims (F n) (fun g => phi (at_ g j)) = sum_f_R0 (fun m => Binomial.C n m * c j ^ m * (1 - c j) ^ (n - m) * phi m) n.
  Proof using Hp.
    intros Hj. revert phi. induction n as [|n IH]; intros phi Hn.
    - rewrite start, at_zero by exact Hj. unfold sum_f_R0, Binomial.C. cbn. field.
    - rewrite (one_axis_step n j phi Hj Hn), IH, (IH (fun m => phi (S m))) by lia. clear - n. set (p := c j). clearbody p. revert phi.
      intros phi. set (q := 1 - p).
      assert (K : forall k, (k <= n)%nat ->
        q * sum_f_R0 (fun m => Binomial.C n m * p ^ m * q ^ (n - m) * phi m) k + p * sum_f_R0 (fun m => Binomial.C n m * p ^ m * q ^ (n - m) * phi (S m)) k =
        sum_f_R0 (fun m => Binomial.C (S n) m * p ^ m * q ^ (S n - m) * phi m) k + Binomial.C n k * p ^ S k * q ^ (n - k) * phi (S k)).
      { induction k as [|k IHk]; intros Hk.
        - cbn [sum_f_R0]. assert (E0 : forall m, Binomial.C m 0 = 1).
          { intros m. unfold Binomial.C. rewrite Nat.sub_0_r. change (INR (fact 0)) with 1. field. apply INR_fact_neq_0. }
          rewrite !E0, !Nat.sub_0_r. cbn [pow]. ring.
        - rewrite !tech5. rewrite (Rmult_plus_distr_l q), (Rmult_plus_distr_l p). specialize (IHk ltac:(lia)).
          pose proof (Binomial.pascal n k ltac:(lia)) as P. replace (S n - S k)%nat with (n - k)%nat by lia.
          replace (q ^ (n - k)) with (q * q ^ (n - S k)) in * by (replace (n - k)%nat with (S (n - S k)) by lia; reflexivity).
          cbn [pow] in *. rewrite <- P.
          match type of IHk with q * ?a + p * ?b = ?d + ?e => set (s1 := a) in *; set (s2 := b) in *; set (s3 := d) in * end.
          transitivity (q * s1 + p * s2 + (Binomial.C n (S k) * (p * p ^ k) * q ^ (n - S k) * phi (S k) * q + p * (Binomial.C n (S k) * (p * p ^ k) * q ^ (n - S k) * phi (S (S k))))); [ring|].
          rewrite IHk. ring. }
      rewrite (K n (le_n n)), tech5. f_equal. rewrite !Nat.sub_diag. assert (E : forall m, Binomial.C m m = 1).
      { intros m. unfold Binomial.C. rewrite Nat.sub_diag. change (INR (fact 0)) with 1. field. apply INR_fact_neq_0. }
      rewrite !E. ring.
  Qed.
End Moments.

(** ** Theorems *)

Lemma pulse_after dims v lengths u dt n : up_args dims v lengths -> short_axes dims -> up_new arR (vlen dims) v lengths dims = Ok u ->
  exists u', up_advect arR (vlen dims) u (Z.of_nat n) dt = Ok u' /\ holds u' dims (upwind_iter arR n dims v lengths dt (first_cell arR dims)).
Proof.
  intros Ha Hsh E. destruct (C42_constructor arR dims v lengths Ha) as (u0 & E0 & Hu & Hh). rewrite E in E0. injection E0 as <-.
  destruct (C42_advect arR _ _ _ _ _ dt (Z.of_nat n) Ha Hsh Hu Hh) as (u' & E' & _ & Hh'). rewrite Nat2Z.id in Hh'. eauto.
Qed.

Lemma weighted_holds dims u G G' q : holds u dims G -> holds u dims G' -> weighted dims G q = weighted dims G' q.
Proof.
  unfold holds, weighted. intros -> H. unfold rsum. induction (cells dims) as [|g l IH]; [reflexivity|]. cbn [map fold_right] in *. injection H as H1 H2. rewrite H1, IH by exact H2. reflexivity.
Qed.

(** The distribution along one axis, summed over the others, is binomial. *)
Theorem C93_marginal dims v lengths u dt n j (phi : nat -> R) :
  up_args dims v lengths -> short_axes dims -> up_new arR (vlen dims) v lengths dims = Ok u ->
  (j < length dims)%nat -> (Z.of_nat n < nth j dims 0)%Z ->
  exists u', up_advect arR (vlen dims) u (Z.of_nat n) dt = Ok u' /\ forall G, holds u' dims G ->
    weighted dims G (fun g => phi (nth j (downwind arR dims v g) 0%nat)) =
    sum_f_R0 (fun m => Binomial.C n m * share dims v lengths dt j ^ m * (1 - share dims v lengths dt j) ^ (n - m) * phi m) n.
Proof.
  intros Ha Hsh E Hj Hn. destruct (pulse_after dims v lengths u dt n Ha Hsh E) as (u' & E' & Hh). exists u'. split; [exact E'|]. intros G HG.
  rewrite (weighted_holds dims u' G _ _ HG Hh). pose proof Ha as ((_ & _ & Hp & _) & _). apply marginal; auto.
Qed.
Print Assumptions C93_marginal.

(** The total is one and the centre of mass has moved by the velocity times the time. *)
Theorem C93_mean dims v lengths u dt n j :
  up_args dims v lengths -> short_axes dims -> up_new arR (vlen dims) v lengths dims = Ok u ->
  (j < length dims)%nat -> 0 < nth j lengths 0 -> (Z.of_nat n < nth j dims 0)%Z ->
  exists u', up_advect arR (vlen dims) u (Z.of_nat n) dt = Ok u' /\ forall G, holds u' dims G ->
    weighted dims G (fun _ => 1) = 1 /\
    weighted dims G (travelled dims v lengths j) = Rabs (nth j v 0) * (INR n * dt).
Proof.
  intros Ha Hsh E Hj HL Hn. destruct (pulse_after dims v lengths u dt n Ha Hsh E) as (u' & E' & Hh). exists u'. split; [exact E'|]. intros G HG.
  rewrite !(weighted_holds dims u' G _ _ HG Hh). pose proof Ha as ((_ & _ & Hp & _) & _). split; [apply mass; exact Hp|].
  unfold travelled. rewrite weighted_scal, (first_moment dims v lengths dt Hp n j Hj Hn). unfold share. specialize (Hp j Hj). apply (IZR_lt 0) in Hp. field. lra.
Qed.
Print Assumptions C93_mean.

(** The variance along an axis: numerical diffusion with the coefficient |v| dx (1 - c) / 2. *)
Theorem C93_variance dims v lengths u dt n j :
  up_args dims v lengths -> short_axes dims -> up_new arR (vlen dims) v lengths dims = Ok u ->
  (j < length dims)%nat -> 0 < nth j lengths 0 -> (Z.of_nat n < nth j dims 0)%Z ->
  exists u', up_advect arR (vlen dims) u (Z.of_nat n) dt = Ok u' /\ forall G, holds u' dims G ->
    let dx := nth j lengths 0 / IZR (nth j dims 0%Z) in let t := INR n * dt in
    weighted dims G (fun g => (travelled dims v lengths j g - Rabs (nth j v 0) * t) ^ 2) =
    2 * (Rabs (nth j v 0) * dx * (1 - share dims v lengths dt j) / 2) * t.
Proof.
  intros Ha Hsh E Hj HL Hn. destruct (pulse_after dims v lengths u dt n Ha Hsh E) as (u' & E' & Hh). exists u'. split; [exact E'|]. intros G HG.
  cbv zeta. rewrite !(weighted_holds dims u' G _ _ HG Hh). pose proof Ha as ((_ & _ & Hp & _) & _). unfold travelled.
  set (dx := nth j lengths 0 / IZR (nth j dims 0%Z)). set (V := Rabs (nth j v 0) * (INR n * dt)).
  rewrite (weighted_ext _ _ _ (fun g => (dx ^ 2 * INR (nth j (downwind arR dims v g) 0%nat) ^ 2 + (-2 * dx * V) * INR (nth j (downwind arR dims v g) 0%nat)) + V ^ 2 * 1)) by (intros; ring).
  rewrite !weighted_plus, !weighted_scal, (mass dims v lengths dt Hp), (first_moment dims v lengths dt Hp n j Hj Hn), (second_moment dims v lengths dt Hp n j Hj Hn).
  unfold V, dx, share. specialize (Hp j Hj). apply (IZR_lt 0) in Hp. field. lra.
Qed.
Print Assumptions C93_variance.

(** Two axes are correlated: a step goes along one of them. *)
Theorem C93_covariance dims v lengths u dt n i j :
  up_args dims v lengths -> short_axes dims -> up_new arR (vlen dims) v lengths dims = Ok u ->
  (i < length dims)%nat -> (j < length dims)%nat -> i <> j -> 0 < nth i lengths 0 -> 0 < nth j lengths 0 ->
  (Z.of_nat n < nth i dims 0)%Z -> (Z.of_nat n < nth j dims 0)%Z ->
  exists u', up_advect arR (vlen dims) u (Z.of_nat n) dt = Ok u' /\ forall G, holds u' dims G ->
    let t := INR n * dt in
    weighted dims G (fun g => (travelled dims v lengths i g - Rabs (nth i v 0) * t) * (travelled dims v lengths j g - Rabs (nth j v 0) * t)) =
    - (Rabs (nth i v 0) * Rabs (nth j v 0) * t * dt).
Proof.
  intros Ha Hsh E Hi Hj Hij HLi HLj Hni Hnj. destruct (pulse_after dims v lengths u dt n Ha Hsh E) as (u' & E' & Hh). exists u'. split; [exact E'|]. intros G HG.
  cbv zeta. rewrite !(weighted_holds dims u' G _ _ HG Hh). pose proof Ha as ((_ & _ & Hp & _) & _). unfold travelled.
  set (di := nth i lengths 0 / IZR (nth i dims 0%Z)). set (dj := nth j lengths 0 / IZR (nth j dims 0%Z)).
  set (Vi := Rabs (nth i v 0) * (INR n * dt)). set (Vj := Rabs (nth j v 0) * (INR n * dt)).
  rewrite (weighted_ext _ _ _ (fun g => ((di * dj * (INR (nth i (downwind arR dims v g) 0%nat) * INR (nth j (downwind arR dims v g) 0%nat)) +
    (- di * Vj) * INR (nth i (downwind arR dims v g) 0%nat)) + (- dj * Vi) * INR (nth j (downwind arR dims v g) 0%nat)) + Vi * Vj * 1)) by (intros; ring).
  rewrite !weighted_plus, !weighted_scal, (mass dims v lengths dt Hp), (first_moment dims v lengths dt Hp n j Hj Hnj), (first_moment dims v lengths dt Hp n i Hi Hni),
    (cross_moment dims v lengths dt Hp n i j Hi Hj Hij Hni Hnj).
  unfold Vi, Vj, di, dj, share. pose proof (Hp i Hi) as Pi. pose proof (Hp j Hj) as Pj. apply (IZR_lt 0) in Pi, Pj. field. lra.
Qed.
Print Assumptions C93_covariance.

(** With as many steps as cells the pulse has gone around and the centre of mass is no longer that of the exact solution: two cells. *)
Theorem C93_as_many_steps_refuted :
  exists dims v lengths u dt n j, up_args dims v lengths /\ short_axes dims /\ up_new arR (vlen dims) v lengths dims = Ok u /\
    (j < length dims)%nat /\ 0 < nth j lengths 0 /\ Z.of_nat n = nth j dims 0%Z /\
    exists u', up_advect arR (vlen dims) u (Z.of_nat n) dt = Ok u' /\ forall G, holds u' dims G ->
      weighted dims G (travelled dims v lengths j) <> Rabs (nth j v 0) * (INR n * dt).
Proof.
  assert (Ha : up_args [2]%Z [1] [2]) by (repeat split; try (cbv; congruence); intros [|j] Hj; simpl in *; lia).
  assert (Hsh : short_axes [2]%Z) by (intros [|j] Hj; simpl in *; lia).
  destruct (C42_constructor arR _ _ _ Ha) as (u & E & _). exists [2]%Z, [1], [2], u, 1, 2%nat, 0%nat.
  destruct (pulse_after _ _ _ u 1 2 Ha Hsh E) as (u' & E' & Hh).
  do 3 (split; [assumption|]). split; [simpl; lia|]. split; [simpl; lra|]. split; [reflexivity|].
  exists u'. split; [exact E'|]. intros G HG. rewrite (weighted_holds _ _ _ _ _ HG Hh).
  set (F := upwind_iter arR 2 [2]%Z [1] [2] 1 (first_cell arR [2]%Z)).
  assert (F1 : F [1]%Z = 0).
  { assert (Q : forall G x, upwind_formula arR [2]%Z [1] [2] 1 G [x] = G [((x - 1) mod 2)%Z]).
    { intros H x. rewrite formula_share. unfold rest, sum_axes. cbn [length seq map fold_right]. replace (share [2]%Z [1] [2] 1 0) with 1 by (unfold share; cbn; rewrite Rabs_R1; lra).
      assert (Es : upwind_side arR (axis_velocity arR [1] 0) = (-1)%Z).
      { apply eq_IZR. rewrite side_sign. cbn [nth]. destruct (Rlt_dec 1 0); [lra|reflexivity]. }
      rewrite Es. change (neighbour [2]%Z [x] 0 (-1)) with [((x - 1) mod 2)%Z]. ring. }
    unfold F. cbn [upwind_iter]. rewrite !Q. rewrite first_value. destruct (list_eq_dec _ _ _) as [H|]; [discriminate H|reflexivity]. }
  change (travelled [2]%Z [1] [2] 0 [0]%Z * F [0]%Z + (travelled [2]%Z [1] [2] 0 [1]%Z * F [1]%Z + 0) <> Rabs 1 * (INR 2 * 1)).
  rewrite F1, Rabs_R1. unfold travelled. rewrite (downwind_nth arR [2]%Z [1] [0]%Z 0) by (simpl; lia). cbn [nth]. rewrite Z.mul_0_r. simpl. lra.
Qed.
Print Assumptions C93_as_many_steps_refuted.

(** ** Examples *)

(** 8 x 3 cells, velocity (1, -2), five steps: the second axis is shorter than the number of steps, the first one is not. *)
Example ex_short_second : exists u u', up_new arR 2 [1; -2] [1; 1] [8; 3]%Z = Ok u /\ up_advect arR 2 u 5 (1 / 16) = Ok u' /\ forall G, holds u' [8; 3]%Z G ->
  weighted [8; 3]%Z G (travelled [8; 3]%Z [1; -2] [1; 1] 0) = 5 / 16.
Proof.
  assert (Ha : up_args [8; 3]%Z [1; -2] [1; 1]) by (repeat split; try (cbv; congruence); intros [|[|j]] Hj; simpl in *; lia).
  assert (Hsh : short_axes [8; 3]%Z) by (intros [|[|j]] Hj; simpl in *; lia).
  destruct (C42_constructor arR _ _ _ Ha) as (u & E & _). exists u.
  destruct (C93_mean _ _ _ u (1 / 16) 5 0 Ha Hsh E) as (u' & E' & H); [simpl; lia|simpl; lra|simpl; lia|]. exists u'. split; [exact E|]. split; [exact E'|].
  intros G HG. destruct (H G HG) as (_ & ->). simpl. rewrite Rabs_R1. lra.
Qed.
(** Two steps on four cells with a Courant number of 1/2: the variance is 1/2 cell squared. *)
Example ex_variance : exists u u', up_new arR 1 [1] [4] [4]%Z = Ok u /\ up_advect arR 1 u 2 (1 / 2) = Ok u' /\ forall G, holds u' [4]%Z G ->
  weighted [4]%Z G (fun g => (travelled [4]%Z [1] [4] 0 g - 1) ^ 2) = 1 / 2.
Proof.
  assert (Ha : up_args [4]%Z [1] [4]) by (repeat split; try (cbv; congruence); intros [|j] Hj; simpl in *; lia).
  assert (Hsh : short_axes [4]%Z) by (intros [|j] Hj; simpl in *; lia).
  destruct (C42_constructor arR _ _ _ Ha) as (u & E & _). exists u.
  destruct (C93_variance _ _ _ u (1 / 2) 2 0 Ha Hsh E) as (u' & E' & H); [simpl; lia|simpl; lra|simpl; lia|]. exists u'. split; [exact E|]. split; [exact E'|].
  intros G HG. specialize (H G HG). cbv zeta in H. replace (Rabs (nth 0 [1] 0) * (INR 2 * (1 / 2))) with 1 in H by (simpl; rewrite Rabs_R1; lra).
  rewrite H. unfold share. simpl. rewrite Rabs_R1. lra.
Qed.
