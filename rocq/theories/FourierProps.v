(** * C94: the standard deviation the program prints, in closed form

    The sum of squares of a field is the mean of the squared Fourier coefficients (Parseval on the grid), so that C92 gives
    the sum of squares after any number of steps, the standard deviation the program prints, exactly when the field stays bounded, and the limit. *)
From Coq Require Import List Reals Lra Lia RealField Permutation.
From Verif Require Import Cpp CppProof MaiModel MaiSpec Radix MaiProof CdModel CdSpec FilterModel FilterSpec FilterProof
  FilterSum RealArith LapSpec LapProof UpModel UpSpec UpProof UpExact UpProps UpMpiProps ConvSpec ConvProof WalkSpec WalkProps WalkSumProps StabProps.
From Coq Require Import List ZArith.
Import ListNotations.
Local Open Scope R_scope.
Local Arguments prodZ : simpl never.
Local Arguments Z.of_nat : simpl never.

(** The modes of a grid: one for every cell, with [k_j] periods along axis j. *)
Definition mode (k : list Z) (j : nat) : Z := nth j k 0%Z.

(** ** Sums *)
Lemma rsum_swap {A B} (F : A -> B -> R) l m : rsum (map (fun x => rsum (map (F x) m)) l) = rsum (map (fun y => rsum (map (fun x => F x y) l)) m).
Proof.
  induction l as [|x l IH].
  - unfold rsum at 1. cbn [map fold_right]. symmetry. clear. unfold rsum. cbn [map fold_right]. induction m as [|y m IH]; [reflexivity|]. cbn [map fold_right]. rewrite IH. ring.
  - change (rsum (map (F x) m) + rsum (map (fun x => rsum (map (F x) m)) l) = rsum (map (fun y => F x y + rsum (map (fun x => F x y) l)) m)).
    rewrite IH, (rsum_plus (F x)). reflexivity.
Qed.
Lemma rsum_square {A} (F : A -> R) l : rsum (map F l) ^ 2 = rsum (map (fun x => rsum (map (fun y => F x * F y) l)) l).
Proof.
  rewrite (rsum_ext (fun x => rsum _) (fun x => rsum (map F l) * F x)); [rewrite rsum_scal; ring|]. intros x _. rewrite rsum_scal. ring.
Qed.
Lemma rsum_one {A} (dec : forall x y : A, {x = y} + {x <> y}) (F : A -> R) l x : NoDup l -> In x l ->
  rsum (map (fun y => if dec x y then F y else 0) l) = F x.
Proof.
  induction l as [|a l IH]; intros Nd Hx; [destruct Hx|]. inversion Nd as [|? ? Hn Nd']; subst. unfold rsum in *. cbn [map fold_right]. destruct Hx as [->|Hx].
  - destruct (dec x x); [|congruence]. enough (E : fold_right Rplus 0 (map (fun y => if dec x y then F y else 0) l) = 0) by (rewrite E; ring).
    clear - Hn. induction l as [|b l IH]; [reflexivity|]. cbn [map fold_right]. rewrite IH by (intros H; apply Hn; right; exact H).
    destruct (dec x b) as [->|]; [exfalso; apply Hn; left; reflexivity|ring].
  - rewrite (IH Nd' Hx). destruct (dec x a) as [->|]; [contradiction|ring].
Qed.
Lemma rsum_const {A} a (l : list A) : rsum (map (fun _ => a) l) = INR (length l) * a.
Proof. induction l as [|x l IH]; [unfold rsum; simpl; ring|]. change (length (x :: l)) with (S (length l)). rewrite S_INR. unfold rsum in *. cbn [map fold_right]. rewrite IH. ring. Qed.
Lemma rsum_le {A} (F G : A -> R) l : (forall x, In x l -> F x <= G x) -> rsum (map F l) <= rsum (map G l).
Proof. unfold rsum. induction l as [|x l IH]; intros H; cbn [map fold_right]; [lra|]. pose proof (H x (or_introl eq_refl)). specialize (IH (fun y Hy => H y (or_intror Hy))). lra. Qed.
Lemma rsum_nn {A} (F : A -> R) l : (forall x, In x l -> 0 <= F x) -> 0 <= rsum (map F l).
Proof. unfold rsum. induction l as [|x l IH]; intros H; cbn [map fold_right]; [lra|]. pose proof (H x (or_introl eq_refl)). specialize (IH (fun y Hy => H y (or_intror Hy))). lra. Qed.

Section Parseval.
  Variable dims : list Z.
  Hypothesis Hp : pos_axes dims.
  Notation nd := (length dims).
  Notation N := (INR (length (cells dims))).

  (** The phase of a cell under the mode shifted by one period along axis j. *)
  Lemma phase_mode k g j : in_grid dims k -> (j < nd)%nat -> exists q : Z,
    phase dims (mode (neighbour dims k j 1)) g = phase dims (mode k) g + 2 * PI * IZR (nth j g 0%Z) / IZR (nth j dims 0%Z) + 2 * IZR q * PI.
  Proof using Hp.
    intros Hk Hj. unfold neighbour. rewrite wrap_unit by auto. set (x := nth j k 0%Z). set (n := nth j dims 0%Z). pose proof (Hp j Hj) as Hn. fold n in Hn.
    exists (- ((x + 1) / n) * nth j g 0%Z)%Z. unfold phase, mode.
    assert (E : sum_axes nd (fun i => angle dims (fun j0 => nth j0 (upd k j ((x + 1) mod n)%Z) 0%Z) i * IZR (nth i g 0%Z)) =
      sum_axes nd (fun i => angle dims (fun j0 => nth j0 k 0%Z) i * IZR (nth i g 0%Z) + (if Nat.eqb i j then 2 * PI * (IZR ((x + 1) mod n) - IZR x) / IZR n * IZR (nth j g 0%Z) else 0))).
    { apply sumax_ext. intros i Hi. apply in_grid_nth in Hk as (L & _). unfold angle. rewrite upd_nth by lia. destruct (Nat.eqb_spec i j) as [->|]; fold x n; [|ring]. unfold Rdiv. ring. }
    rewrite E, sumax_plus, (sumax_one nd (fun i => if Nat.eqb i j then _ else 0) j Hj).
    2: { intros i Hi Hne. apply Nat.eqb_neq in Hne. rewrite Hne. reflexivity. }
    rewrite Nat.eqb_refl. rewrite Z.mod_eq by lia. rewrite minus_IZR, plus_IZR, !mult_IZR, opp_IZR.
    assert (0 < IZR n) by (apply IZR_lt; exact Hn). field. lra.
  Qed.

  Lemma cos_angle n m : (0 < n)%Z -> (0 < Z.abs m < n)%Z -> cos (2 * PI * IZR m / IZR n) < 1.
  Proof using Type.
    clear. intros Hn Hm. apply (IZR_lt 0) in Hn as Hn'.
    assert (Pos : forall m, (0 < m < n)%Z -> cos (2 * PI * IZR m / IZR n) < 1).
    { intros p Hq. replace (2 * PI * IZR p / IZR n) with (2 * (PI * IZR p / IZR n)) by (field; lra). rewrite cos_2a_sin.
      assert (0 < sin (PI * IZR p / IZR n)); [|nra]. pose proof PI_RGT_0. destruct Hq as (H1 & H2). apply IZR_lt in H1, H2. apply sin_gt_0.
      - apply Rdiv_lt_0_compat; [apply Rmult_lt_0_compat|]; lra.
      - apply Rmult_lt_reg_r with (IZR n); [lra|]. unfold Rdiv. rewrite Rmult_assoc, Rinv_l by lra. nra. }
    destruct (Z_lt_ge_dec m 0).
    - replace (2 * PI * IZR m / IZR n) with (- (2 * PI * IZR (- m) / IZR n)) by (rewrite opp_IZR; field; lra). rewrite cos_neg. apply Pos. lia.
    - apply Pos. lia.
  Qed.

  (** Characters are orthogonal. *)
  Lemma orthogonal g h : in_grid dims g -> in_grid dims h -> g <> h ->
    rsum (map (fun k => cos (phase dims (mode k) g - phase dims (mode k) h)) (cells dims)) = 0.
  Proof using Hp.
    intros Hg Hh Hne. set (D := fun k => phase dims (mode k) g - phase dims (mode k) h). change (rsum (map (fun k => cos (D k)) (cells dims)) = 0).
    assert (Hj : exists j, (j < nd)%nat /\ nth j g 0%Z <> nth j h 0%Z).
    { apply in_grid_nth in Hg as (Lg & _), Hh as (Lh & _). clear - Lg Lh Hne.
      destruct (Exists_dec (fun j => nth j g 0%Z <> nth j h 0%Z) (seq 0 nd)) as [H|H].
      - intros j. destruct (Z.eq_dec (nth j g 0%Z) (nth j h 0%Z)); [right|left]; tauto.
      - apply Exists_exists in H as (j & Hj & H). apply in_seq in Hj. exists j. split; [lia|exact H].
      - exfalso. apply Hne. apply (nth_ext' 0%Z); [lia|]. intros j Hj. destruct (Z.eq_dec (nth j g 0%Z) (nth j h 0%Z)); [assumption|].
        exfalso. apply H. apply Exists_exists. exists j. split; [apply in_seq; lia|assumption]. }
    destruct Hj as (j & Hj & Hd). apply in_grid_nth in Hg as (_ & Hg), Hh as (_ & Hh). specialize (Hg j Hj). specialize (Hh j Hj).
    set (m := (nth j g 0 - nth j h 0)%Z). set (a := 2 * PI * IZR m / IZR (nth j dims 0%Z)).
    assert (Ca : cos a < 1) by (apply cos_angle; [apply Hp; exact Hj|lia]).
    assert (S1 : forall k, in_grid dims k -> exists q, D (neighbour dims k j 1) = (D k + a) + 2 * IZR q * PI).
    { intros k Hk. destruct (phase_mode k g j Hk Hj) as (q1 & E1). destruct (phase_mode k h j Hk Hj) as (q2 & E2). exists (q1 - q2)%Z. unfold D. rewrite E1, E2.
      unfold a, m. rewrite !minus_IZR. pose proof (Hp j Hj) as Hn. apply (IZR_lt 0) in Hn. field. lra. }
    set (C := rsum (map (fun k => cos (D k)) (cells dims))). set (S := rsum (map (fun k => sin (D k)) (cells dims))).
    assert (Sh : forall f : list Z -> R, rsum (map (fun k => f (neighbour dims k j 1)) (cells dims)) = rsum (map f (cells dims))).
    { intros f. rewrite <- (map_map (fun k => neighbour dims k j 1) f). exact (sum_perm arR (en_ring _ arR_exact) _ _ (Permutation_map _ (neighbour_perm dims j 1 Hp))). }
    assert (EC : C = cos a * C - sin a * S).
    { unfold C at 1. rewrite <- (Sh (fun k => cos (D k))). rewrite (rsum_ext _ (fun k => cos a * cos (D k) + (- sin a) * sin (D k))).
      - rewrite rsum_plus, !rsum_scal. fold C S. ring.
      - intros k Hk. apply in_cells in Hk. destruct (S1 k Hk) as (q & ->). rewrite cos_period, cos_plus. ring. }
    assert (ES : S = sin a * C + cos a * S).
    { unfold S at 1. rewrite <- (Sh (fun k => sin (D k))). rewrite (rsum_ext _ (fun k => sin a * cos (D k) + cos a * sin (D k))).
      - rewrite rsum_plus, !rsum_scal. fold C S. ring.
      - intros k Hk. apply in_cells in Hk. destruct (S1 k Hk) as (q & ->). rewrite sin_period, sin_plus. ring. }
    pose proof (sin2_cos2 a) as T. unfold Rsqr in T.
    assert (P : (1 - cos a) * (2 * C) = 0).
    { transitivity (((1 - cos a) * (1 - cos a) + sin a * sin a) * C); [replace (sin a * sin a) with (1 - cos a * cos a) by lra; ring|].
      replace (((1 - cos a) * (1 - cos a) + sin a * sin a) * C) with ((1 - cos a) * (C - (cos a * C - sin a * S)) - sin a * (S - (sin a * C + cos a * S))) by ring.
      rewrite <- EC, <- ES. ring. }
    apply Rmult_integral in P as [P|P]; [lra|]. fold C. lra.
  Qed.

  Lemma parseval G : rsum (map (fun k => cos_mode dims (mode k) G ^ 2 + sin_mode dims (mode k) G ^ 2) (cells dims)) = N * rsum (map (fun g => G g ^ 2) (cells dims)).
  Proof using Hp.
    rewrite (rsum_ext _ (fun k => rsum (map (fun g => rsum (map (fun h => G g * G h * cos (phase dims (mode k) g - phase dims (mode k) h)) (cells dims))) (cells dims)))).
    2: { intros k _. unfold cos_mode, sin_mode. rewrite !rsum_square, <- rsum_plus. apply rsum_ext. intros g _. rewrite <- rsum_plus. apply rsum_ext. intros h _. rewrite cos_minus. ring. }
    rewrite rsum_swap, <- rsum_scal. apply rsum_ext. intros g Hg. rewrite rsum_swap.
    rewrite (rsum_ext _ (fun h => if list_eq_dec Z.eq_dec g h then N * G g * G h else 0)).
    - rewrite (rsum_one (list_eq_dec Z.eq_dec) (fun h => N * G g * G h) (cells dims) g (NoDup_row_major _ _) Hg). ring.
    - intros h Hh. rewrite rsum_scal. destruct (list_eq_dec Z.eq_dec g h) as [<-|Hne].
      + rewrite (rsum_ext _ (fun _ => 1)) by (intros; rewrite Rminus_diag_eq by reflexivity; apply cos_0). rewrite rsum_const. ring.
      + apply in_cells in Hg, Hh. rewrite orthogonal by auto. ring.
  Qed.
End Parseval.

Section Steps.
  Variables (dims : list Z) (v lengths : list R) (dt : R).
  Hypothesis Hp : pos_axes dims.
  Notation nd := (length dims).
  Notation N := (INR (length (cells dims))).
  Notation F n := (upwind_iter arR n dims v lengths dt (first_cell arR dims)).
  Notation l2 k := (factor2 dims v lengths dt (mode k)).

  Lemma squares_iter G n : N * rsum (map (fun g => upwind_iter arR n dims v lengths dt G g ^ 2) (cells dims)) =
    rsum (map (fun k => l2 k ^ n * (cos_mode dims (mode k) G ^ 2 + sin_mode dims (mode k) G ^ 2)) (cells dims)).
  Proof using Hp. rewrite <- parseval by exact Hp. apply rsum_ext. intros k _. apply modes_iter. exact Hp. Qed.
  Lemma pulse_power k : cos_mode dims (mode k) (first_cell arR dims) ^ 2 + sin_mode dims (mode k) (first_cell arR dims) ^ 2 = 1.
  Proof using Hp.
    unfold cos_mode, sin_mode. rewrite !first_cell_sum by exact Hp. assert (P0 : phase dims (mode k) (repeat 0%Z nd) = 0).
    { unfold phase. apply sumax_zero. intros j Hj. rewrite nth_repeat. ring. }
    rewrite P0, cos_0, sin_0. ring.
  Qed.
  Lemma pulse_squares n : N * rsum (map (fun g => F n g ^ 2) (cells dims)) = rsum (map (fun k => l2 k ^ n) (cells dims)).
  Proof using Hp. rewrite squares_iter. apply rsum_ext. intros k _. rewrite pulse_power. ring. Qed.

  Lemma factor2_nn k : 0 <= factor2 dims v lengths dt k.
  Proof using Type. clear Hp. unfold factor2. pose proof (pow2_ge_0 (factor_re dims v lengths dt k)). pose proof (pow2_ge_0 (factor_im dims v lengths dt k)). lra. Qed.
  Lemma factor2_zero : l2 (repeat 0%Z nd) = 1.
  Proof using Type.
    clear Hp. unfold factor2, factor_re, factor_im, mode.
    assert (A : forall j, angle dims (fun j => nth j (repeat 0%Z nd) 0%Z) j = 0) by (intros j; unfold angle; rewrite nth_repeat; unfold Rdiv; ring).
    rewrite !sumax_zero; [ring| |]; intros j Hj; rewrite A, ?cos_0, ?sin_0; ring.
  Qed.
  Lemma N_pos : 0 < N.
  Proof using Hp. destruct (cells_head dims Hp) as (l & ->). cbn [length]. apply lt_0_INR. lia. Qed.
  Lemma pulse_total n : rsum (map (F n) (cells dims)) = 1.
  Proof using Hp.
    change (sum_of arR (map (F n) (cells dims)) = 1). rewrite (iter_conserves arR (en_ring _ arR_exact) dims v lengths dt _ _ Hp).
    pose proof (first_cell_sum dims (fun _ => 1) Hp) as E. cbn beta in E. rewrite <- E. apply rsum_ext. intros; ring.
  Qed.

  (** The sum of squared deviations from the mean. *)
  Lemma pulse_spread n : N * rsum (map (fun g => (F n g - 1 / N) ^ 2) (cells dims)) =
    rsum (map (fun k => if list_eq_dec Z.eq_dec (repeat 0%Z nd) k then 0 else l2 k ^ n) (cells dims)).
  Proof using Hp.
    pose proof N_pos as HN.
    rewrite (rsum_ext _ (fun g => (F n g ^ 2 + (-2 / N) * F n g) + (1 / N) ^ 2)) by (intros; field; lra).
    rewrite !rsum_plus, rsum_scal, pulse_total, rsum_const, Rmult_plus_distr_l, Rmult_plus_distr_l, pulse_squares.
    rewrite (rsum_ext _ (fun k => (if list_eq_dec Z.eq_dec (repeat 0%Z nd) k then l2 k ^ n else 0) + (if list_eq_dec Z.eq_dec (repeat 0%Z nd) k then 0 else l2 k ^ n)))
      by (intros k _; destruct (list_eq_dec _ _ _); ring).
    rewrite rsum_plus, (rsum_one (list_eq_dec Z.eq_dec) (fun k => l2 k ^ n) (cells dims) (repeat 0%Z nd)).
    - rewrite factor2_zero, pow1. field. lra.
    - apply NoDup_row_major.
    - destruct (cells_head dims Hp) as (l & ->). left. reflexivity.
  Qed.

  (** ** When is a modulus below one? *)
  Lemma sumax_cauchy n (w s : nat -> R) : (forall j, (j < n)%nat -> 0 <= w j) ->
    sum_axes n (fun j => w j * s j) ^ 2 <= sum_axes n w * sum_axes n (fun j => w j * s j ^ 2).
  Proof using Type.
    clear. intros Hw. unfold sum_axes.
    assert (H : forall l, (forall j, In j l -> 0 <= w j) -> 0 <= fold_right Rplus 0 (map w l) /\ 0 <= fold_right Rplus 0 (map (fun j => w j * s j ^ 2) l) /\
      fold_right Rplus 0 (map (fun j => w j * s j) l) ^ 2 <= fold_right Rplus 0 (map w l) * fold_right Rplus 0 (map (fun j => w j * s j ^ 2) l)).
    { induction l as [|j l IH]; intros H; cbn [map fold_right]; [lra|]. destruct IH as (W & Q & C); [intros; apply H; right; assumption|].
      pose proof (H j (or_introl eq_refl)) as Hj. set (a := fold_right Rplus 0 (map (fun j => w j * s j) l)) in *.
      set (W0 := fold_right Rplus 0 (map w l)) in *. set (Q0 := fold_right Rplus 0 (map (fun j => w j * s j ^ 2) l)) in *. set (x := w j) in *. set (y := s j) in *.
      pose proof (pow2_ge_0 y) as Hy. repeat split; [lra|nra|].
      assert (K : 2 * a * y <= W0 * y ^ 2 + Q0).
      { apply Rle_trans with (Rabs (2 * a * y)); [apply Rle_abs|]. rewrite <- (Rabs_pos_eq (W0 * y ^ 2 + Q0)) by nra.
        apply Rsqr_le_abs_0. unfold Rsqr. pose proof (pow2_ge_0 (W0 * y ^ 2 - Q0)). nra. }
      replace ((x * y + a) ^ 2) with (x ^ 2 * y ^ 2 + x * (2 * a * y) + a ^ 2) by ring.
      replace ((x + W0) * (x * y ^ 2 + Q0)) with (x ^ 2 * y ^ 2 + x * (W0 * y ^ 2 + Q0) + W0 * Q0) by ring. nra. }
    apply H. intros j Hj. apply in_seq in Hj. apply Hw. lia.
  Qed.

  Lemma live_factors k : in_grid dims k ->
    factor_re dims v lengths dt (mode k) = 1 - sum_axes nd (fun j => live_share dims v lengths dt j * (1 - cos (angle dims (mode k) j))) /\
    factor_im dims v lengths dt (mode k) = sum_axes nd (fun j => live_share dims v lengths dt j * ((if Rlt_dec (nth j v 0) 0 then -1 else 1) * sin (angle dims (mode k) j))).
  Proof using Type.
    clear Hp. intros Hk. apply in_grid_nth in Hk as (_ & Hk).
    assert (A : forall j, (j < nd)%nat -> (nth j dims 0 < 2)%Z -> angle dims (mode k) j = 0).
    { intros j Hj H2. specialize (Hk j Hj). unfold angle, mode. replace (nth j k 0%Z) with 0%Z by lia. unfold Rdiv. ring. }
    unfold factor_re, factor_im. split; [f_equal|]; apply sumax_ext; intros j Hj; unfold live_share; destruct (Z.leb_spec 2 (nth j dims 0%Z)); try ring;
      rewrite (A j Hj) by lia; rewrite ?cos_0, ?sin_0; ring.
  Qed.

  Lemma factor_bound k : (forall j, (j < nd)%nat -> 0 < nth j lengths 0) -> 0 <= dt -> in_grid dims k ->
    let e := sum_axes nd (fun j => live_share dims v lengths dt j * (1 - cos (angle dims (mode k) j))) in
    l2 k <= 1 - 2 * (1 - live_sum dims v lengths dt) * e.
  Proof using Hp.
    intros HL Hdt Hk e. destruct (live_factors k Hk) as (Er & Ei). fold e in Er. unfold factor2. rewrite Er, Ei.
    set (w := live_share dims v lengths dt). set (u := fun j => 1 - cos (angle dims (mode k) j)).
    set (s := fun j => (if Rlt_dec (nth j v 0) 0 then -1 else 1) * sin (angle dims (mode k) j)).
    assert (W : forall j, (j < nd)%nat -> 0 <= w j).
    { intros j Hj. unfold w, live_share. destruct (2 <=? nth j dims 0)%Z; [|lra]. apply (w_nn dims v lengths dt Hp HL Hdt). exact Hj. }
    pose proof (sumax_cauchy nd w s W) as C1. pose proof (sumax_cauchy nd w u W) as C2.
    change ((1 - e) ^ 2 + sum_axes nd (fun j => w j * s j) ^ 2 <= 1 - 2 * (1 - live_sum dims v lengths dt) * e).
    change (sum_axes nd (fun j => w j * u j)) with e in C2. change (sum_axes nd w) with (live_sum dims v lengths dt) in *.
    assert (Q : sum_axes nd (fun j => w j * s j ^ 2) = 2 * e + -1 * sum_axes nd (fun j => w j * u j ^ 2)).
    { unfold e. rewrite <- !sumax_scal, <- sumax_plus. apply sumax_ext. intros j Hj. unfold s, u, w. pose proof (sin2_cos2 (angle dims (mode k) j)) as T. unfold Rsqr in T.
      assert (S2 : ((if Rlt_dec (nth j v 0) 0 then -1 else 1) * sin (angle dims (mode k) j)) ^ 2 = 1 - cos (angle dims (mode k) j) * cos (angle dims (mode k) j)) by (destruct (Rlt_dec _ 0); lra).
      rewrite S2. ring. }
    rewrite Q in C1. lra.
  Qed.
  Lemma factor_strict k : (forall j, (j < nd)%nat -> 0 < nth j lengths 0) -> 0 < dt -> (forall j, (j < nd)%nat -> (2 <= nth j dims 0)%Z -> nth j v 0 <> 0) ->
    live_sum dims v lengths dt < 1 -> in_grid dims k -> k <> repeat 0%Z nd -> l2 k < 1.
  Proof using Hp.
    intros HL Hdt Hv HC Hk Hne. pose proof (factor_bound k HL (Rlt_le _ _ Hdt) Hk) as B. cbv zeta in B.
    apply in_grid_nth in Hk as (Lk & Hk).
    assert (Hj : exists j, (j < nd)%nat /\ (0 < nth j k 0)%Z).
    { clear - Lk Hk Hne. destruct (Exists_dec (fun j => (0 < nth j k 0)%Z) (seq 0 nd)) as [H|H].
      - intros j. destruct (Z_lt_dec 0 (nth j k 0%Z)); [left|right]; assumption.
      - apply Exists_exists in H as (j & Hj & H). apply in_seq in Hj. exists j. split; [lia|exact H].
      - exfalso. apply Hne. apply (nth_ext' 0%Z); [rewrite repeat_length; lia|]. intros j Hj. rewrite nth_repeat.
        destruct (Z.eq_dec (nth j k 0%Z) 0); [assumption|]. exfalso. apply H. apply Exists_exists. exists j. specialize (Hk j ltac:(lia)). split; [apply in_seq; lia|lia]. }
    destruct Hj as (j & Hj & Hkj). pose proof (Hk j Hj) as Hkb.
    assert (E : 0 < sum_axes nd (fun j => live_share dims v lengths dt j * (1 - cos (angle dims (mode k) j)))).
    { assert (W : forall i, (i < nd)%nat -> 0 <= live_share dims v lengths dt i).
      { intros i Hi. unfold live_share. destruct (2 <=? nth i dims 0)%Z; [|lra]. apply (w_nn dims v lengths dt Hp HL (Rlt_le _ _ Hdt)). exact Hi. }
      apply Rlt_le_trans with (sum_axes nd (fun i => if Nat.eqb i j then live_share dims v lengths dt j * (1 - cos (angle dims (mode k) j)) else 0)).
      - rewrite (sumax_one _ _ j Hj); [|intros i Hi Hn; apply Nat.eqb_neq in Hn; rewrite Hn; reflexivity]. rewrite Nat.eqb_refl.
        assert (C : cos (angle dims (mode k) j) < 1) by (apply cos_angle; [apply Hp; exact Hj|unfold mode; lia]).
        apply Rmult_lt_0_compat; [|lra]. unfold live_share. assert (H2 : (2 <= nth j dims 0)%Z) by lia. destruct (Z.leb_spec 2 (nth j dims 0%Z)); [|lia].
        unfold share. specialize (HL j Hj). specialize (Hv j Hj H2). apply Rabs_pos_lt in Hv. pose proof (Hp j Hj) as Hn. apply (IZR_lt 0) in Hn.
        apply Rdiv_lt_0_compat; [apply Rmult_lt_0_compat; assumption|apply Rdiv_lt_0_compat; assumption].
      - apply sumax_le. intros i Hi. destruct (Nat.eqb_spec i j) as [->|]; [lra|]. apply Rmult_le_pos; [apply W; exact Hi|]. pose proof (COS_bound (angle dims (mode k) i)). lra. }
    nra.
  Qed.
End Steps.

(** ** Theorems *)

Lemma cells_number dims : up_grid dims -> INR (length (cells dims)) = IZR (prodZ dims).
Proof. intros Hg. pose proof (cells_vlen (fun g => g) dims Hg) as L. unfold vlen in L. rewrite map_length in L. rewrite INR_IZR_INZ, L. reflexivity. Qed.
Lemma rsum_member l x : In x l -> x ^ 2 <= rsum (map (fun y => y ^ 2) l).
Proof.
  unfold rsum. induction l as [|a l IH]; intros Hx; [destruct Hx|]. cbn [map fold_right].
  assert (0 <= fold_right Rplus 0 (map (fun y => y ^ 2) l)) by (apply (rsum_nn (fun y => y ^ 2)); intros; apply pow2_ge_0).
  pose proof (pow2_ge_0 a). destruct Hx as [->|Hx]; [lra|]. specialize (IH Hx). lra.
Qed.

(** The sum of squares after n steps: every mode contributes its share times the n-th power of its squared modulus. *)
Theorem C94_sum_of_squares dims v lengths u G dt n :
  up_args dims v lengths -> short_axes dims -> up_object arR dims v lengths u -> holds u dims G ->
  exists u', up_advect arR (vlen dims) u n dt = Ok u' /\
    IZR (prodZ dims) * rsum (map (fun x => x ^ 2) (up_f u')) =
    rsum (map (fun k => factor2 dims v lengths dt (mode k) ^ Z.to_nat n * (cos_mode dims (mode k) G ^ 2 + sin_mode dims (mode k) G ^ 2)) (cells dims)).
Proof.
  intros Ha Hsh Hu HG. destruct (C42_advect arR _ _ _ _ _ dt n Ha Hsh Hu HG) as (u' & E & _ & Hh'). exists u'. split; [exact E|].
  pose proof Ha as (Hgr & _). rewrite Hh', map_map, <- (cells_number dims Hgr). apply squares_iter. exact (proj1 (proj2 (proj2 Hgr))).
Qed.
Print Assumptions C94_sum_of_squares.

(** The standard deviation printed for the program's own start. *)
Theorem C94_std dims v lengths u dt n :
  up_args dims v lengths -> short_axes dims -> up_new arR (vlen dims) v lengths dims = Ok u ->
  exists u', up_advect arR (vlen dims) u (Z.of_nat n) dt = Ok u' /\
    up_std arR sqrt u' = Ok (sqrt (rsum (map (fun k => if list_eq_dec Z.eq_dec (repeat 0%Z (length dims)) k then 0
                                                       else factor2 dims v lengths dt (mode k) ^ n) (cells dims))) / IZR (prodZ dims)).
Proof.
  intros Ha Hsh E. destruct (C42_constructor arR dims v lengths Ha) as (u0 & E0 & Hu & Hh). rewrite E in E0. injection E0 as <-.
  destruct (C42_advect arR _ _ _ _ _ dt (Z.of_nat n) Ha Hsh Hu Hh) as (u' & E' & Hu' & Hh'). rewrite Nat2Z.id in Hh'. exists u'. split; [exact E'|].
  destruct (holds_of arR _ _ _ _ _ Ha Hu' Hh') as (old & _ & ->). rewrite up_std_eq by exact Ha. f_equal.
  pose proof Ha as (Hgr & _). pose proof Hgr as (_ & _ & Hp & _). rewrite <- (cells_number dims Hgr). pose proof (N_pos dims Hp) as HN.
  set (N := INR (length (cells dims))) in *. rewrite <- (pulse_spread dims v lengths dt Hp n). fold N.
  change (sum_of arR (map (upwind_iter arR n dims v lengths dt (first_cell arR dims)) (cells dims)))
    with (rsum (map (upwind_iter arR n dims v lengths dt (first_cell arR dims)) (cells dims))). rewrite (pulse_total dims v lengths dt Hp n).
  change (sum_of arR (map (fun g => (upwind_iter arR n dims v lengths dt (first_cell arR dims) g - 1 / N) ^ 2) (cells dims)))
    with (rsum (map (fun g => (upwind_iter arR n dims v lengths dt (first_cell arR dims) g - 1 / N) ^ 2) (cells dims))).
  set (Q := rsum _). assert (HQ : 0 <= Q) by (apply rsum_nn; intros; apply pow2_ge_0).
  replace (Q / N) with ((N * Q) / Rsqr N) by (unfold Rsqr; field; lra).
  rewrite sqrt_div_alt by (apply Rlt_0_sqr; lra). rewrite sqrt_Rsqr by lra. reflexivity.
Qed.
Print Assumptions C94_std.

(** The values stay bounded exactly if no mode has a modulus above one ... *)
Theorem C94_bounded_iff dims v lengths u dt :
  up_args dims v lengths -> short_axes dims -> up_new arR (vlen dims) v lengths dims = Ok u ->
  ((exists B, forall n, exists u', up_advect arR (vlen dims) u (Z.of_nat n) dt = Ok u' /\ forall x, In x (up_f u') -> Rabs x <= B)
   <-> forall k, in_grid dims k -> factor2 dims v lengths dt (mode k) <= 1).
Proof.
  intros Ha Hsh E. split.
  - intros (B & H) k _. apply Rnot_lt_le. intros H1. destruct (C92_unbounded dims v lengths u dt (mode k) B Ha Hsh E H1) as (n & u' & x & E' & Hx & C).
    destruct (H n) as (u2 & E2 & D). rewrite E' in E2. injection E2 as <-. specialize (D x Hx). lra.
  - intros H. exists 1. intros n. destruct (C42_constructor arR dims v lengths Ha) as (u0 & E0 & Hu & Hh). rewrite E in E0. injection E0 as <-.
    destruct (C94_sum_of_squares dims v lengths u _ dt (Z.of_nat n) Ha Hsh Hu Hh) as (u' & E' & Q). exists u'. split; [exact E'|]. intros x Hx. rewrite Nat2Z.id in Q.
    pose proof Ha as (Hgr & _). pose proof Hgr as (_ & _ & Hp & _). pose proof (N_pos dims Hp) as HN. rewrite <- (cells_number dims Hgr) in Q.
    assert (L : rsum (map (fun k => factor2 dims v lengths dt (mode k) ^ n * (cos_mode dims (mode k) (first_cell arR dims) ^ 2 + sin_mode dims (mode k) (first_cell arR dims) ^ 2)) (cells dims))
      <= rsum (map (fun _ => 1) (cells dims))).
    { apply rsum_le. intros k Hk. apply in_cells in Hk. rewrite (pulse_power dims Hp k), Rmult_1_r. rewrite <- (pow1 n). apply pow_incr. split; [apply factor2_nn|apply H; exact Hk]. }
    rewrite rsum_const, <- Q in L. assert (M : rsum (map (fun x => x ^ 2) (up_f u')) <= 1) by (apply Rmult_le_reg_l with (INR (length (cells dims))); [exact HN|lra]).
    pose proof (rsum_member _ _ Hx) as X. rewrite <- Rabs_R1. apply Rsqr_le_abs_0. unfold Rsqr. lra.
Qed.
Print Assumptions C94_bounded_iff.

(** ... and then for every start: the sum of squares never grows. *)
Theorem C94_bounded_every_start dims v lengths u dt n :
  up_args dims v lengths -> short_axes dims -> up_object arR dims v lengths u ->
  (forall k, in_grid dims k -> factor2 dims v lengths dt (mode k) <= 1) ->
  exists u', up_advect arR (vlen dims) u n dt = Ok u' /\ rsum (map (fun x => x ^ 2) (up_f u')) <= rsum (map (fun x => x ^ 2) (up_f u)).
Proof.
  intros Ha Hsh Hu H. destruct (C42_every_field arR _ _ _ _ Ha Hu) as (G & HG). destruct (C94_sum_of_squares dims v lengths u G dt n Ha Hsh Hu HG) as (u' & E' & Q).
  exists u'. split; [exact E'|]. pose proof Ha as (Hgr & _). pose proof Hgr as (_ & _ & Hp & _). pose proof (N_pos dims Hp) as HN. rewrite <- (cells_number dims Hgr) in Q.
  apply Rmult_le_reg_l with (INR (length (cells dims))); [exact HN|]. rewrite Q, HG, map_map, <- (parseval dims Hp G). apply rsum_le. intros k Hk. apply in_cells in Hk.
  set (P := cos_mode dims (mode k) G ^ 2 + sin_mode dims (mode k) G ^ 2). assert (0 <= P) by (unfold P; pose proof (pow2_ge_0 (cos_mode dims (mode k) G)); pose proof (pow2_ge_0 (sin_mode dims (mode k) G)); lra).
  assert (factor2 dims v lengths dt (mode k) ^ Z.to_nat n <= 1) by (rewrite <- (pow1 (Z.to_nat n)); apply pow_incr; split; [apply factor2_nn|apply H; exact Hk]). nra.
Qed.
Print Assumptions C94_bounded_every_start.

Lemma pow_small_sum {A} (f : A -> R) l eps : (forall x, In x l -> 0 <= f x < 1) -> 0 < eps ->
  exists n0, forall n, (n0 <= n)%nat -> rsum (map (fun x => f x ^ n) l) < eps.
Proof.
  revert eps. induction l as [|x l IH]; intros eps H He; [exists 0%nat; intros; unfold rsum; simpl; lra|].
  destruct (IH (eps / 2)) as (n1 & H1); [intros y Hy; apply H; right; exact Hy|lra|].
  pose proof (H x (or_introl eq_refl)) as (X0 & X1). destruct (pow_lt_1_zero (f x) ltac:(rewrite Rabs_pos_eq; assumption) (eps / 2) ltac:(lra)) as (n2 & H2).
  exists (max n1 n2). intros n Hn. specialize (H1 n ltac:(lia)). specialize (H2 n ltac:(lia)). rewrite Rabs_pos_eq in H2 by (apply pow_le; exact X0).
  unfold rsum in *. cbn [map fold_right]. lra.
Qed.

(** If no axis of two or more cells stands still and the Courant numbers add up to less than one, every cell tends to the mean. *)
Theorem C94_limit dims v lengths u dt eps :
  up_args dims v lengths -> short_axes dims -> up_new arR (vlen dims) v lengths dims = Ok u ->
  (forall x, In x lengths -> 0 < x) -> 0 < dt -> (forall j, (j < length dims)%nat -> (2 <= nth j dims 0)%Z -> nth j v 0 <> 0) ->
  live_sum dims v lengths dt < 1 -> 0 < eps ->
  exists n0, forall n, (n0 <= n)%nat -> exists u', up_advect arR (vlen dims) u (Z.of_nat n) dt = Ok u' /\
    forall x, In x (up_f u') -> Rabs (x - 1 / IZR (prodZ dims)) < eps.
Proof.
  intros Ha Hsh E HL Hdt Hv HC He. pose proof Ha as (Hgr & Lv & Ll). pose proof Hgr as (_ & _ & Hp & _). pose proof (N_pos dims Hp) as HN.
  rewrite <- (cells_number dims Hgr). set (N := INR (length (cells dims))) in *.
  destruct (pow_small_sum (fun k => if list_eq_dec Z.eq_dec (repeat 0%Z (length dims)) k then 0 else factor2 dims v lengths dt (mode k)) (cells dims) (N * eps ^ 2)) as (n0 & H).
  - intros k Hk. apply in_cells in Hk. destruct (list_eq_dec _ _ _) as [|Hne]; [lra|]. split; [apply factor2_nn|]. apply factor_strict; auto. intros j Hj. apply HL, nth_In. lia.
  - apply Rmult_lt_0_compat; [exact HN|]. apply pow_lt. exact He.
  - exists (S n0). intros n Hn. destruct (C42_constructor arR dims v lengths Ha) as (u0 & E0 & Hu & Hh). rewrite E in E0. injection E0 as <-.
    destruct (C42_advect arR _ _ _ _ _ dt (Z.of_nat n) Ha Hsh Hu Hh) as (u' & E' & Hu' & Hh'). rewrite Nat2Z.id in Hh'. exists u'. split; [exact E'|].
    intros x Hx. rewrite Hh' in Hx. specialize (H n ltac:(lia)). pose proof (pulse_spread dims v lengths dt Hp n) as S. fold N in S.
    rewrite (rsum_ext _ (fun k => if list_eq_dec Z.eq_dec (repeat 0%Z (length dims)) k then 0 else factor2 dims v lengths dt (mode k) ^ n)) in H.
    2: { intros k _. destruct (list_eq_dec _ _ _); [apply pow_i; lia|reflexivity]. }
    rewrite <- S in H. apply Rmult_lt_reg_l in H; [|exact HN].
    assert (X : (x - 1 / N) ^ 2 <= rsum (map (fun g => (upwind_iter arR n dims v lengths dt (first_cell arR dims) g - 1 / N) ^ 2) (cells dims))).
    { apply in_map_iff in Hx as (g & <- & Hg). rewrite <- (map_map (fun g => upwind_iter arR n dims v lengths dt (first_cell arR dims) g - 1 / N) (fun y => y ^ 2)).
      apply rsum_member. apply (in_map (fun g => upwind_iter arR n dims v lengths dt (first_cell arR dims) g - 1 / N)). exact Hg. }
    rewrite <- (Rabs_pos_eq eps) by lra. apply Rsqr_lt_abs_0. unfold Rsqr. lra.
Qed.
Print Assumptions C94_limit.

(** Bounded is less than the maximum principle: 2 x 3 cells, both Courant numbers 51/100. *)
Theorem C94_bounded_beyond_the_limit :
  exists dims v lengths dt, up_args dims v lengths /\ short_axes dims /\ (forall x, In x lengths -> 0 < x) /\ 0 < dt /\
    1 < live_sum dims v lengths dt /\ forall k, in_grid dims k -> factor2 dims v lengths dt (mode k) <= 1.
Proof.
  exists [2; 3]%Z, [1; 1], [2; 3], (51 / 100). split; [|split; [|split; [|split; [|split]]]].
  - repeat split; try (cbv; congruence); intros [|[|j]] Hj; simpl in *; lia.
  - intros [|[|j]] Hj; simpl in *; lia.
  - intros x [<-|[<-|[]]]; lra.
  - lra.
  - unfold live_sum, sum_axes, live_share, share. cbn. rewrite Rabs_R1. lra.
  - intros k Hk. apply in_grid_nth in Hk as (_ & Hk). pose proof (Hk 0%nat ltac:(simpl; lia)) as H0. pose proof (Hk 1%nat ltac:(simpl; lia)) as H1. cbn [nth] in H0, H1.
    assert (S0 : share [2; 3]%Z [1; 1] [2; 3] (51 / 100) 0 = 51 / 100) by (unfold share; cbn; rewrite Rabs_R1; lra).
    assert (S1 : share [2; 3]%Z [1; 1] [2; 3] (51 / 100) 1 = 51 / 100) by (unfold share; cbn; rewrite Rabs_R1; lra).
    unfold factor2, factor_re, factor_im, sum_axes. cbn [length seq map fold_right nth]. rewrite S0, S1. destruct (Rlt_dec 1 0); [lra|].
    set (a := angle [2; 3]%Z (mode k) 0). set (b := angle [2; 3]%Z (mode k) 1).
    assert (A : (cos a = 1 /\ sin a = 0) \/ (cos a = -1 /\ sin a = 0)).
    { unfold a, angle, mode. cbn [nth]. assert (nth 0 k 0 = 0 \/ nth 0 k 0 = 1)%Z as [-> | ->] by lia.
      - left. replace (2 * PI * 0 / 2) with 0 by lra. split; [apply cos_0|apply sin_0].
      - right. replace (2 * PI * 1 / 2) with PI by lra. split; [apply cos_PI|apply sin_PI]. }
    pose proof (sin2_cos2 b) as T. unfold Rsqr in T.
    assert (B : cos b = 1 \/ cos b = -1 / 2).
    { unfold b, angle, mode. cbn [nth]. assert (nth 1 k 0 = 0 \/ nth 1 k 0 = 1 \/ nth 1 k 0 = 2)%Z as [-> | [-> | ->]] by lia.
      - left. replace (2 * PI * 0 / 3) with 0 by lra. apply cos_0.
      - right. replace (2 * PI * 1 / 3) with (2 * (PI / 3)) by lra. apply cos_2PI3.
      - right. replace (2 * PI * 2 / 3) with (- (2 * (PI / 3)) + 2 * IZR 1 * PI) by lra. rewrite cos_period, cos_neg. apply cos_2PI3. }
    destruct A as [(-> & ->)|(-> & ->)]; destruct B as [B|B]; rewrite B in *; nra.
Qed.
Print Assumptions C94_bounded_beyond_the_limit.

(** The number printed by the program with -std for n cells along each axis. *)
Definition cube_factor2 (n : Z) (k : list Z) : R :=
  let a j := 2 * PI * IZR (nth j k 0%Z) / IZR n in
  (1 - (3 - (cos (a 0%nat) + cos (a 1%nat) + cos (a 2%nat))) / 10) ^ 2 + ((sin (a 0%nat) + sin (a 1%nat) + sin (a 2%nat)) / 10) ^ 2.

Theorem C94_program n steps doVtk :
  (1 <= n)%Z -> (n * n * n < 2 ^ 31)%Z ->
  exists r, up_body arR sqrt n (Z.of_nat steps) doVtk true = Ok r /\
    ur_std r = Some (sqrt (rsum (map (fun k => if list_eq_dec Z.eq_dec [0; 0; 0]%Z k then 0 else cube_factor2 n k ^ steps) (cells [n; n; n]))) / IZR (n * n * n)).
Proof.
  intros H1 H2. destruct (C54_driver n (Z.of_nat steps) doVtk true H1 H2) as (r & _ & E & _). exists r. split; [exact E|].
  assert (Ep : prodZ [n; n; n] = (n * n * n)%Z) by (rewrite !prodZ_cons; change (prodZ []) with 1%Z; ring).
  set (o3 := [1; 1; 1]). assert (Ha : up_args [n; n; n] o3 o3).
  { repeat split; try discriminate; try reflexivity; [|rewrite Ep; exact H2]. intros [|[|[|j]]] Hj; simpl in *; lia. }
  assert (Hsh : short_axes [n; n; n]) by (intros [|[|[|j]]] Hj; simpl in *; nia).
  destruct (C42_constructor arR [n; n; n] o3 o3 Ha) as (u & Eu & _).
  destruct (C94_std [n; n; n] o3 o3 u (1 / 10 / IZR n) steps Ha Hsh Eu) as (u' & E' & S).
  match type of S with _ = Ok ?x => remember x as sd eqn:Esd end.
  unfold up_body in E. rewrite u64_id in E by (unfold two64; nia). rewrite dec10R in E. change (repeat n 3) with [n; n; n] in E. change (repeat 1 3) with o3 in E.
  unfold o3 in E at 1 2. rewrite up_dt_driver in E by nia. cbn [bind] in E. change (up_new arR 3 o3 o3 [n; n; n]) with (up_new arR (vlen [n; n; n]) o3 o3 [n; n; n]) in E.
  rewrite Eu in E. cbn [bind] in E. apply bind_ok in E as (w0 & _ & E). change (up_advect arR 3 u) with (up_advect arR (vlen [n; n; n]) u) in E.
  rewrite E' in E. cbn [bind] in E. rewrite S in E. cbn [bind] in E. apply bind_ok in E as (w1 & _ & E). injection E as <-. cbn [ur_std]. f_equal. rewrite Esd, Ep. f_equal. f_equal.
  apply rsum_ext. intros k _. change (repeat 0%Z (length [n; n; n])) with [0; 0; 0]%Z. destruct (list_eq_dec _ _ _); [reflexivity|]. f_equal.
  assert (HnR : 1 <= IZR n) by (apply IZR_le; lia).
  unfold factor2, factor_re, factor_im, cube_factor2, sum_axes, angle, mode, o3. cbn [length seq map fold_right nth].
  assert (Sj : forall j, (j < 3)%nat -> share [n; n; n] [1; 1; 1] [1; 1; 1] (1 / 10 / IZR n) j = 1 / 10).
  { intros [|[|[|j]]] Hj; try lia; unfold share; cbn [nth]; rewrite Rabs_R1; field; lra. }
  rewrite !Sj by lia. destruct (Rlt_dec 1 0); [lra|]. field.
Qed.
Print Assumptions C94_program.

(** ** Examples *)

(** Two cells, Courant number 1/4: the standard deviation is 1/2, 1/4, 1/8, ... *)
Example ex_std n : exists u u', up_new arR 1 [1] [2] [2]%Z = Ok u /\ up_advect arR 1 u (Z.of_nat n) (1 / 4) = Ok u' /\ up_std arR sqrt u' = Ok ((1 / 2) ^ S n).
Proof.
  assert (Ha : up_args [2]%Z [1] [2]) by (repeat split; try (cbv; congruence); intros [|j] Hj; simpl in *; lia).
  assert (Hsh : short_axes [2]%Z) by (intros [|j] Hj; simpl in *; lia).
  destruct (C42_constructor arR _ _ _ Ha) as (u & E & _). destruct (C94_std _ _ _ u (1 / 4) n Ha Hsh E) as (u' & E' & H). exists u, u'. split; [exact E|]. split; [exact E'|].
  rewrite H. f_equal. change (cells [2]%Z) with [[0]; [1]]%Z. unfold rsum. cbn [map fold_right]. destruct (list_eq_dec Z.eq_dec _ [0]%Z) as [_|C]; [|exfalso; apply C; reflexivity].
  destruct (list_eq_dec Z.eq_dec _ [1]%Z) as [C|_]; [discriminate C|].
  assert (F : factor2 [2]%Z [1] [2] (1 / 4) (mode [1]%Z) = (1 / 2) * (1 / 2)).
  { unfold factor2, factor_re, factor_im, sum_axes, share, angle, mode. cbn [length seq map fold_right nth]. rewrite Rabs_R1. replace (2 * PI * 1 / 2) with PI by lra.
    rewrite cos_PI, sin_PI. destruct (Rlt_dec 1 0); lra. }
  rewrite F, Rplus_0_l, Rplus_0_r, Rpow_mult_distr. change (sqrt ((1 / 2) ^ n * (1 / 2) ^ n)) with (sqrt (Rsqr ((1 / 2) ^ n))). rewrite sqrt_Rsqr by (apply pow_le; lra).
  replace (IZR (prodZ [2]%Z)) with 2 by reflexivity. cbn [pow]. lra.
Qed.
(** The hypotheses of the limit: 4 x 1 cells, the second axis at rest. *)
Example ex_limit eps : 0 < eps -> exists u, up_new arR 2 [1; 0] [1; 1] [4; 1]%Z = Ok u /\ exists n0, forall n, (n0 <= n)%nat -> exists u',
  up_advect arR 2 u (Z.of_nat n) (1 / 8) = Ok u' /\ forall x, In x (up_f u') -> Rabs (x - 1 / 4) < eps.
Proof.
  intros He. assert (Ha : up_args [4; 1]%Z [1; 0] [1; 1]) by (repeat split; try (cbv; congruence); intros [|[|j]] Hj; simpl in *; lia).
  assert (Hsh : short_axes [4; 1]%Z) by (intros [|[|j]] Hj; simpl in *; lia).
  destruct (C42_constructor arR _ _ _ Ha) as (u & E & _). exists u. split; [exact E|].
  change 4 with (IZR (prodZ [4; 1]%Z)). apply (C94_limit [4; 1]%Z [1; 0] [1; 1] u (1 / 8) eps Ha Hsh E); [intros x [<-|[<-|[]]]; lra|lra| | |exact He].
  - intros [|[|j]] Hj H2; simpl in *; try lia. lra.
  - unfold live_sum, sum_axes, live_share, share. cbn. rewrite Rabs_R1. lra.
Qed.
