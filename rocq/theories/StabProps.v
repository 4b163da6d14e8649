(** * C92: the stability limit of the upwind scheme is sharp

    C44 says that the field stays within its bounds if the Courant numbers add up to at most one.  Here: exactly then (axes of
    one cell do not count), the very first step of the constructor's field shows it; and every Fourier mode of the field
    is multiplied by a fixed complex number in every step, so that the field of the program grows beyond all bounds
    as soon as one of these numbers has a modulus above one. *)
From Coq Require Import List Reals Lra Lia RealField Permutation.
From Verif Require Import Cpp CppProof MaiModel MaiSpec Radix MaiProof CdModel CdSpec FilterModel FilterSpec FilterProof
  FilterSum RealArith LapSpec LapProof UpModel UpSpec UpProof UpExact UpProps UpMpiProps ConvSpec ConvProof WalkSpec WalkProps WalkSumProps.
From Coq Require Import List ZArith.
Import ListNotations.
Local Open Scope R_scope.
Local Arguments prodZ : simpl never.
Local Arguments Z.of_nat : simpl never.

(** ** Vocabulary *)

(** The Courant numbers of the axes that have a neighbour to exchange with. *)
Definition live_share (dims : list Z) (v lengths : list R) (dt : R) (j : nat) : R :=
  if (2 <=? nth j dims 0)%Z then share dims v lengths dt j else 0.
Definition live_sum (dims : list Z) (v lengths : list R) (dt : R) : R := sum_axes (length dims) (live_share dims v lengths dt).

(** The mode with [k_j] periods along axis j: its phase per cell and the phase of a cell. *)
Definition angle (dims : list Z) (k : nat -> Z) (j : nat) : R := 2 * PI * IZR (k j) / IZR (nth j dims 0%Z).
Definition phase (dims : list Z) (k : nat -> Z) (g : list Z) : R := sum_axes (length dims) (fun j => angle dims k j * IZR (nth j g 0%Z)).
(** The Fourier coefficients of a field. *)
Definition cos_mode (dims : list Z) (k : nat -> Z) (G : list Z -> R) : R := rsum (map (fun g => cos (phase dims k g) * G g) (cells dims)).
Definition sin_mode (dims : list Z) (k : nat -> Z) (G : list Z -> R) : R := rsum (map (fun g => sin (phase dims k g) * G g) (cells dims)).
(** Real part, imaginary part and squared modulus of the factor of a mode. *)
Definition factor_re (dims : list Z) (v lengths : list R) (dt : R) (k : nat -> Z) : R :=
  1 - sum_axes (length dims) (fun j => share dims v lengths dt j * (1 - cos (angle dims k j))).
Definition factor_im (dims : list Z) (v lengths : list R) (dt : R) (k : nat -> Z) : R :=
  sum_axes (length dims) (fun j => (if Rlt_dec (nth j v 0) 0 then -1 else 1) * share dims v lengths dt j * sin (angle dims k j)).
Definition factor2 (dims : list Z) (v lengths : list R) (dt : R) (k : nat -> Z) : R :=
  factor_re dims v lengths dt k ^ 2 + factor_im dims v lengths dt k ^ 2.

(** ** Sums over the cells *)
Lemma rsum_plus {A} (F G : A -> R) l : rsum (map (fun x => F x + G x) l) = rsum (map F l) + rsum (map G l).
Proof. unfold rsum. induction l as [|x l IH]; cbn [map fold_right]; [ring|rewrite IH; ring]. Qed.
Lemma rsum_axes {A} nd (F : nat -> A -> R) l : rsum (map (fun x => sum_axes nd (fun j => F j x)) l) = sum_axes nd (fun j => rsum (map (F j) l)).
Proof.
  unfold sum_axes. induction (seq 0 nd) as [|j s IH]; cbn [map fold_right].
  - unfold rsum. induction l as [|x l IH]; cbn [map fold_right]; [reflexivity|rewrite IH; ring].
  - rewrite rsum_plus, IH. reflexivity.
Qed.
Lemma rsum_ext {A} (F G : A -> R) l : (forall x, In x l -> F x = G x) -> rsum (map F l) = rsum (map G l).
Proof. intros H. f_equal. apply map_ext_in. exact H. Qed.

Section Stab.
  Variables (dims : list Z) (v lengths : list R) (dt : R).
  Hypothesis Hp : pos_axes dims.
  Notation nd := (length dims).
  Notation sd j := (upwind_side arR (axis_velocity arR v j)).
  Notation nb g j := (neighbour dims g j (sd j)).

  Lemma formula_share G g : upwind_formula arR dims v lengths dt G g =
    rest dims v lengths dt * G g + sum_axes nd (fun j => share dims v lengths dt j * G (nb g j)).
  Proof using Type. clear Hp. rewrite formula_convex, !sumax_sum. reflexivity. Qed.

  (** A weighted sum after one step; [W' j] is the weight [W] seen from the neighbour along axis j. *)
  Lemma weighted_step G (W : list Z -> R) (W' : nat -> list Z -> R) :
    (forall g j, in_grid dims g -> (j < nd)%nat -> W g * G (nb g j) = W' j (nb g j) * G (nb g j)) ->
    rsum (map (fun g => W g * upwind_formula arR dims v lengths dt G g) (cells dims)) =
    rest dims v lengths dt * rsum (map (fun g => W g * G g) (cells dims)) +
    sum_axes nd (fun j => share dims v lengths dt j * rsum (map (fun g => W' j g * G g) (cells dims))).
  Proof using Hp.
    intros H. rewrite (rsum_ext _ (fun g => rest dims v lengths dt * (W g * G g) + sum_axes nd (fun j => share dims v lengths dt j * (W g * G (nb g j))))).
    2: { intros g Hg. rewrite formula_share, Rmult_plus_distr_l, <- sumax_scal. f_equal; [ring|]. apply sumax_ext. intros j Hj. ring. }
    rewrite rsum_plus, rsum_scal, rsum_axes. f_equal. apply sumax_ext. intros j Hj. rewrite rsum_scal. f_equal.
    rewrite (rsum_ext _ (fun g => W' j (nb g j) * G (nb g j))) by (intros g Hg; apply in_cells in Hg; apply H; auto).
    rewrite <- (map_map (fun g => nb g j) (fun g => W' j g * G g)).
    exact (sum_perm arR (en_ring _ arR_exact) _ _ (Permutation_map _ (neighbour_perm dims j (sd j) Hp))).
  Qed.

  (** ** The maximum principle *)
  Lemma neighbour_alone g j d : in_grid dims g -> (j < nd)%nat -> (nth j dims 0 < 2)%Z -> neighbour dims g j d = g.
  Proof using Hp.
    intros Hg Hj H1. unfold neighbour. rewrite wrap_unit by auto. specialize (Hp j Hj). replace (nth j dims 0%Z) with 1%Z by lia. rewrite Z.mod_1_r.
    apply in_grid_nth in Hg as (L & Hg). apply (nth_ext' 0%Z); [apply upd_length|]. rewrite upd_length, L. intros i Hi. rewrite upd_nth by lia.
    destruct (Nat.eqb_spec i j) as [->|]; [|reflexivity]. specialize (Hg j Hj). lia.
  Qed.
  Lemma formula_live G g : in_grid dims g -> upwind_formula arR dims v lengths dt G g =
    (1 - live_sum dims v lengths dt) * G g + sum_axes nd (fun j => live_share dims v lengths dt j * G (nb g j)).
  Proof using Hp.
    intros Hg. rewrite formula_share. unfold rest, live_sum.
    assert (E : sum_axes nd (fun j => share dims v lengths dt j * G (nb g j)) = sum_axes nd (fun j => live_share dims v lengths dt j * G (nb g j)) +
      G g * (sum_axes nd (share dims v lengths dt) - sum_axes nd (live_share dims v lengths dt))); [|rewrite E; ring].
    replace (sum_axes nd (share dims v lengths dt) - sum_axes nd (live_share dims v lengths dt)) with
      (sum_axes nd (fun j => share dims v lengths dt j + -1 * live_share dims v lengths dt j)) by (rewrite sumax_plus, sumax_scal; ring).
    rewrite <- sumax_scal, <- sumax_plus. apply sumax_ext. intros j Hj. unfold live_share. destruct (Z.leb_spec 2 (nth j dims 0%Z)); [ring|].
    rewrite neighbour_alone by auto. ring.
  Qed.

  Lemma live_bounds G m M n g : (forall j, (j < nd)%nat -> 0 < nth j lengths 0) -> 0 <= dt -> live_sum dims v lengths dt <= 1 ->
    (forall g, in_grid dims g -> m <= G g <= M) -> in_grid dims g -> m <= upwind_iter arR n dims v lengths dt G g <= M.
  Proof using Hp.
    intros HL Hdt HC HG. revert g. induction n as [|n IH]; intros g Hg; [apply HG, Hg|]. cbn [upwind_iter]. rewrite formula_live by exact Hg.
    set (F := upwind_iter arR n dims v lengths dt G) in *.
    assert (W : forall j, (j < nd)%nat -> 0 <= live_share dims v lengths dt j).
    { intros j Hj. unfold live_share. destruct (2 <=? nth j dims 0)%Z; [|lra]. apply (w_nn dims v lengths dt Hp HL Hdt). exact Hj. }
    assert (B1 : sum_axes nd (fun j => m * live_share dims v lengths dt j) <= sum_axes nd (fun j => live_share dims v lengths dt j * F (nb g j))).
    { apply sumax_le. intros j Hj. specialize (W j Hj). destruct (IH (nb g j)) as (B & _); [apply neighbour_in; auto|]. nra. }
    assert (B2 : sum_axes nd (fun j => live_share dims v lengths dt j * F (nb g j)) <= sum_axes nd (fun j => M * live_share dims v lengths dt j)).
    { apply sumax_le. intros j Hj. specialize (W j Hj). destruct (IH (nb g j)) as (_ & B); [apply neighbour_in; auto|]. nra. }
    rewrite sumax_scal in B1, B2. change (sum_axes nd (live_share dims v lengths dt)) with (live_sum dims v lengths dt) in *.
    destruct (IH g Hg). split; nra.
  Qed.

  Lemma first_step : in_grid dims (repeat 0%Z nd) ->
    upwind_formula arR dims v lengths dt (first_cell arR dims) (repeat 0%Z nd) = 1 - live_sum dims v lengths dt.
  Proof using Hp.
    intros Hg. rewrite formula_live by exact Hg. unfold first_cell at 1. destruct (list_eq_dec Z.eq_dec _ _); [|congruence]. cbn [arR a_ofZ].
    rewrite sumax_zero; [ring|]. intros j Hj. unfold live_share. destruct (Z.leb_spec 2 (nth j dims 0%Z)) as [H2|]; [|ring].
    unfold first_cell. destruct (list_eq_dec Z.eq_dec _ _) as [E|]; [|cbn [arR a_dec]; replace (0 / powerRZ 10 1) with 0 by (simpl; lra); ring]. exfalso.
    unfold neighbour in E. rewrite wrap_unit in E by auto. apply (f_equal (fun l => nth j l 0%Z)) in E. rewrite upd_nth in E by (rewrite repeat_length; exact Hj).
    rewrite Nat.eqb_refl, !nth_repeat in E. unfold upwind_side in E. destruct (a_lt _ _ _).
    - rewrite Z.mod_small in E by lia. lia.
    - rewrite <- (Z.mod_add _ 1), Z.mod_small in E by lia. lia.
  Qed.

  (** ** Fourier modes *)
  Lemma side_sign j : IZR (sd j) = if Rlt_dec (nth j v 0) 0 then 1 else -1.
  Proof using Type.
    clear Hp. unfold upwind_side, axis_velocity. cbn [arR a_lt a_dec a_zero]. replace (0 / powerRZ 10 1) with 0 by (simpl; lra). destruct (Rlt_dec _ 0); reflexivity.
  Qed.
  Lemma phase_nb k g j : in_grid dims g -> (j < nd)%nat -> exists q : Z, phase dims k g = phase dims k (nb g j) - IZR (sd j) * angle dims k j + 2 * IZR q * PI.
  Proof using Hp.
    intros Hg Hj. unfold neighbour. rewrite wrap_unit by auto. set (x := nth j g 0%Z). set (n := nth j dims 0%Z). specialize (Hp j Hj). fold n in Hp.
    exists (k j * ((x + sd j) / n))%Z. unfold phase.
    assert (E : sum_axes nd (fun i => angle dims k i * IZR (nth i (upd g j ((x + sd j) mod n)%Z) 0%Z)) =
      sum_axes nd (fun i => angle dims k i * IZR (nth i g 0%Z) + (if Nat.eqb i j then angle dims k j * (IZR ((x + sd j) mod n) - IZR x) else 0))).
    { apply sumax_ext. intros i Hi. apply in_grid_nth in Hg as (L & _). rewrite upd_nth by lia. destruct (Nat.eqb_spec i j) as [->|]; fold x; ring. }
    rewrite E, sumax_plus, (sumax_one nd (fun i => if Nat.eqb i j then _ else 0) j Hj).
    2: { intros i Hi Hne. apply Nat.eqb_neq in Hne. rewrite Hne. reflexivity. }
    rewrite Nat.eqb_refl. rewrite Z.mod_eq by lia. rewrite minus_IZR, plus_IZR, !mult_IZR. unfold angle. fold n.
    assert (0 < IZR n) by (apply IZR_lt; exact Hp). field. lra.
  Qed.
  Lemma cos_period x q : cos (x + 2 * IZR q * PI) = cos x.
  Proof using Type.
    clear. destruct (Z_lt_ge_dec q 0) as [H|H].
    - rewrite <- (cos_period (x + 2 * IZR q * PI) (Z.to_nat (- q))). f_equal. rewrite INR_IZR_INZ, Z2Nat.id, opp_IZR by lia. ring.
    - rewrite <- (cos_period x (Z.to_nat q)). f_equal. rewrite INR_IZR_INZ, Z2Nat.id by lia. ring.
  Qed.
  Lemma sin_period x q : sin (x + 2 * IZR q * PI) = sin x.
  Proof using Type.
    clear. destruct (Z_lt_ge_dec q 0) as [H|H].
    - rewrite <- (sin_period (x + 2 * IZR q * PI) (Z.to_nat (- q))). f_equal. rewrite INR_IZR_INZ, Z2Nat.id, opp_IZR by lia. ring.
    - rewrite <- (sin_period x (Z.to_nat q)). f_equal. rewrite INR_IZR_INZ, Z2Nat.id by lia. ring.
  Qed.

  Notation re := (factor_re dims v lengths dt).
  Notation im := (factor_im dims v lengths dt).
  Lemma mode_sign j : let s := IZR (sd j) in let t := (if Rlt_dec (nth j v 0) 0 then -1 else 1) in forall a, cos (s * a) = cos a /\ sin (s * a) = - t * sin a.
  Proof using Type.
    clear Hp. cbv zeta. intros a. rewrite side_sign. destruct (Rlt_dec _ 0).
    - rewrite Rmult_1_l. split; ring.
    - replace (-1 * a) with (- a) by ring. rewrite cos_neg, sin_neg. split; ring.
  Qed.

  Lemma modes_step k G :
    cos_mode dims k (upwind_formula arR dims v lengths dt G) = re k * cos_mode dims k G - im k * sin_mode dims k G /\
    sin_mode dims k (upwind_formula arR dims v lengths dt G) = re k * sin_mode dims k G + im k * cos_mode dims k G.
  Proof using Hp.
    set (t := fun j => if Rlt_dec (nth j v 0) 0 then -1 else 1).
    assert (Hc : forall g j, in_grid dims g -> (j < nd)%nat -> cos (phase dims k g) =
      cos (angle dims k j) * cos (phase dims k (nb g j)) - t j * sin (angle dims k j) * sin (phase dims k (nb g j))).
    { intros g j Hg Hj. destruct (phase_nb k g j Hg Hj) as (q & ->). rewrite cos_period, cos_minus. destruct (mode_sign j (angle dims k j)) as (-> & ->). fold (t j). ring. }
    assert (Hs : forall g j, in_grid dims g -> (j < nd)%nat -> sin (phase dims k g) =
      cos (angle dims k j) * sin (phase dims k (nb g j)) + t j * sin (angle dims k j) * cos (phase dims k (nb g j))).
    { intros g j Hg Hj. destruct (phase_nb k g j Hg Hj) as (q & ->). rewrite sin_period, sin_minus. destruct (mode_sign j (angle dims k j)) as (-> & ->). fold (t j). ring. }
    assert (Er : rest dims v lengths dt = re k - sum_axes nd (fun j => share dims v lengths dt j * cos (angle dims k j))).
    { unfold factor_re, rest. rewrite (sumax_ext nd (fun j => share dims v lengths dt j * (1 - _)) (fun j => share dims v lengths dt j + -1 * (share dims v lengths dt j * cos (angle dims k j))))
        by (intros; ring). rewrite sumax_plus, sumax_scal. ring. }
    assert (Ei : sum_axes nd (fun j => t j * share dims v lengths dt j * sin (angle dims k j)) = im k) by reflexivity.
    unfold cos_mode, sin_mode. split.
    - rewrite (weighted_step G _ (fun j g => cos (angle dims k j) * cos (phase dims k g) - t j * sin (angle dims k j) * sin (phase dims k g)))
        by (intros g j Hg Hj; rewrite (Hc g j Hg Hj); reflexivity).
      set (C := rsum (map (fun g => cos (phase dims k g) * G g) (cells dims))). set (S := rsum (map (fun g => sin (phase dims k g) * G g) (cells dims))).
      rewrite (sumax_ext nd _ (fun j => C * (share dims v lengths dt j * cos (angle dims k j)) + - S * (t j * share dims v lengths dt j * sin (angle dims k j)))).
      + rewrite sumax_plus, !sumax_scal, Ei, Er. ring.
      + intros j Hj. rewrite (rsum_ext _ (fun g => cos (angle dims k j) * (cos (phase dims k g) * G g) + (- (t j * sin (angle dims k j))) * (sin (phase dims k g) * G g))) by (intros; ring).
        rewrite rsum_plus, !rsum_scal. fold C S. ring.
    - rewrite (weighted_step G _ (fun j g => cos (angle dims k j) * sin (phase dims k g) + t j * sin (angle dims k j) * cos (phase dims k g)))
        by (intros g j Hg Hj; rewrite (Hs g j Hg Hj); reflexivity).
      set (C := rsum (map (fun g => cos (phase dims k g) * G g) (cells dims))). set (S := rsum (map (fun g => sin (phase dims k g) * G g) (cells dims))).
      rewrite (sumax_ext nd _ (fun j => S * (share dims v lengths dt j * cos (angle dims k j)) + C * (t j * share dims v lengths dt j * sin (angle dims k j)))).
      + rewrite sumax_plus, !sumax_scal, Ei, Er. ring.
      + intros j Hj. rewrite (rsum_ext _ (fun g => cos (angle dims k j) * (sin (phase dims k g) * G g) + (t j * sin (angle dims k j)) * (cos (phase dims k g) * G g))) by (intros; ring).
        rewrite rsum_plus, !rsum_scal. fold C S. ring.
  Qed.

  Lemma modes_iter k G n :
    cos_mode dims k (upwind_iter arR n dims v lengths dt G) ^ 2 + sin_mode dims k (upwind_iter arR n dims v lengths dt G) ^ 2 =
    factor2 dims v lengths dt k ^ n * (cos_mode dims k G ^ 2 + sin_mode dims k G ^ 2).
  Proof using Hp.
    induction n as [|n IH]; cbn [upwind_iter pow]; [ring|]. destruct (modes_step k (upwind_iter arR n dims v lengths dt G)) as (-> & ->).
    unfold factor2 in *. set (r := re k) in *. set (i := im k) in *. set (C := cos_mode dims k (upwind_iter arR n dims v lengths dt G)) in *.
    set (S := sin_mode dims k (upwind_iter arR n dims v lengths dt G)) in *.
    transitivity ((r * (r * 1) + i * (i * 1)) * (C ^ 2 + S ^ 2)); [ring|]. rewrite IH. cbn [pow]. ring.
  Qed.
End Stab.

(** ** The first cell *)
Lemma cells_head dims : pos_axes dims -> exists l, cells dims = repeat 0%Z (length dims) :: l.
Proof.
  unfold cells, pos_axes. induction dims as [|d dims IH]; intros Hp; [exists []; reflexivity|].
  cbn [length repeat row_major]. destruct IH as (l & ->); [intros j Hj; apply (Hp (S j)); simpl; lia|]. specialize (Hp 0%nat ltac:(simpl; lia)). cbn [nth] in Hp.
  unfold range. destruct (Z.to_nat (d - 0)) eqn:E; [lia|]. cbn [seq map flat_map app]. eexists. reflexivity.
Qed.
Lemma first_value dims g : first_cell arR dims g = if list_eq_dec Z.eq_dec g (repeat 0%Z (length dims)) then 1 else 0.
Proof. unfold first_cell. cbn [arR a_ofZ a_dec]. replace (0 / powerRZ 10 1) with 0 by (simpl; lra). reflexivity. Qed.
Lemma first_cell_sum dims (w : list Z -> R) : pos_axes dims ->
  rsum (map (fun g => w g * first_cell arR dims g) (cells dims)) = w (repeat 0%Z (length dims)).
Proof.
  intros Hp. pose proof (NoDup_row_major (repeat 0%Z (length dims)) dims) as Nd. fold (cells dims) in Nd. destruct (cells_head dims Hp) as (l & El). rewrite El in *.
  inversion Nd as [|? ? Hn _ ]; subst. unfold rsum. cbn [map fold_right]. rewrite first_value. destruct (list_eq_dec _ _ _); [|congruence].
  enough (E : fold_right Rplus 0 (map (fun g => w g * first_cell arR dims g) l) = 0) by (rewrite E; ring).
  clear - Hn. induction l as [|x l IH]; [reflexivity|]. cbn [map fold_right]. rewrite IH by (intros H; apply Hn; right; exact H).
  rewrite first_value. destruct (list_eq_dec _ _ _) as [->|]; [exfalso; apply Hn; left; reflexivity|ring].
Qed.

(** ** Theorems *)

(** The first step of the constructor's field leaves one minus the sum of the Courant numbers in the first cell. *)
Theorem C92_first_step dims v lengths u dt :
  up_args dims v lengths -> short_axes dims -> up_new arR (vlen dims) v lengths dims = Ok u ->
  exists u' r, up_advect arR (vlen dims) u 1 dt = Ok u' /\ up_f u' = (1 - live_sum dims v lengths dt) :: r.
Proof.
  intros Ha Hsh E. destruct (C42_constructor arR dims v lengths Ha) as (u0 & E0 & Hu & Hh). rewrite E in E0. injection E0 as <-.
  destruct (C42_advect arR _ _ _ _ _ dt 1 Ha Hsh Hu Hh) as (u' & E' & Hu' & Hh'). change (Z.to_nat 1) with 1%nat in Hh'. cbn [upwind_iter] in Hh'.
  pose proof Ha as ((_ & _ & Hp & _) & _ & _). exists u'. rewrite Hh'.
  assert (Hg : in_grid dims (repeat 0%Z (length dims))).
  { apply in_grid_nth. split; [apply repeat_length|]. intros j Hj. rewrite nth_repeat. specialize (Hp j Hj). lia. }
  assert (Ef : exists l, cells dims = repeat 0%Z (length dims) :: l) by (apply cells_head; exact Hp).
  destruct Ef as (l & ->). cbn [map]. rewrite first_step by auto. eexists. split; [exact E'|reflexivity].
Qed.
Print Assumptions C92_first_step.

(** The field stays within the bounds of any start exactly if the Courant numbers of the axes of two or more cells add up to at most one. *)
Theorem C92_maximum_principle_iff dims v lengths dt :
  up_args dims v lengths -> short_axes dims -> (forall x, In x lengths -> 0 < x) -> 0 <= dt ->
  ((forall u n m M, up_object arR dims v lengths u -> (forall x, In x (up_f u) -> m <= x <= M) ->
      exists u', up_advect arR (vlen dims) u n dt = Ok u' /\ forall x, In x (up_f u') -> m <= x <= M)
   <-> live_sum dims v lengths dt <= 1).
Proof.
  intros Ha Hsh HL Hdt. split.
  - intros H. destruct (C42_constructor arR dims v lengths Ha) as (u & E & Hu & Hh).
    destruct (C92_first_step dims v lengths u dt Ha Hsh E) as (u1 & r & E1 & Hr).
    destruct (H u 1%Z 0 1 Hu) as (u2 & E2 & B).
    + intros x Hx. rewrite Hh in Hx. apply in_map_iff in Hx as (g & <- & _). unfold first_cell. cbn [arR a_ofZ a_dec].
      replace (0 / powerRZ 10 1) with 0 by (simpl; lra). destruct (list_eq_dec _ _ _); lra.
    + rewrite E1 in E2. injection E2 as <-. specialize (B (1 - live_sum dims v lengths dt)). rewrite Hr in B. specialize (B (or_introl eq_refl)). lra.
  - intros HC u n m M Hu Hb. destruct (C42_every_field arR _ _ _ _ Ha Hu) as (G & HG).
    destruct (C42_advect arR _ _ _ _ _ dt n Ha Hsh Hu HG) as (u' & E & Hu' & Hh'). exists u'. split; [exact E|].
    intros x Hx. rewrite Hh' in Hx. apply in_map_iff in Hx as (g & <- & Hg). apply in_cells in Hg.
    pose proof Ha as ((_ & _ & Hp & _) & Hv & Hl). apply live_bounds; auto; [intros j Hj; apply HL, nth_In; lia|].
    intros h Hh. apply Hb. rewrite HG. apply in_map. apply in_cells. exact Hh.
Qed.
Print Assumptions C92_maximum_principle_iff.

(** Every Fourier mode is multiplied by its own complex number in every step. *)
Theorem C92_modes dims v lengths u G dt n k :
  up_args dims v lengths -> short_axes dims -> up_object arR dims v lengths u -> holds u dims G ->
  exists u' G', up_advect arR (vlen dims) u n dt = Ok u' /\ holds u' dims G' /\
    cos_mode dims k G' ^ 2 + sin_mode dims k G' ^ 2 =
    factor2 dims v lengths dt k ^ Z.to_nat n * (cos_mode dims k G ^ 2 + sin_mode dims k G ^ 2).
Proof.
  intros Ha Hsh Hu HG. destruct (C42_advect arR _ _ _ _ _ dt n Ha Hsh Hu HG) as (u' & E & _ & Hh'). exists u'. eexists. split; [exact E|]. split; [exact Hh'|].
  pose proof Ha as ((_ & _ & Hp & _) & _). apply modes_iter. exact Hp.
Qed.
Print Assumptions C92_modes.

Lemma rsum_large (l : list R) B : (forall x, In x l -> Rabs x <= B) -> Rabs (rsum l) <= INR (length l) * B.
Proof.
  unfold rsum. induction l as [|x l IH]; intros H.
  - cbn [fold_right length INR]. rewrite Rabs_R0. lra.
  - cbn [fold_right]. change (length (x :: l)) with (S (length l)). rewrite S_INR.
    pose proof (H x (or_introl eq_refl)). pose proof (IH (fun y Hy => H y (or_intror Hy))). pose proof (Rabs_triang x (fold_right Rplus 0 l)). lra.
Qed.

(** The largest value of the program's field after n steps is at least the n-th power of the modulus of any mode, divided by the
    number of cells (and by the square root of two). *)
Theorem C92_growth dims v lengths u dt n k :
  up_args dims v lengths -> short_axes dims -> up_new arR (vlen dims) v lengths dims = Ok u ->
  exists u' x, up_advect arR (vlen dims) u n dt = Ok u' /\ In x (up_f u') /\
    factor2 dims v lengths dt k ^ Z.to_nat n <= 2 * (IZR (prodZ dims) * x) ^ 2.
Proof.
  intros Ha Hsh E. destruct (C42_constructor arR dims v lengths Ha) as (u0 & E0 & Hu & Hh). rewrite E in E0. injection E0 as <-.
  destruct (C42_advect arR _ _ _ _ _ dt n Ha Hsh Hu Hh) as (u' & E' & _ & Hh'). exists u'.
  pose proof Ha as ((_ & _ & Hp & _) & _). pose proof (modes_iter dims v lengths dt Hp k (first_cell arR dims) (Z.to_nat n)) as M.
  set (F := upwind_iter arR (Z.to_nat n) dims v lengths dt (first_cell arR dims)) in *.
  assert (E1 : forall w : list Z -> R, rsum (map (fun g => w g * first_cell arR dims g) (cells dims)) = w (repeat 0%Z (length dims))).
  { intros w. apply first_cell_sum. exact Hp. }
  unfold cos_mode in M at 2. unfold sin_mode in M at 2. rewrite !E1 in M.
  assert (P0 : phase dims k (repeat 0%Z (length dims)) = 0).
  { unfold phase. apply sumax_zero. intros j Hj. rewrite nth_repeat. ring. }
  rewrite P0, cos_0, sin_0 in M.
  assert (Hmax : exists x, In x (map F (cells dims)) /\ forall y, In y (map F (cells dims)) -> Rabs y <= Rabs x).
  { destruct (cells_head dims Hp) as (l & ->). cbn [map]. generalize (F (repeat 0%Z (length dims))) (map F l). clear. intros a l.
    induction l as [|b l (x & Hx & B)]; [exists a; split; [left; reflexivity|intros y [<-|[]]; lra]|].
    destruct (Rle_lt_dec (Rabs b) (Rabs x)) as [H|H].
    - exists x. split; [destruct Hx as [<-|Hx]; [left|right; right]; auto|]. intros y [<-|[<-|Hy]]; [apply B; left|exact H|apply B; right]; auto.
    - exists b. split; [right; left; reflexivity|]. intros y [<-|[<-|Hy]]; [|lra|]; [pose proof (B a (or_introl eq_refl)); lra|pose proof (B y (or_intror Hy)); lra]. }
  destruct Hmax as (x & Hx & B). exists x. split; [exact E'|]. split; [rewrite Hh'; exact Hx|].
  assert (L : INR (length (cells dims)) = IZR (prodZ dims)).
  { pose proof (cells_vlen F dims (proj1 Ha)) as L. unfold vlen in L. rewrite map_length in L. rewrite INR_IZR_INZ, L. reflexivity. }
  assert (Bd : forall w : list Z -> R, (forall g, Rabs (w g) <= 1) -> Rabs (rsum (map (fun g => w g * F g) (cells dims))) <= IZR (prodZ dims) * Rabs x).
  { intros w Hw. rewrite <- L. rewrite <- (map_length (fun g => w g * F g) (cells dims)). apply rsum_large. intros y Hy. apply in_map_iff in Hy as (g & <- & Hg).
    rewrite Rabs_mult. pose proof (B (F g) (in_map F _ _ Hg)). pose proof (Hw g). pose proof (Rabs_pos (w g)). pose proof (Rabs_pos (F g)). nra. }
  pose proof (Bd (fun g => cos (phase dims k g)) (fun g => Rabs_le _ _ (COS_bound _))) as B1.
  pose proof (Bd (fun g => sin (phase dims k g)) (fun g => Rabs_le _ _ (SIN_bound _))) as B2.
  change (Rabs (cos_mode dims k F) <= IZR (prodZ dims) * Rabs x) in B1. change (Rabs (sin_mode dims k F) <= IZR (prodZ dims) * Rabs x) in B2.
  assert (Q : forall a, Rabs a <= IZR (prodZ dims) * Rabs x -> a ^ 2 <= (IZR (prodZ dims) * x) ^ 2).
  { intros a H. rewrite <- (Rabs_pos_eq (IZR (prodZ dims))) in H by (rewrite <- L; apply pos_INR). rewrite <- Rabs_mult in H.
    apply Rsqr_le_abs_1 in H. unfold Rsqr in H. lra. }
  apply Q in B1, B2. lra.
Qed.
Print Assumptions C92_growth.

(** A mode of modulus above one makes the program's field grow beyond every bound. *)
Theorem C92_unbounded dims v lengths u dt k K :
  up_args dims v lengths -> short_axes dims -> up_new arR (vlen dims) v lengths dims = Ok u -> 1 < factor2 dims v lengths dt k ->
  exists n u' x, up_advect arR (vlen dims) u (Z.of_nat n) dt = Ok u' /\ In x (up_f u') /\ K < Rabs x.
Proof.
  intros Ha Hsh E H1. pose proof Ha as ((_ & _ & Hp & _) & _).
  assert (HN : 0 < IZR (prodZ dims)) by (apply IZR_lt; apply prodZ_pos, allpos_nth; exact Hp).
  destruct (Pow_x_infinity (factor2 dims v lengths dt k)) with (b := 2 * (IZR (prodZ dims) * K) ^ 2 + 1) as (n & Hn).
  { rewrite Rabs_pos_eq; lra. }
  specialize (Hn n (le_n n)). rewrite Rabs_pos_eq in Hn by (apply pow_le; lra).
  destruct (C92_growth dims v lengths u dt (Z.of_nat n) k Ha Hsh E) as (u' & x & E' & Hx & B). rewrite Nat2Z.id in B.
  exists n, u', x. split; [exact E'|]. split; [exact Hx|]. apply Rnot_le_lt. intros C.
  assert (x ^ 2 <= K ^ 2). { pose proof (Rabs_pos x). rewrite <- (pow2_abs x). apply pow_incr. lra. }
  rewrite !Rpow_mult_distr in *. pose proof (pow_lt _ 2 HN). nra.
Qed.
Print Assumptions C92_unbounded.

(** So does one axis of at least two cells with a Courant number above one ... *)
Theorem C92_one_axis dims v lengths u dt j K :
  up_args dims v lengths -> short_axes dims -> up_new arR (vlen dims) v lengths dims = Ok u ->
  (j < length dims)%nat -> (2 <= nth j dims 0)%Z -> 1 < share dims v lengths dt j ->
  exists n u' x, up_advect arR (vlen dims) u (Z.of_nat n) dt = Ok u' /\ In x (up_f u') /\ K < Rabs x.
Proof.
  intros Ha Hsh E Hj H2 H1. apply (C92_unbounded dims v lengths u dt (fun i => if Nat.eqb i j then 1%Z else 0%Z) K Ha Hsh E).
  set (k := fun i => _). set (c := share dims v lengths dt j) in *. set (a := angle dims k j).
  assert (Z0 : forall i, i <> j -> angle dims k i = 0).
  { intros i Hi. unfold angle, k. apply Nat.eqb_neq in Hi. rewrite Hi. unfold Rdiv. ring. }
  assert (Er : factor_re dims v lengths dt k = 1 - c * (1 - cos a)).
  { unfold factor_re. f_equal. rewrite (sumax_one _ _ j Hj); [reflexivity|]. intros i Hi Hne. rewrite Z0, cos_0 by exact Hne. ring. }
  assert (Ei : factor_im dims v lengths dt k = (if Rlt_dec (nth j v 0) 0 then -1 else 1) * c * sin a).
  { unfold factor_im. rewrite (sumax_one _ _ j Hj); [reflexivity|]. intros i Hi Hne. rewrite Z0, sin_0 by exact Hne. ring. }
  assert (Hc : cos a < 1).
  { assert (R2 : 2 <= IZR (nth j dims 0%Z)) by (apply (IZR_le 2); exact H2). pose proof PI_RGT_0.
    assert (Ea : a = 2 * PI / IZR (nth j dims 0%Z)). { unfold a, angle, k. rewrite Nat.eqb_refl. field. lra. }
    assert (0 < a). { rewrite Ea. apply Rdiv_lt_0_compat; lra. }
    assert (a <= PI). { rewrite Ea. apply Rmult_le_reg_r with (IZR (nth j dims 0%Z)); [lra|]. unfold Rdiv. rewrite Rmult_assoc, Rinv_l by lra. nra. }
    rewrite <- cos_0. apply cos_decreasing_1; lra. }
  unfold factor2. rewrite Er, Ei. pose proof (sin2_cos2 a) as T. unfold Rsqr in T.
  assert (S2 : ((if Rlt_dec (nth j v 0) 0 then -1 else 1) * c * sin a) ^ 2 = c ^ 2 * (1 - cos a * cos a)).
  { rewrite !Rpow_mult_distr. destruct (Rlt_dec _ 0); nra. }
  rewrite S2. replace (_ + _) with (1 + 2 * (c * (c - 1) * (1 - cos a))) by ring.
  enough (0 < c * (c - 1) * (1 - cos a)) by lra. apply Rmult_lt_0_compat; [apply Rmult_lt_0_compat|]; lra.
Qed.
Print Assumptions C92_one_axis.

(** ... and any set of axes of even length whose Courant numbers add up to more than one. *)
Theorem C92_even_axes dims v lengths u dt (T : nat -> bool) K :
  up_args dims v lengths -> short_axes dims -> up_new arR (vlen dims) v lengths dims = Ok u ->
  (forall j, (j < length dims)%nat -> T j = true -> Z.even (nth j dims 0%Z) = true) ->
  1 < sum_axes (length dims) (fun j => if T j then share dims v lengths dt j else 0) ->
  exists n u' x, up_advect arR (vlen dims) u (Z.of_nat n) dt = Ok u' /\ In x (up_f u') /\ K < Rabs x.
Proof.
  intros Ha Hsh E HT H1. set (k := fun j => if T j then (nth j dims 0%Z / 2)%Z else 0%Z).
  apply (C92_unbounded dims v lengths u dt k K Ha Hsh E). pose proof Ha as ((_ & _ & Hp & _) & _).
  assert (A : forall j, (j < length dims)%nat -> angle dims k j = if T j then PI else 0).
  { intros j Hj. unfold angle, k. destruct (T j) eqn:Et; [|unfold Rdiv; ring]. specialize (HT j Hj Et). specialize (Hp j Hj).
    apply Z.even_spec in HT as (m & Em). rewrite Em, Z.mul_comm, Z.div_mul, mult_IZR by lia. assert (0 < IZR m) by (apply IZR_lt; lia). field. lra. }
  assert (Er : factor_re dims v lengths dt k = 1 - 2 * sum_axes (length dims) (fun j => if T j then share dims v lengths dt j else 0)).
  { unfold factor_re. f_equal. rewrite <- sumax_scal. apply sumax_ext. intros j Hj. rewrite A by exact Hj. destruct (T j); [rewrite cos_PI|rewrite cos_0]; ring. }
  assert (Ei : factor_im dims v lengths dt k = 0).
  { unfold factor_im. apply sumax_zero. intros j Hj. rewrite A by exact Hj. destruct (T j); [rewrite sin_PI|rewrite sin_0]; ring. }
  unfold factor2. rewrite Er, Ei. nra.
Qed.
Print Assumptions C92_even_axes.

(** ** Examples *)

(** A grid of 4 x 1 cells: the second axis does not count. *)
Example ex_args : up_args [4; 1]%Z [1; 1] [1; 1] /\ short_axes [4; 1]%Z /\
  live_sum [4; 1]%Z [1; 1] [1; 1] (1 / 4) = 1 /\ courant_sum [4; 1]%Z [1; 1] [1; 1] (1 / 4) = 5 / 4.
Proof.
  split; [|split; [|split]].
  - repeat split; try (cbv; congruence); try (intros [|[|j]] Hj; simpl in *; lia).
  - intros [|[|j]] Hj; simpl in *; lia.
  - unfold live_sum, sum_axes, live_share, share. cbn. replace (0 / 10) with 0 by lra. rewrite Rabs_R1. lra.
  - unfold courant_sum. cbn. rewrite Rabs_R1. lra.
Qed.
(** Three cells, two steps of a Courant number of 2: the second step leaves values outside [0, 1]. *)
Example ex_one_axis K : exists u, up_new arR 1 [1] [1] [3]%Z = Ok u /\
  exists n u' x, up_advect arR 1 u (Z.of_nat n) (2 / 3) = Ok u' /\ In x (up_f u') /\ K < Rabs x.
Proof.
  assert (Ha : up_args [3]%Z [1] [1]) by (repeat split; try (cbv; congruence); intros [|j] Hj; simpl in *; lia).
  assert (Hsh : short_axes [3]%Z) by (intros [|j] Hj; simpl in *; lia).
  destruct (C42_constructor arR _ _ _ Ha) as (u & E & _). exists u. split; [exact E|].
  apply (C92_one_axis [3]%Z [1] [1] u (2 / 3) 0 K Ha Hsh E); [simpl; lia|simpl; lia|]. unfold share. cbn. rewrite Rabs_R1. lra.
Qed.
(** Two axes of two cells with a Courant number of 0.6 each. *)
Example ex_even K : exists u, up_new arR 2 [1; 1] [1; 1] [2; 2]%Z = Ok u /\
  exists n u' x, up_advect arR 2 u (Z.of_nat n) (3 / 10) = Ok u' /\ In x (up_f u') /\ K < Rabs x.
Proof.
  assert (Ha : up_args [2; 2]%Z [1; 1] [1; 1]) by (repeat split; try (cbv; congruence); intros [|[|j]] Hj; simpl in *; lia).
  assert (Hsh : short_axes [2; 2]%Z) by (intros [|[|j]] Hj; simpl in *; lia).
  destruct (C42_constructor arR _ _ _ Ha) as (u & E & _). exists u. split; [exact E|].
  apply (C92_even_axes [2; 2]%Z [1; 1] [1; 1] u (3 / 10) (fun _ => true) K Ha Hsh E); [intros [|[|j]] Hj _; simpl in *; auto; lia|].
  unfold sum_axes, share. cbn. rewrite Rabs_R1. lra.
Qed.
