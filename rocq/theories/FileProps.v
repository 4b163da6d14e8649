(** * Property C68: the files written can be read, and say what the field is *)
From Coq Require Import Reals Lra ZArith Lia Floats.SpecFloat.
From Flocq Require Import Core BinarySingleNaN.
From Verif Require Import Cpp CppProof OMap MaiModel MaiSpec Radix MaiProof CmdModel CmdSpec CmdProof CmdProps
  FilterModel FilterSpec VtkModel VtkSpec VtkProps UpModel UpSpec UpProof UpProps AccModel AccSpec AccProof AccProps UpMpiProps Ieee Double DblSpec DblProof DblField DblProps
  DrvModel DrvSpec DrvProps NumModel NumSpec NumProof NumProps TextModel TextSpec TextProof TextRun TextProps.
From Coq Require Import List.
Import ListNotations.
Local Open Scope string_scope.
Local Open Scope Z_scope.
Local Arguments prodZ : simpl never.
Local Arguments Z.of_nat : simpl never.

(** The k-th coordinate along axis [j] *)
Definition coordinate {D} (ar : arith D) (dims : list Z) (lengths : list D) (j : nat) (k : Z) : D :=
  a_add ar (a_dec ar 0 1) (a_mul ar (cell_size ar dims lengths j) (a_ofZ ar k)).

(** The number of points along axis [j] and the words for their coordinates *)
Definition points (dims : list Z) (j : nat) : Z := if (j <? List.length dims)%nat then nth j dims 0 + 1 else 1.
Definition axis_text (dims : list Z) (lengths : list spec_float) (j : nat) : list string :=
  if (j <? List.length dims)%nat then map (fun k => show_double (coordinate arD dims lengths j k)) (range 0 (nth j dims 0 + 1)) else ["0.0"].

Lemma finite_numeral x r : double_value x r -> numeral (show_double x) <> None.
Proof. intros H. destruct (C66_printed_value x r H) as (m & k & -> & _). discriminate. Qed.

Theorem C68_saveVTK dims v lengths u G :
  up_args dims v lengths -> (List.length dims <= 3)%nat -> up_object arD dims v lengths u -> holds u dims G ->
  (forall j k, (j < List.length dims)%nat -> 0 <= k <= nth j dims 0 -> exists r, double_value (coordinate arD dims lengths j k) r) ->
  (forall x, In x (up_f u) -> exists r, double_value x r) ->
  exists file doc, up_saveVTK arD (vlen dims) u = Ok file /\ read_rectilinear (rect_text show_double (vlen dims) file) = Some doc /\
    rd_dims doc = (points dims 2, points dims 1, points dims 0) /\
    rd_x doc = axis_text dims lengths 2 /\ rd_y doc = axis_text dims lengths 1 /\ rd_z doc = axis_text dims lengths 0 /\
    rd_name doc = "f" /\ rd_values doc = map show_double (up_f u) /\
    forall x y z, 0 <= x < cells_along (points dims 2) -> 0 <= y < cells_along (points dims 1) -> 0 <= z < cells_along (points dims 0) ->
      nth_error (rd_values doc) (Z.to_nat (x + cells_along (points dims 2) * (y + cells_along (points dims 1) * z))) =
      Some (show_double (G (firstn (List.length dims) [z; y; x]))).
Proof.
  intros Ha H3 Hu HG HC HF.
  destruct (C52_vtk arD dims v lengths u G Ha H3 Hu HG) as (r & dx & dy & dz & cx & cy & cz & Er & Ed & Ec & Efst & Elen & Epres & Eabs & Ecount & Eprod & Hval).
  assert (Ev : rg_values r = up_f u).
  { destruct (holds_of arD _ _ _ _ _ Ha Hu HG) as (old & _ & ->). pose proof Er as E. unfold up_saveVTK in E.
    repeat (apply bind_ok in E as (? & ? & E)). injection E as <-. cbn [rg_values].
    match goal with H : tabulate ?m _ = Ok ?t |- ?t = _ => rename H into Ht end.
    cbn [up_of up_ntot up_f] in Ht |- *. rewrite <- (cells_vlen G dims (proj1 Ha)) in Ht. rewrite tabulate_vget in Ht. injection Ht as <-. reflexivity. }
  destruct r as [rd rc rn rv]. cbn [rg_dims rg_coords rg_count rg_values] in *. subst rd rc rv.
  assert (Hn0 : (0 < List.length dims)%nat) by (destruct Ha as ((Hne & _) & _); destruct dims; [congruence|simpl; lia]).
  cbn [map] in Efst. injection Efst as F2 F1 F0.
  assert (L2 : vlen (snd cx) = dx) by (rewrite <- F2; apply Elen; simpl; tauto).
  assert (L1 : vlen (snd cy) = dy) by (rewrite <- F1; apply Elen; simpl; tauto).
  assert (L0 : vlen (snd cz) = dz) by (rewrite <- F0; apply Elen; simpl; tauto).
  destruct cx as [nx xs], cy as [ny ys], cz as [nz zs]. cbn [fst snd] in *. subst nx ny nz.
  assert (Hpos : forall j, (j < List.length dims)%nat -> 0 < nth j dims 0) by (intros j Hj; apply (proj1 (proj2 (proj2 (proj1 Ha)))); exact Hj).
  assert (A2 : dx = points dims 2 /\ axis_words show_double (2 <? vlen dims) xs = axis_text dims lengths 2 /\ (forall x, In x xs -> exists q, double_value x q) /\ (if 2 <? vlen dims then True else dx = 1)).
  { unfold points, axis_text. destruct (Nat.ltb_spec 2 (List.length dims)) as [L|L].
    - specialize (Epres 2%nat L). injection Epres as -> ->. unfold vlen. destruct (Z.ltb_spec 2 (Z.of_nat (List.length dims))); [|lia]. cbn [axis_words].
      rewrite map_map. split; [reflexivity|]. split; [reflexivity|]. split; [|exact I]. intros x Hx. apply in_map_iff in Hx as (k & <- & Hk).
      unfold range in Hk. apply in_map_iff in Hk as (i & <- & Hi). apply in_seq in Hi. apply (HC 2%nat); [exact L|]. specialize (Hpos 2%nat L). lia.
    - specialize (Eabs 2%nat ltac:(lia)). injection Eabs as -> ->. unfold vlen. destruct (Z.ltb_spec 2 (Z.of_nat (List.length dims))); [lia|]. repeat split. intros x [<-|[]]. exists 0%R. exact dv_zero. }
  assert (A1 : dy = points dims 1 /\ axis_words show_double (1 <? vlen dims) ys = axis_text dims lengths 1 /\ (forall x, In x ys -> exists q, double_value x q) /\ (if 1 <? vlen dims then True else dy = 1)).
  { unfold points, axis_text. destruct (Nat.ltb_spec 1 (List.length dims)) as [L|L].
    - specialize (Epres 1%nat L). injection Epres as -> ->. unfold vlen. destruct (Z.ltb_spec 1 (Z.of_nat (List.length dims))); [|lia]. cbn [axis_words].
      rewrite map_map. split; [reflexivity|]. split; [reflexivity|]. split; [|exact I]. intros x Hx. apply in_map_iff in Hx as (k & <- & Hk).
      unfold range in Hk. apply in_map_iff in Hk as (i & <- & Hi). apply in_seq in Hi. apply (HC 1%nat); [exact L|]. specialize (Hpos 1%nat L). lia.
    - specialize (Eabs 1%nat ltac:(lia)). injection Eabs as -> ->. unfold vlen. destruct (Z.ltb_spec 1 (Z.of_nat (List.length dims))); [lia|]. repeat split. intros x [<-|[]]. exists 0%R. exact dv_zero. }
  assert (A0 : dz = points dims 0 /\ map show_double zs = axis_text dims lengths 0 /\ (forall x, In x zs -> exists q, double_value x q)).
  { unfold points, axis_text. destruct (Nat.ltb_spec 0 (List.length dims)) as [L|L]; [|lia].
    specialize (Epres 0%nat L). injection Epres as -> ->.
    rewrite map_map. split; [reflexivity|]. split; [reflexivity|]. intros x Hx. apply in_map_iff in Hx as (k & <- & Hk).
      unfold range in Hk. apply in_map_iff in Hk as (i & <- & Hi). apply in_seq in Hi. apply (HC 0%nat); [exact L|]. specialize (Hpos 0%nat L). lia. }
  destruct A2 as (E2 & W2 & D2 & C2), A1 as (E1 & W1 & D1 & C1), A0 as (E0 & W0 & D0).
  assert (P : forall j, 1 <= points dims j) by (intros j; unfold points; destruct (Nat.ltb_spec j (List.length dims)); [specialize (Hpos j ltac:(assumption))|]; lia).
  eexists _, _. split; [exact Er|]. rewrite Ecount. unfold vlen at 2. split.
  - rewrite rect_read.
    + reflexivity.
    + intros x. split; [apply nospace_double|apply show_double_nonempty].
    + rewrite E2. specialize (P 2%nat). lia.
    + rewrite E1. specialize (P 1%nat). lia.
    + rewrite E0. specialize (P 0%nat). lia.
    + destruct (2 <? vlen dims); [exact L2|exact C2].
    + destruct (1 <? vlen dims); [exact L1|exact C1].
    + exact L0.
    + unfold vlen in Ecount. rewrite <- Ecount. exact Eprod.
    + intros x Hx. assert (E : exists q, double_value x q); [|destruct E as (q & E); exact (finite_numeral x q E)].
      rewrite !in_app_iff in Hx. destruct Hx as [Hx|[Hx|[Hx|Hx]]]; [exact (D2 x Hx)|exact (D1 x Hx)|exact (D0 x Hx)|exact (HF x Hx)].
  - cbn [rd_dims rd_x rd_y rd_z rd_name rd_values]. rewrite W2, W1, W0, E2, E1, E0. repeat (split; [reflexivity|]).
    intros x y z Hx Hy Hz. rewrite E2, E1, E0 in Hval. specialize (Hval x y z Hx Hy Hz).
    rewrite nth_error_map. unfold vget in Hval. change (layers ?p) with (cells_along p) in Hval.
    match type of Hval with (if ?c then _ else _) = _ => destruct c; [|discriminate] end.
    match type of Hval with match ?c with Some _ => _ | None => _ end = _ => destruct c as [w|]; [|discriminate] end.
    injection Hval as ->. reflexivity.
Qed.
Print Assumptions C68_saveVTK.

(** ** The drivers: the unit cube *)

(** The words for [n] + 1 equidistant coordinates from 0 to 1: the two ends are exact, the others correct to five decimals
    and strictly increasing. *)
Definition unit_axis (n : Z) (ws : list string) : Prop :=
  Z.of_nat (List.length ws) = n + 1 /\ nth_error ws 0 = Some "0" /\ nth_error ws (Z.to_nat n) = Some "1" /\
  (forall i, 0 <= i <= n -> exists w p, nth_error ws (Z.to_nat i) = Some w /\ denotes w p /\ (Rabs (p - IZR i / IZR n) <= 6 / 1000000)%R) /\
  (forall i w w' p p', 0 <= i < n -> nth_error ws (Z.to_nat i) = Some w -> nth_error ws (Z.to_nat (i + 1)) = Some w' ->
     denotes w p -> denotes w' p' -> (p < p')%R).

Definition unit_cube (n : Z) (d : rect_doc) : Prop :=
  rd_dims d = (n + 1, n + 1, n + 1) /\ unit_axis n (rd_x d) /\ unit_axis n (rd_y d) /\ unit_axis n (rd_z d) /\
  rd_name d = "f" /\ Z.of_nat (List.length (rd_values d)) = n * n * n.

(** The word for the cell at [x], [y], [z] (last axis of the program is the first of the file). *)
Definition cell_word (n : Z) (d : rect_doc) (x y z : Z) (w : string) : Prop :=
  nth_error (rd_values d) (Z.to_nat (x + n * (y + n * z))) = Some w.

Lemma denotes_unique s a b : denotes s a -> denotes s b -> a = b.
Proof. intros (m & k & E & ->) (m' & k' & E' & ->). rewrite E in E'. injection E' as -> ->. reflexivity. Qed.


Section Cube.
  Variable n : Z.
  Hypotheses (H1 : 1 <= n) (H2 : n * n * n < 2 ^ 31).
  Let dims := [n; n; n].
  Let ones := [one; one; one].

  Lemma n_bound : n <= 1290.
  Proof. destruct (Z.le_gt_cases n 1290); [assumption|exfalso]. assert (1291 * 1291 <= n * n) by nia. assert (1291 * 1291 * 1291 <= n * n * n) by nia. lia. Qed.

  Lemma cube_args : up_args dims ones ones.
  Proof.
    assert (Ep : prodZ dims = n * n * n) by (unfold dims; rewrite !prodZ_cons; change (prodZ []) with 1; ring).
    repeat split; try discriminate; try reflexivity; [|rewrite Ep; exact H2]. intros [|[|[|j]]] Hj; simpl in *; lia.
  Qed.

  Lemma cube_coordinate j i : (j < 3)%nat -> 0 <= i <= n -> exists q, double_value (coordinate arD dims ones j i) q /\
    (Rabs (q - IZR i / IZR n) <= / 1000000000)%R.
  Proof.
    intros Hj Hi. pose proof n_bound as NB.
    assert (Ec : coordinate arD dims ones j i = a_add arD (a_dec arD 0 1) (a_mul arD (a_div arD one (a_ofZ arD n)) (a_ofZ arD i))).
    { unfold coordinate, cell_size. destruct j as [|[|[|j]]]; try lia; reflexivity. }
    rewrite Ec. clear Ec.
    assert (N1 : (1 <= IZR n)%R) by (apply IZR_le; exact H1). assert (N2 : (IZR n <= 1290)%R) by (apply IZR_le; exact NB).
    assert (I0 : (0 <= IZR i)%R) by (apply IZR_le; lia). assert (I1 : (IZR i <= IZR n)%R) by (apply IZR_le; lia).
    assert (Q1 : (1 / IZR n <= 1)%R) by (apply Rmult_le_reg_r with (IZR n); [lra|]; unfold Rdiv; rewrite Rmult_assoc, Rinv_l by lra; lra).
    assert (Q0 : (0 < 1 / IZR n)%R) by (unfold Rdiv; rewrite Rmult_1_l; apply Rinv_0_lt_compat; lra).
    assert (Vh : double_value (a_div arD one (a_ofZ arD n)) (rnd64 (1 / IZR n))).
    { apply dv_div; [exact dv_one|apply dv_ofZ; lia|lra|]. rewrite Rabs_pos_eq by lra. simpl. lra. }
    set (h := rnd64 (1 / IZR n)) in *.
    pose proof (rnd_error (1 / IZR n)) as Rh. fold h in Rh. rewrite (Rabs_pos_eq (1 / IZR n)) in Rh by lra. apply Rabs_le_inv in Rh.
    assert (Ep : (0 < eps <= / 1000000000000000)%R) by (split; [apply eps_small|unfold eps; apply Rinv_le; [lra|simpl; lra]]).
    assert (Et : (0 < eta <= / 1000000000000000)%R) by (pose proof eta_tiny; split; [tauto|]; assert (eps * eps <= 1)%R by nra; assert (eps * eps * eps <= 1 * eps)%R by (apply Rmult_le_compat_r; lra); lra).
    assert (Qi : (IZR i / IZR n <= 1)%R) by (apply Rmult_le_reg_r with (IZR n); [lra|]; unfold Rdiv; rewrite Rmult_assoc, Rinv_l by lra; lra).
    assert (Qi0 : (0 <= IZR i / IZR n)%R) by (apply Rmult_le_pos; [exact I0|left; apply Rinv_0_lt_compat; lra]).
    assert (Ei : (IZR i * (1 / IZR n) = IZR i / IZR n)%R) by (unfold Rdiv; ring).
    assert (Hhi : (Rabs (h * IZR i - IZR i / IZR n) <= / 100000000000)%R).
    { replace (h * IZR i - IZR i / IZR n)%R with (IZR i * (h - 1 / IZR n))%R by (unfold Rdiv; ring).
      rewrite Rabs_mult, (Rabs_pos_eq (IZR i)) by exact I0.
      assert (Hd : (Rabs (h - 1 / IZR n) <= eps + eta)%R) by (assert (eps * (1 / IZR n) <= eps * 1)%R by (apply Rmult_le_compat_l; lra); apply Rabs_le; lra).
      apply Rle_trans with (1290 * (eps + eta))%R; [|lra]. apply Rmult_le_compat; [exact I0|apply Rabs_pos|lra|exact Hd]. }
    apply Rabs_le_inv in Hhi.
    assert (Bp : (Rabs (h * IZR i) <= 2)%R) by (apply Rabs_le; lra).
    assert (Vp : double_value (a_mul arD (a_div arD one (a_ofZ arD n)) (a_ofZ arD i)) (rnd64 (h * IZR i))).
    { apply dv_mul; [exact Vh|apply dv_ofZ; lia|]. apply Rle_trans with 2%R; [exact Bp|]. simpl. lra. }
    pose proof (rnd_error (h * IZR i)) as Rp. set (p := rnd64 (h * IZR i)) in *.
    assert (Bq : (Rabs (p - h * IZR i) <= / 100000000000)%R) by (assert (eps * Rabs (h * IZR i) <= eps * 2)%R by (apply Rmult_le_compat_l; lra); lra). apply Rabs_le_inv in Bq.
    exists p. split.
    - assert (E : p = rnd64 (0 + p)) by (rewrite Rplus_0_l; symmetry; apply rnd_fmt, rnd_is_fmt). rewrite E.
      apply dv_add; [exact dv_zero|exact Vp|]. rewrite Rplus_0_l. apply Rle_trans with 3%R; [apply Rabs_le; lra|]. simpl. lra.
    - apply Rabs_le. lra.
  Qed.

  Lemma cube_zero j : (j < 3)%nat -> show_double (coordinate arD dims ones j 0) = "0".
  Proof.
    intros Hj. assert (Ec : coordinate arD dims ones j 0 = a_add arD (a_dec arD 0 1) (a_mul arD (a_div arD one (a_ofZ arD n)) (a_ofZ arD 0))).
    { unfold coordinate, cell_size. destruct j as [|[|[|j]]]; try lia; reflexivity. }
    rewrite Ec. destruct (dv_dx n H1 H2) as (h & (_ & Hf & Eh) & Hh & _).
    assert (P : (0 < / 2 ^ 30)%R) by (apply Rinv_0_lt_compat, pow_lt; lra).
    destruct (a_div arD one (a_ofZ arD n)) as [s|s| |s m e]; try discriminate; [cbn [SF2R] in Eh; lra|].
    destruct s; [|vm_compute; reflexivity]. exfalso. cbn [SF2R cond_Zopp] in Eh. change (- Zpos m) with (Z.opp (Zpos m)) in Eh. rewrite F2R_Zopp in Eh.
    pose proof (F2R_gt_0 radix2 (Float radix2 (Zpos m) e) ltac:(reflexivity)). lra.
  Qed.

  Lemma cube_axis j : (j < 3)%nat -> unit_axis n (axis_text dims ones j).
  Proof.
    intros Hj.
    assert (Ea : axis_text dims ones j = map (fun k => show_double (coordinate arD dims ones j k)) (range 0 (n + 1))).
    { unfold axis_text. destruct j as [|[|[|j]]]; try lia; reflexivity. }
    assert (En : forall i, 0 <= i <= n -> nth_error (axis_text dims ones j) (Z.to_nat i) = Some (show_double (coordinate arD dims ones j i))).
    { intros i Hi. rewrite Ea, nth_error_map. unfold range. rewrite nth_error_map.
      rewrite (nth_error_nth' _ 0%nat) by (rewrite seq_length; lia). rewrite seq_nth by lia. cbn [option_map]. do 3 f_equal. lia. }
    assert (Ed : forall i, 0 <= i <= n -> exists p, denotes (show_double (coordinate arD dims ones j i)) p /\ (Rabs (p - IZR i / IZR n) <= 6 / 1000000)%R).
    { intros i Hi. destruct (cube_coordinate j i Hj Hi) as (q & Vq & B). exists (six_digits q). split; [apply C66_printed_value, Vq|].
      pose proof (C66_error q) as E. apply Rabs_le_inv in B.
      assert (Q : (0 <= IZR i / IZR n <= 1)%R).
      { assert (1 <= IZR n)%R by (apply IZR_le; exact H1). assert (0 <= IZR i)%R by (apply IZR_le; lia). assert (IZR i <= IZR n)%R by (apply IZR_le; lia).
        split; [apply Rmult_le_pos; [assumption|left; apply Rinv_0_lt_compat; lra]|].
        apply Rmult_le_reg_r with (IZR n); [lra|]; unfold Rdiv; rewrite Rmult_assoc, Rinv_l by lra; lra. }
      assert (Rabs q <= 1001 / 1000)%R by (apply Rabs_le; lra). apply Rabs_le_inv in E. apply Rabs_le. lra. }
    split; [rewrite Ea, map_length, range_length; lia|]. split; [|split; [|split]].
    - change 0%nat with (Z.to_nat 0). rewrite (En 0 ltac:(lia)). rewrite cube_zero by exact Hj. reflexivity.
    - rewrite (En n ltac:(lia)). destruct (cube_coordinate j n Hj ltac:(lia)) as (q & Vq & B). f_equal. apply (show_one _ q Vq).
      assert (IZR n <> 0)%R by (apply not_0_IZR; lia). replace (IZR n / IZR n)%R with 1%R in B by (field; assumption). lra.
    - intros i Hi. destruct (Ed i Hi) as (p & Hp & B). exists (show_double (coordinate arD dims ones j i)), p. split; [exact (En i Hi)|]. split; assumption.
    - intros i w w' p p' Hi Ew Ew' Hp Hp'. rewrite (En i ltac:(lia)) in Ew. rewrite (En (i + 1) ltac:(lia)) in Ew'. injection Ew as <-. injection Ew' as <-.
      destruct (Ed i ltac:(lia)) as (q & Hq & B). destruct (Ed (i + 1) ltac:(lia)) as (q' & Hq' & B').
      rewrite (denotes_unique _ _ _ Hp Hq), (denotes_unique _ _ _ Hp' Hq'). apply Rabs_le_inv in B. apply Rabs_le_inv in B'. rewrite plus_IZR in B'.
      pose proof n_bound as NB. assert (N1 : (1 <= IZR n)%R) by (apply IZR_le; exact H1). assert (N2 : (IZR n <= 1290)%R) by (apply IZR_le; exact NB).
      assert (Q : (/ 1290 <= 1 / IZR n)%R) by (unfold Rdiv; rewrite Rmult_1_l; apply Rinv_le; lra).
      replace ((IZR i + 1) / IZR n)%R with (IZR i / IZR n + 1 / IZR n)%R in B' by (unfold Rdiv; ring). lra.
  Qed.

  Lemma six_unit r : (0 <= r <= 1)%R -> (0 <= six_digits r <= 1)%R.
  Proof using.
    intros [A B]. assert (L : forall a b, (a <= b)%R -> (six_digits a <= six_digits b)%R).
    { intros a b Hab. unfold six_digits. apply round_le; [apply FLX_exp_valid; reflexivity|apply valid_rnd_N|exact Hab]. }
    apply L in A. apply L in B. rewrite six_0 in A. rewrite (six_integer 1) in B by reflexivity. split; assumption.
  Qed.

  (** A file of the class Upwind on the unit cube *)
  Lemma cube_file u G : up_object arD dims ones ones u -> holds u dims G -> unit_values (up_f u) ->
    exists file doc, up_saveVTK arD 3 u = Ok file /\ read_rectilinear (rect_text show_double 3 file) = Some doc /\ unit_cube n doc /\
      (forall x y z, 0 <= x < n -> 0 <= y < n -> 0 <= z < n -> cell_word n doc x y z (show_double (G [z; y; x]))) /\
      (forall w, In w (rd_values doc) -> exists r, denotes w r /\ (0 <= r <= 1)%R).
  Proof.
    intros Hu HG HV.
    destruct (C68_saveVTK dims ones ones u G cube_args ltac:(simpl; lia) Hu HG) as (file & doc & Ef & Er & Ed & Ex & Ey & Ez & Enm & Ev & Hc).
    { intros j k Hj Hk. assert (En : nth j dims 0 = n) by (unfold dims in *; destruct j as [|[|[|j]]]; simpl in *; lia). rewrite En in Hk.
      destruct (cube_coordinate j k Hj Hk) as (q & Vq & _). exists q. exact Vq. }
    { intros x Hx. destruct (HV x Hx) as (r & Vr & _). exists r. exact Vr. }
    exists file, doc. split; [exact Ef|]. split; [exact Er|]. change (points dims _) with (n + 1) in *.
    assert (Ec : cells_along (n + 1) = n) by (unfold cells_along; lia). rewrite Ec in Hc.
    split; [|split].
    - split; [exact Ed|]. rewrite Ex, Ey, Ez. split; [apply cube_axis; lia|]. split; [apply cube_axis; lia|]. split; [apply cube_axis; lia|]. split; [exact Enm|].
      rewrite Ev, map_length. unfold holds in HG. rewrite HG. pose proof (cells_vlen G dims (proj1 cube_args)) as L. unfold vlen in L. rewrite L.
      unfold dims; rewrite !prodZ_cons; change (prodZ []) with 1; ring.
    - intros x y z Hx Hy Hz. apply (Hc x y z Hx Hy Hz).
    - intros w Hw. rewrite Ev in Hw. apply in_map_iff in Hw as (x & <- & Hx). destruct (HV x Hx) as (r & Vr & B). exists (six_digits r).
      split; [apply C66_printed_value, Vr|apply six_unit, B].
  Qed.
End Cube.

Lemma first_unit n f : f = map (first_cell arD [n; n; n]) (cells [n; n; n]) -> unit_values f.
Proof.
  intros -> x Hx. apply in_map_iff in Hx as (g & <- & _). unfold first_cell. destruct (list_eq_dec _ _ _).
  - exists 1%R. split; [apply (dv_ofZ 1); reflexivity|lra].
  - exists 0%R. split; [exact dv_zero|lra].
Qed.

(** upwind: the first file has the initial field, the second one the field after the last step. *)
Theorem C68_upwind omp dsqrt atof exec args n k :
  readable ["-numCells"; "-numSteps"] args -> int_option args "-numCells" 128 n -> int_option args "-numSteps" 10 k ->
  known up_options args -> flag args "-h" = false -> flag args "-vtk" = true -> 1 <= n -> n * n * n < 2 ^ 31 ->
  exists r t0 t1 d0 d1 dt, up_program arD show_double omp dsqrt atof (exec :: args) = Ok r /\
    r_files r = [("up0.vtk", t0); ("up1.vtk", t1)] /\ read_rectilinear t0 = Some d0 /\ read_rectilinear t1 = Some d1 /\
    unit_cube n d0 /\ unit_cube n d1 /\
    up_dt arD [one; one; one] [one; one; one] [n; n; n] = Ok dt /\
    (forall x y z, 0 <= x < n -> 0 <= y < n -> 0 <= z < n ->
      cell_word n d0 x y z (if (x =? 0) && (y =? 0) && (z =? 0) then "1" else "0") /\
      cell_word n d1 x y z (show_double (upwind_iter arD (Z.to_nat k) [n; n; n] [one; one; one] [one; one; one] dt (first_cell arD [n; n; n]) [z; y; x]))) /\
    (forall w, In w (rd_values d1) -> exists v, denotes w v /\ (0 <= v <= 1)%R).
Proof.
  intros Hrd Hn Hk K Fh Fv H1 H2.
  destruct (C67_upwind arD show_double dsqrt atof omp exec args n k Hrd Hn Hk) as (G & _). rewrite (G K Fh), Fv. clear G.
  pose proof (cube_args n H1 H2) as Ha.
  assert (Hsh : short_axes [n; n; n]) by (pose proof (n_bound n H2); intros [|[|[|j]]] Hj; simpl in *; lia).
  destruct (C42_constructor arD [n; n; n] _ _ Ha) as (u & Eu & Hu & HG).
  destruct (driver_dt n H1 H2) as (dt & Edt & HC & _).
  destruct (C42_advect arD _ _ _ _ _ dt k Ha Hsh Hu HG) as (u' & E & Hu' & Hh').
  assert (V' : unit_values (up_f u')).
  { unfold holds in Hh'. rewrite upwind_coef in Hh'. exact (check_unit n H1 H2 _ _ _ _ HC Hh'). }
  destruct (cube_file n H1 H2 u _ Hu HG (first_unit n _ HG)) as (f0 & d0 & Es0 & Er0 & C0 & W0 & _).
  destruct (cube_file n H1 H2 u' _ Hu' Hh' V') as (f1 & d1 & Es1 & Er1 & C1 & W1 & B1).
  assert (Eb : exists s, up_body arD dsqrt n k true (flag args "-std") = Ok (mkUpResult u' (up_checksum arD u') s (Some f0) (Some f1))).
  { unfold up_body. rewrite u64_id by (unfold two64; nia). change (repeat n 3) with [n; n; n]. change (repeat one 3) with [one; one; one].
    rewrite Edt. cbn [bind]. change 3 with (vlen [n; n; n]) at 1. rewrite Eu. cbn [bind]. rewrite Es0. cbn [bind].
    change 3 with (vlen [n; n; n]) at 1. rewrite E. cbn [bind]. rewrite Es1.
    destruct (flag args "-std"); [|eexists; reflexivity].
    destruct (up_std_some arD dsqrt u') as (s & ->); [|eexists; reflexivity].
    rewrite Hh', cells_vlen by apply Ha. apply Ha. }
  destruct Eb as (s & ->). cbn [bind ur_vtk0 ur_vtk1 file_text app].
  eexists _, _, _, d0, d1, dt. split; [reflexivity|]. cbn [r_files]. split; [reflexivity|]. split; [exact Er0|]. split; [exact Er1|].
  split; [exact C0|]. split; [exact C1|]. split; [exact Edt|]. split; [|exact B1].
  intros x y z Hx Hy Hz. split; [|exact (W1 x y z Hx Hy Hz)]. specialize (W0 x y z Hx Hy Hz). unfold first_cell in W0. cbn [repeat List.length] in W0.
  destruct (list_eq_dec Z.eq_dec [z; y; x] [0; 0; 0]) as [E0|N0].
  - injection E0 as -> -> ->. exact W0.
  - assert (E0 : (x =? 0) && (y =? 0) && (z =? 0) = false).
    { destruct (Z.eqb_spec x 0), (Z.eqb_spec y 0), (Z.eqb_spec z 0); try reflexivity. subst. congruence. }
    rewrite E0. exact W0.
Qed.
Print Assumptions C68_upwind.

(** The accelerator versions write the field after the last step. *)
Theorem C68_upwindAcc ver dsqrt atof exec args n k :
  readable ["-numCells"; "-numSteps"] args -> int_option args "-numCells" 128 n -> int_option args "-numSteps" 10 k ->
  known (acc_options ver) args -> flag args "-h" = false -> flag args "-vtk" = true -> 1 <= n -> n * n * n < 2 ^ 31 ->
  exists r t d dt, acc_program arD show_double ver dsqrt atof (exec :: args) = Ok r /\
    r_files r = [("up.vtk", t)] /\ read_rectilinear t = Some d /\ unit_cube n d /\
    up_dt arD [one; one; one] [one; one; one] [n; n; n] = Ok dt /\
    (forall x y z, 0 <= x < n -> 0 <= y < n -> 0 <= z < n ->
      cell_word n d x y z (show_double (acc_iter arD (Z.to_nat k) [n; n; n] [one; one; one] [one; one; one] dt (first_cell arD [n; n; n]) [z; y; x]))) /\
    (forall w, In w (rd_values d) -> exists v, denotes w v /\ (0 <= v <= 1)%R).
Proof.
  intros Hrd Hn Hk K Fh Fv H1 H2.
  destruct (C67_upwindAcc arD show_double dsqrt atof ver exec args n k Hrd Hn Hk) as (G & _). rewrite (G K Fh), Fv. clear G.
  set (doStd := match ver with Acc1 => false | _ => flag args "-std" end).
  destruct (C48_driver_field arD ver dsqrt n k true doStd H1 H2) as (a & s & d & t & dt & E & Edt & Ef & _).
  destruct (driver_dt n H1 H2) as (dt' & Edt' & _ & HC). rewrite Edt in Edt'. injection Edt' as <-.
  pose proof (cube_args n H1 H2) as Ha. pose proof (n_bound n H2) as NB.
  assert (Hsh : shorter_axes [n; n; n]) by (intros [|[|[|j]]] Hj; simpl in *; lia).
  assert (V : unit_values (ac_f a)) by (rewrite acc_coef in Ef; exact (check_unit n H1 H2 _ _ _ _ HC Ef)).
  assert (Ep : prodZ [n; n; n] = n * n * n) by (rewrite !prodZ_cons; change (prodZ []) with 1; ring).
  pose proof (of_object arD [n; n; n] [one; one; one] [one; one; one] (acc_iter arD (Z.to_nat k) [n; n; n] [one; one; one] [one; one; one] dt (first_cell arD [n; n; n]))
    (repeat one (Z.to_nat (prodZ [n; n; n]))) Ha ltac:(unfold vlen; rewrite repeat_length, Ep; nia)) as Hu.
  match type of Hu with up_object _ _ _ _ ?w => set (u := w) in * end.
  assert (Hhu : holds u [n; n; n] (acc_iter arD (Z.to_nat k) [n; n; n] [one; one; one] [one; one; one] dt (first_cell arD [n; n; n]))) by reflexivity.
  assert (Hfu : ac_f a = up_f u) by (rewrite Ef; reflexivity).
  destruct (cube_file n H1 H2 u _ Hu Hhu ltac:(rewrite <- Hfu; exact V)) as (f & doc & Es & Er & C & W & B).
  assert (Et : t = Some f).
  { pose proof E as E'. unfold acc_body in E'. change (repeat n 3) with [n; n; n] in E'. change (repeat one 3) with [one; one; one] in E'. rewrite Edt in E'. cbn [bind] in E'.
    apply bind_ok in E' as (a0 & Ea0 & E'). apply bind_ok in E' as (a' & Ea' & E'). apply bind_ok in E' as (sp & _ & E'). apply bind_ok in E' as (v & Ev & E').
    injection E' as E1 _ _ E2. subst a' v. destruct (C48_constructor arD (has_old ver) [n; n; n] _ _ (conj Ha eq_refl)) as (a1 & Ea1 & Ho1 & HG1).
    fold (has_old ver) in Ea0. rewrite Ea1 in Ea0. injection Ea0 as <-.
    destruct (C48_formula arD ver _ _ _ _ _ dt k (conj Ha eq_refl) Hsh Ho1 HG1) as (a2 & Ea2 & Ho2 & _). rewrite Ea2 in Ea'. injection Ea' as ->.
    destruct (C48_same_output arD dsqrt _ _ _ _ a u (conj Ha eq_refl) Hsh Ho2 Hu Hfu) as (_ & _ & Evtk). rewrite Evtk, Es in Ev. injection Ev as <-. reflexivity. }
  rewrite E. cbn [bind]. rewrite Et. cbn [file_text].
  eexists _, _, doc, dt. split; [reflexivity|]. cbn [r_files]. split; [reflexivity|]. split; [exact Er|]. split; [exact C|]. split; [exact Edt|]. split; [exact W|exact B].
Qed.
Print Assumptions C68_upwindAcc.

(** ** The files of writeVTK *)

Lemma nth_concat3 {A} (l : list (list A)) m c : (forall p, In p l -> List.length p = 3%nat) -> (c < 3)%nat ->
  nth_error (concat l) (3 * m + c) = match nth_error l m with Some p => nth_error p c | None => None end.
Proof.
  revert m. induction l as [|p l IH]; intros m H Hc; [destruct m; destruct c; reflexivity|]. cbn [concat].
  specialize (H p (or_introl eq_refl)) as Hp. destruct m as [|m].
  - cbn [nth_error]. rewrite nth_error_app1 by lia. f_equal.
  - rewrite nth_error_app2 by lia. rewrite Hp. replace (3 * S m + c - 3)%nat with (3 * m + c)%nat by lia. cbn [nth_error]. apply IH; [|exact Hc].
    intros q Hq. apply H. right. exact Hq.
Qed.

(** The file can be read as a structured grid; it has one point more than cells along each of the three axes, the
    first axis varying fastest; the values are those of the field; nothing is said on standard error. *)
Theorem C68_writeVTK filename dims xmins xmaxs field name :
  vtk_args dims xmins xmaxs -> prodZ dims <= vlen field -> nospace name = true -> name <> "" ->
  (forall i j k c, 0 <= i <= nth 0 dims 1 -> 0 <= j <= nth 1 dims 1 -> 0 <= k <= nth 2 dims 1 ->
     In c (grid_point arD dims xmins xmaxs [i; j; k]) -> exists r, double_value c r) ->
  (forall x, In x field -> exists r, double_value x r) ->
  exists text doc, writeVTK_text arD show_double filename dims xmins xmaxs field name = Ok ("", [(filename, text)]) /\
    read_structured text = Some doc /\
    gd_dims doc = (nth 0 dims 1 + 1, nth 1 dims 1 + 1, nth 2 dims 1 + 1) /\ gd_name doc = name /\
    gd_values doc = map show_double (firstn (Z.to_nat (prodZ dims)) field) /\
    (forall i j k c, 0 <= i <= nth 0 dims 1 -> 0 <= j <= nth 1 dims 1 -> 0 <= k <= nth 2 dims 1 -> (c < 3)%nat ->
      nth_error (gd_points doc) (3 * Z.to_nat (i + (nth 0 dims 1 + 1) * (j + (nth 1 dims 1 + 1) * k)) + c) =
      Some (show_double (nth c (grid_point arD dims xmins xmaxs [i; j; k]) one))).
Proof.
  intros Ha Hf Nn Nm HP HV. pose proof (C53_file arD dims xmins xmaxs field Ha Hf) as (file & E & Ed & En & Lp & Ep & _ & Ec & Lv & Ev).
  pose proof (C53_point arD dims xmins xmaxs field file Ha E) as Hpt.
  assert (P0 : forall j, 0 < nth j dims 1) by (apply pad_pos; apply Ha). pose proof (P0 0%nat). pose proof (P0 1%nat). pose proof (P0 2%nat).
  assert (Efd : file_dims dims = [nth 0 dims 1 + 1; nth 1 dims 1 + 1; nth 2 dims 1 + 1]) by reflexivity.
  assert (H3 : forall p, In p (vf_points file) -> List.length p = 3%nat) by (rewrite Ep; intros p Hp; apply in_map_iff in Hp as (g & <- & _); reflexivity).
  assert (Hin : forall p, In p (vf_points file) -> exists i j k, 0 <= i <= nth 0 dims 1 /\ 0 <= j <= nth 1 dims 1 /\ 0 <= k <= nth 2 dims 1 /\ p = grid_point arD dims xmins xmaxs [i; j; k]).
  { rewrite Ep, Ed, Efd. intros p Hp. apply in_map_iff in Hp as (g & <- & Hg). change (col_major [0; 0; 0] [nth 0 dims 1 + 1; nth 1 dims 1 + 1; nth 2 dims 1 + 1]) with (nested_loops false [0; 0; 0] [nth 0 dims 1 + 1; nth 1 dims 1 + 1; nth 2 dims 1 + 1]) in Hg.
    apply in_nested_loops in Hg; [|reflexivity]. destruct Hg as (Lg & _ & Hg). destruct g as [|i [|j [|k [|? ?]]]]; try discriminate Lg.
    pose proof (Hg 0%nat ltac:(simpl; lia)). pose proof (Hg 1%nat ltac:(simpl; lia)). pose proof (Hg 2%nat ltac:(simpl; lia)). cbn [nth] in *.
    exists i, j, k. repeat split; lia. }
  rewrite Ed in *. rewrite Efd in *. rewrite prod3 in En. destruct file as [fd fn fp fc fv]. cbn [vf_dims vf_npoints vf_points vf_ncells vf_values] in *. subst fd fc.
  assert (Epr : prodZ dims = nth 0 dims 1 * nth 1 dims 1 * nth 2 dims 1).
  { destruct Ha as (Hl & _). destruct dims as [|a [|b [|c [|? ?]]]]; try (simpl in Hl; lia); cbn [nth]; rewrite ?prodZ_cons; change (prodZ []) with 1; ring. }
  pose proof (grid_read show_double (fun x => conj (nospace_double x) (show_double_nonempty x)) name (nth 0 dims 1 + 1) (nth 1 dims 1 + 1) (nth 2 dims 1 + 1) fp fv Nn Nm ltac:(lia) ltac:(lia) ltac:(lia) H3) as R.
  unfold vlen in Lp, Lv. rewrite Lp in R. specialize (R En). rewrite Lv in R.
  assert (CA : forall n, 0 < n -> cells_along (n + 1) = n) by (intros; unfold cells_along; lia). rewrite !CA in R by assumption. specialize (R Epr).
  eexists _, _. split; [unfold writeVTK_text; rewrite E; reflexivity|]. split; [apply R|].
  - intros x Hx. apply in_app_iff in Hx as [Hx|Hx].
    + apply in_concat in Hx as (p & Hp & Hx). destruct (Hin p Hp) as (i & j & k & Hi & Hj & Hk & ->). destruct (HP i j k x Hi Hj Hk Hx) as (r & Hr). exact (finite_numeral x r Hr).
    + rewrite Ev in Hx. assert (Hx' : In x field) by (rewrite <- (firstn_skipn (Z.to_nat (prodZ dims)) field); apply in_or_app; left; exact Hx).
      destruct (HV x Hx') as (r & Hr). exact (finite_numeral x r Hr).
  - cbn [gd_dims gd_points gd_name gd_values]. split; [reflexivity|]. split; [reflexivity|]. split; [rewrite Ev; reflexivity|].
    intros i j k c Hi Hj Hk Hc. specialize (Hpt _ _ _ i j k eq_refl ltac:(lia) ltac:(lia) ltac:(lia)).
    rewrite (map_nth_error show_double _ (concat fp) (d := nth c (grid_point arD dims xmins xmaxs [i; j; k]) one)); [reflexivity|].
    rewrite nth_concat3 by assumption. unfold vget in Hpt.
    destruct ((0 <=? i + (nth 0 dims 1 + 1) * (j + (nth 1 dims 1 + 1) * k)) && (i + (nth 0 dims 1 + 1) * (j + (nth 1 dims 1 + 1) * k) <? vlen fp)); [|discriminate].
    destruct (nth_error fp _) as [p|]; [|discriminate]. injection Hpt as ->. apply nth_error_nth'. exact Hc.
Qed.
Print Assumptions C68_writeVTK.

(** With more than three axes there is a warning and no file. *)
Theorem C68_writeVTK_more filename dims xmins xmaxs field name : (3 < List.length dims)%nat ->
  writeVTK_text arD show_double filename dims xmins xmaxs field name =
  Ok ("WARNING: writeVTK does not support more than 3 dimensions" ++ line_end, []).
Proof. intros H. unfold writeVTK_text. rewrite C53_more_axes by exact H. reflexivity. Qed.
Print Assumptions C68_writeVTK_more.

(** ** Examples *)

Example C68_file :
  (r <- acc_program arD show_double Acc2 (SFsqrt 53 1024) (fun _ => one) ["upwindAcc2"; "-numCells"; "2"; "-vtk"; "-numSteps"; "2"] ;; Ok (r_files r)) =
  Ok [("up.vtk", "# vtk DataFile Version 2.0
upwind.cxx
ASCII
DATASET RECTILINEAR_GRID
DIMENSIONS 3 3 3
X_COORDINATES 3 double
 0 0.5 1
Y_COORDINATES 3 double
 0 0.5 1
Z_COORDINATES 3 double
 0 0.5 1
CELL_DATA 8
SCALARS f double 1
LOOKUP_TABLE default
0.52 0.14 0.14 0.02 0.14 0.02 0.02 0 
")].
Proof. vm_compute. reflexivity. Qed.

Example C68_two_files :
  (r <- up_program arD show_double None (SFsqrt 53 1024) (fun _ => one) ["upwind"; "-numCells"; "2"; "-vtk"; "-numSteps"; "1"] ;;
   Ok (map (fun f => (fst f, read_rectilinear (snd f))) (r_files r))) =
  Ok [("up0.vtk", Some (mkRectDoc (3, 3, 3) ["0"; "0.5"; "1"] ["0"; "0.5"; "1"] ["0"; "0.5"; "1"] "f" ["1"; "0"; "0"; "0"; "0"; "0"; "0"; "0"]));
      ("up1.vtk", Some (mkRectDoc (3, 3, 3) ["0"; "0.5"; "1"] ["0"; "0.5"; "1"] ["0"; "0.5"; "1"] "f" ["0.7"; "0.1"; "0.1"; "0"; "0.1"; "0"; "0"; "0"]))].
Proof. vm_compute. reflexivity. Qed.

Example C68_grid :
  writeVTK_text arD show_double "a.vtk" [2; 1] [a_zero arD; a_zero arD] [one; a_ofZ arD 3] [one; a_ofZ arD (-3)] "outData" =
  Ok ("", [("a.vtk", "# vtk DataFile Version 2.0
produced by laplacian
ASCII
DATASET STRUCTURED_GRID
DIMENSIONS 3 2 2
POINTS 12 float
0 0 0
0.5 0 0
1 0 0
0 3 0
0.5 3 0
1 3 0
0 0 1
0.5 0 1
1 0 1
0 3 1
0.5 3 1
1 3 1
CELL_DATA 2
SCALARS outData float
LOOKUP_TABLE default
1
-3
")]) /\
  vtk_args [2; 1] [a_zero arD; a_zero arD] [one; a_ofZ arD 3].
Proof.
  split; [vm_compute; reflexivity|]. split; [simpl; lia|]. split; [reflexivity|]. split; [reflexivity|]. split; [|reflexivity].
  intros [|[|j]] Hj; simpl in *; lia.
Qed.

(** A value that is not finite cannot be read back. *)
Example C68_infinite : exists text, writeVTK_text arD show_double "a.vtk" [1] [a_zero arD] [one] [a_div arD one (a_zero arD)] "outData" = Ok ("", [("a.vtk", text)]) /\
  read_structured text = None.
Proof. eexists. split; [vm_compute; reflexivity|]. vm_compute. reflexivity. Qed.
