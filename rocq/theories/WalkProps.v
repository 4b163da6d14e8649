(** * C83: what a cell depends on after some steps.  C84: the advected field as a random walk *)
From Coq Require Import List Reals Lra Lia RealField Floats.SpecFloat.
From Flocq Require Import Core BinarySingleNaN.
From Verif Require Import Cpp CppProof MaiModel MaiSpec Radix MaiProof CdModel CdSpec FilterModel FilterSpec FilterProof
  FilterSum RealArith LapSpec LapProof UpModel UpSpec UpProof UpExact UpProps UpMpiProps Ieee Double DblSpec DblProof DblField DblProps
  ConvSpec ConvProof WalkSpec.
From Coq Require Import List.
Import ListNotations.
Local Open Scope Z_scope.
Local Arguments prodZ : simpl never.
Local Arguments Z.of_nat : simpl never.

(** ** Moving upwind *)
Section Cells.
  Context {D : Type} (ar : arith D).
  Variables (dims : list Z) (v : list D).
  Let nd := length dims.
  Let s (j : nat) : Z := upwind_side ar (axis_velocity ar v j).
  Hypothesis Hp : pos_axes dims.

  Lemma su_map_nth (F : nat -> Z) j : (j < nd)%nat -> nth j (map F (seq 0 nd)) 0 = F j.
  Proof using Type. intros Hj. apply map_seq_nth. exact Hj. Qed.

  Lemma su_length g a : length g = nd -> length (steps_upwind ar dims v g a) = nd.
  Proof using Type. intros L. unfold steps_upwind. apply wrap_length. rewrite shift_length; rewrite ?map_length, ?seq_length; auto. Qed.

  Lemma su_nth g a j : length g = nd -> (j < nd)%nat ->
    nth j (steps_upwind ar dims v g a) 0 = (nth j g 0 + s j * Z.of_nat (nth j a 0%nat)) mod nth j dims 0.
  Proof using Type.
    intros L Hj. unfold steps_upwind. fold nd.
    assert (Ls : length (shift g (map (fun j => s j * Z.of_nat (nth j a 0%nat)) (seq 0 nd))) = nd)
      by (rewrite shift_length; rewrite ?map_length, ?seq_length; auto).
    change (fun j => upwind_side ar (axis_velocity ar v j) * Z.of_nat (nth j a 0%nat)) with (fun j => s j * Z.of_nat (nth j a 0%nat)).
    rewrite wrap_nth by (rewrite Ls; auto). rewrite shift_nth by (rewrite ?map_length, ?seq_length; lia). rewrite su_map_nth by exact Hj. reflexivity.
  Qed.

  Lemma su_in_grid g a : in_grid dims g -> in_grid dims (steps_upwind ar dims v g a).
  Proof using Hp.
    intros Hg. apply in_grid_nth in Hg as [L Hg]. apply in_grid_nth. split; [apply su_length; auto|].
    intros j Hj. rewrite su_nth by auto. apply Z.mod_pos_bound. apply Hp. exact Hj.
  Qed.

  Lemma su_stay g a : in_grid dims g -> (forall j, (j < nd)%nat -> nth j a 0%nat = 0%nat) -> steps_upwind ar dims v g a = g.
  Proof using Type.
    intros Hg Ha. apply in_grid_nth in Hg as [L Hg]. apply (nth_ext' 0); [rewrite su_length; auto|].
    rewrite su_length by auto. intros j Hj. rewrite su_nth, Ha by auto. change (Z.of_nat 0) with 0. rewrite Z.mul_0_r, Z.add_0_r.
    apply Z.mod_small. apply Hg. exact Hj.
  Qed.

  Lemma su_step g a b j : in_grid dims g -> (j < nd)%nat ->
    (forall i, (i < nd)%nat -> nth i b 0%nat = if Nat.eqb i j then S (nth i a 0%nat) else nth i a 0%nat) ->
    steps_upwind ar dims v (neighbour dims g j (s j)) a = steps_upwind ar dims v g b.
  Proof using Hp.
    intros Hg Hj Hb. pose proof (proj1 (in_grid_nth dims g) Hg) as [L _].
    pose proof (proj1 (in_grid_nth dims _) (neighbour_in dims g j (s j) Hp Hg)) as [L' _].
    apply (nth_ext' 0); [rewrite !su_length; auto|]. rewrite su_length by auto. intros i Hi. rewrite !su_nth by auto.
    unfold neighbour. rewrite wrap_unit by auto. rewrite upd_nth by (rewrite L; auto). rewrite (Hb i Hi).
    destruct (Nat.eqb_spec i j) as [->|]; [|reflexivity]. rewrite Zplus_mod_idemp_l. f_equal. rewrite Nat2Z.inj_succ. ring.
  Qed.
End Cells.

Lemma sum_upd_S a j : (j < length a)%nat -> list_sum (upd a j (S (nth j a 0%nat))) = S (list_sum a).
Proof.
  revert j; induction a as [|x a IH]; intros j Hj; [simpl in Hj; lia|]. destruct j as [|j].
  - reflexivity.
  - cbn [upd nth]. change (list_sum (x :: ?l)) with (x + list_sum l)%nat. rewrite IH by (simpl in Hj; lia). lia.
Qed.

(** ** C83 *)

(** In any arithmetic, after n steps a cell holds what it would hold from any other initial field that agrees on the cells at
    most n cells upwind. *)
Theorem C83_dependence {D} (ar : arith D) dims v lengths u w G H dt n g :
  up_args dims v lengths -> short_axes dims -> up_object ar dims v lengths u -> up_object ar dims v lengths w ->
  holds u dims G -> holds w dims H -> in_grid dims g ->
  (forall a, length a = length dims -> Z.of_nat (list_sum a) <= Z.max 0 n ->
     G (steps_upwind ar dims v g a) = H (steps_upwind ar dims v g a)) ->
  exists u' w' G' H', up_advect ar (vlen dims) u n dt = Ok u' /\ up_advect ar (vlen dims) w n dt = Ok w' /\
    holds u' dims G' /\ holds w' dims H' /\ G' g = H' g.
Proof.
  intros Ha Hsh Hu Hw HG HH Hg Heq.
  destruct (C42_advect ar _ _ _ _ _ dt n Ha Hsh Hu HG) as (u' & Eu & _ & Hu').
  destruct (C42_advect ar _ _ _ _ _ dt n Ha Hsh Hw HH) as (w' & Ew & _ & Hw').
  eexists u', w', _, _. split; [exact Eu|]. split; [exact Ew|]. split; [exact Hu'|]. split; [exact Hw'|].
  assert (Hp : pos_axes dims) by exact (proj1 (proj2 (proj2 (proj1 Ha)))). clear u u' w w' Hu Hw HG HH Eu Ew Hu' Hw'.
  set (k := Z.to_nat n). assert (Hk : forall a, length a = length dims -> (list_sum a <= k)%nat ->
     G (steps_upwind ar dims v g a) = H (steps_upwind ar dims v g a)) by (intros a L Hs; apply Heq; [exact L|unfold k in Hs; lia]).
  clearbody k. clear Heq. revert g Hg Hk. induction k as [|k IH]; intros g Hg Hk; cbn [upwind_iter].
  - specialize (Hk (repeat 0%nat (length dims)) (repeat_length _ _)). rewrite su_stay in Hk by (auto; intros; apply nth_repeat).
    apply Hk. clear. induction (length dims); [simpl; lia|]. exact IHn.
  - unfold upwind_formula. rewrite (IH g Hg).
    2: { intros a L Hs. apply Hk; [exact L|lia]. }
    generalize (upwind_iter ar k dims v lengths dt H g) at 2 4 as x.
    assert (Hl : forall j, In j (seq 0 (length dims)) -> (j < length dims)%nat) by (intros j Hj; apply in_seq in Hj; lia).
    revert Hl. generalize (seq 0 (length dims)) as l. induction l as [|j l IHl]; intros Hl x; [reflexivity|]. cbn [fold_left].
    assert (Hj : (j < length dims)%nat) by (apply Hl; left; reflexivity).
    rewrite (IH (neighbour dims g j _)); [apply IHl; intros i Hi; apply Hl; right; exact Hi|apply neighbour_in; auto|].
    intros a L Hs. rewrite (su_step ar dims v Hp g a (upd a j (S (nth j a 0%nat))) j Hg Hj).
    + apply Hk; [rewrite upd_length; exact L|]. rewrite sum_upd_S by (rewrite L; exact Hj). lia.
    + intros i Hi. rewrite upd_nth by (rewrite L; exact Hj). destruct (Nat.eqb_spec i j) as [->|]; reflexivity.
Qed.
Print Assumptions C83_dependence.

(** A background value that a step leaves alone (any constant in exact arithmetic; in double precision, zero when the
    coefficients are finite). *)
Definition steady {D} (ar : arith D) (dims : list Z) (v lengths : list D) (dt b : D) : Prop :=
  forall j, (j < length dims)%nat -> a_sub ar b (a_mul ar (courant ar dims v lengths dt j) (a_sub ar b b)) = b.

(** A cell with nothing but background at most n cells upwind holds the background value after n steps. *)
Theorem C83_untouched {D} (ar : arith D) dims v lengths u G dt n g b :
  up_args dims v lengths -> short_axes dims -> up_object ar dims v lengths u -> holds u dims G -> in_grid dims g ->
  steady ar dims v lengths dt b ->
  (forall a, length a = length dims -> Z.of_nat (list_sum a) <= Z.max 0 n -> G (steps_upwind ar dims v g a) = b) ->
  exists u' G', up_advect ar (vlen dims) u n dt = Ok u' /\ holds u' dims G' /\ G' g = b.
Proof.
  intros Ha Hsh Hu HG Hg Hst Hb.
  destruct (object_field ar _ _ _ _ Ha Hu) as (G0 & old & Lo & _).
  pose proof (of_object ar dims v lengths (fun _ => b) old Ha Lo) as Hw.
  destruct (C42_advect ar _ _ _ _ _ dt n Ha Hsh Hw (eq_refl _)) as (w1 & Ew1 & _ & Hw1).
  destruct (C83_dependence ar dims v lengths u _ G (fun _ => b) dt n g Ha Hsh Hu Hw HG eq_refl Hg Hb) as (u' & w' & G' & H' & Eu & Ew & Hu' & Hw' & E).
  exists u', G'. split; [exact Eu|]. split; [exact Hu'|]. rewrite E. rewrite Ew in Ew1. injection Ew1 as <-.
  assert (EH : forall h, in_grid dims h -> H' h = b).
  { intros h Hh. apply in_cells in Hh. unfold holds in Hw', Hw1. rewrite Hw' in Hw1.
    assert (E2 : H' h = upwind_iter ar (Z.to_nat n) dims v lengths dt (fun _ => b) h).
    { clear - Hw1 Hh. induction (cells dims) as [|c l IH]; [destruct Hh|]. cbn [map] in Hw1. injection Hw1 as E1 E2.
      destruct Hh as [<-|Hh]; auto. }
    rewrite E2. clear - Hst. generalize (Z.to_nat n) as k. intros k. revert h. induction k as [|k IH]; intros h; [reflexivity|]. cbn [upwind_iter].
    unfold upwind_formula. rewrite IH. assert (Hl : forall j, In j (seq 0 (length dims)) -> (j < length dims)%nat) by (intros j Hj; apply in_seq in Hj; lia).
    induction (seq 0 (length dims)) as [|j l IHl]; [reflexivity|]. cbn [fold_left]. rewrite IH. rewrite Hst by (apply Hl; left; reflexivity).
    apply IHl. intros i Hi. apply Hl. right. exact Hi. }
  apply EH. exact Hg.
Qed.
Print Assumptions C83_untouched.

Lemma steady_exact {D} (ar : arith D) dims v lengths dt b : exact_arith ar -> steady ar dims v lengths dt b.
Proof.
  intros HR j _. pose proof (formula_const ar HR [1%Z] v lengths dt b [0%Z]) as _.
  assert (E : a_sub ar b b = a_zero ar) by (rewrite (Rsub_def HR); apply (Ropp_def HR)).
  rewrite E. rewrite (Rmul_comm HR).
  assert (E0 : forall x, a_mul ar (a_zero ar) x = a_zero ar).
  { intros x. assert (Q : a_add ar (a_mul ar (a_zero ar) x) (a_mul ar (a_zero ar) x) = a_mul ar (a_zero ar) x)
      by (rewrite <- (Rdistr_l HR), (Radd_0_l HR); reflexivity).
    set (y := a_mul ar (a_zero ar) x) in *.
    rewrite <- (Radd_0_l HR y) at 1. rewrite <- (Ropp_def HR y). rewrite (Radd_comm HR y (a_neg ar y)), <- (Radd_assoc HR), Q.
    rewrite (Radd_comm HR). reflexivity. }
  rewrite E0, (Rsub_def HR). rewrite <- (Radd_0_l HR (a_neg ar (a_zero ar))), (Ropp_def HR), (Radd_comm HR). apply (Radd_0_l HR).
Qed.

Lemma steady_double dims v lengths dt : (forall j, (j < length dims)%nat -> exists r, double_value (courant arD dims v lengths dt j) r) ->
  steady arD dims v lengths dt (a_dec arD 0 1).
Proof.
  intros H j Hj. destruct (H j Hj) as (r & _ & Hf & _). destruct (courant arD dims v lengths dt j) as [s|s| |s m e]; try discriminate Hf.
  - destruct s; vm_compute; reflexivity.
  - destruct s; vm_compute; reflexivity.
Qed.

(** The program upwind in double precision: the cells further than the number of steps from the corner hold +0 exactly. *)
Theorem C83_driver dsqrt n steps doVtk doStd : 1 <= n -> n * n * n < 2 ^ 31 ->
  exists r G, up_body arD dsqrt n steps doVtk doStd = Ok r /\ up_f (ur_up r) = map G (cells [n; n; n]) /\
    forall i j k, 0 <= i < n -> 0 <= j < n -> 0 <= k < n -> Z.max 0 steps < i + j + k -> G [i; j; k] = S754_zero false.
Proof.
  intros H1 H2. destruct (C42_driver arD dsqrt n steps doVtk doStd ltac:(lia) H2) as (r & dt & E & Edt & Ef & _).
  set (one := a_dec arD 10 1) in *. set (o3 := [one; one; one]) in *. set (dims := [n; n; n]) in *.
  eexists r, _. split; [exact E|]. split; [exact Ef|]. intros i j k Hi Hj Hk Hs.
  destruct (driver_dt n H1 H2) as (dt' & Edt' & HC & _).
  assert (Hdt : dt' = dt) by (change (up_dt arD o3 o3 dims = Ok dt') in Edt'; congruence). subst dt'.
  pose proof (driver_args n H1 H2) as Ha. change (up_args dims o3 o3) in Ha.
  assert (Hsh : short_axes dims) by (intros [|[|[|q]]] Hq; simpl in *; nia).
  destruct (C42_constructor arD dims o3 o3 Ha) as (u & _ & Hu & HG).
  assert (Hg : in_grid dims [i; j; k]) by (apply in_grid_nth; split; [reflexivity|]; intros [|[|[|q]]] Hq; simpl in *; lia).
  destruct (C83_untouched arD dims o3 o3 u (first_cell arD dims) dt steps [i; j; k] (a_dec arD 0 1) Ha Hsh Hu HG Hg) as (u' & G' & Eu & Hh' & EG).
  - apply steady_double. intros q Hq. destruct (HC q Hq) as (c & V & _). exists c. exact V.
  - intros a La Hsum. unfold first_cell. destruct (list_eq_dec _ _ _) as [E0|_]; [exfalso|reflexivity].
    assert (Es : forall q, (q < 3)%nat -> upwind_side arD (axis_velocity arD o3 q) = -1)
      by (intros [|[|[|q]]] Hq; [vm_compute; reflexivity..|lia]).
    assert (Hnth : forall q, (q < 3)%nat -> (nth q [i; j; k] 0 - Z.of_nat (nth q a 0%nat)) mod n = 0).
    { intros q Hq. pose proof (f_equal (fun l => nth q l 0) E0) as Q. cbv beta in Q. rewrite su_nth in Q by auto. rewrite Es in Q by auto.
      rewrite nth_repeat in Q. rewrite <- Q. destruct q as [|[|[|q]]]; [| | |lia]; cbn [nth dims]; f_equal; lia. }
    destruct a as [|a0 [|a1 [|a2 [|]]]]; try discriminate La. unfold list_sum in Hsum. cbn [fold_right] in Hsum.
    assert (Hle : forall x b, 0 <= x < n -> (x - Z.of_nat b) mod n = 0 -> x <= Z.of_nat b).
    { intros x b Hx Hm. destruct (Z.le_gt_cases x (Z.of_nat b)) as [|Hlt]; auto. rewrite Z.mod_small in Hm by lia. lia. }
    pose proof (Hle i a0 Hi (Hnth 0%nat ltac:(lia))). pose proof (Hle j a1 Hj (Hnth 1%nat ltac:(lia))). pose proof (Hle k a2 Hk (Hnth 2%nat ltac:(lia))). lia.
  - destruct (C42_advect arD _ _ _ _ _ dt steps Ha Hsh Hu HG) as (u2 & Eu2 & _ & Hh2). rewrite Eu in Eu2. injection Eu2 as <-.
    unfold holds in Hh', Hh2. rewrite Hh' in Hh2. apply in_cells in Hg.
    assert (E2 : G' [i; j; k] = upwind_iter arD (Z.to_nat steps) dims o3 o3 dt (first_cell arD dims) [i; j; k]).
    { clear - Hh2 Hg. induction (cells dims) as [|c l IH]; [destruct Hg|]. cbn [map] in Hh2. injection Hh2 as E1 E2.
      destruct Hg as [<-|Hg]; auto. }
    rewrite <- E2, EG. reflexivity.
Qed.
Print Assumptions C83_driver.

(** ** Examples *)

(** One axis of five cells, velocity to the right, one step: cell 2 depends on cells 2 and 1 only. *)
Example C83_example : let G := fun g : list Z => if Z.eq_dec (nth 0 g 0) 4 then 7%R else 1%R in let H := fun _ : list Z => 1%R in
  up_args [5] [1%R] [1%R] /\ short_axes [5] /\ in_grid [5] [2] /\ G [4] <> H [4] /\
  (forall a, length a = 1%nat -> Z.of_nat (list_sum a) <= Z.max 0 1 ->
     G (steps_upwind arR [5] [1%R] [2] a) = H (steps_upwind arR [5] [1%R] [2] a)).
Proof.
  cbv zeta. split; [|split; [|split; [|split]]].
  - repeat split; try discriminate; try reflexivity. intros [|j] Hj; simpl in *; lia.
  - intros [|j] Hj; simpl in *; lia.
  - apply in_grid_nth. split; [reflexivity|]. intros [|j] Hj; simpl in *; lia.
  - simpl. lra.
  - intros [|x [|y a]] L Hs; try discriminate. rewrite su_nth by auto. unfold list_sum in Hs. cbn [fold_right nth length] in *.
    assert (Es : upwind_side arR (axis_velocity arR [1%R] 0) = -1).
    { unfold upwind_side, axis_velocity. cbn [nth arR a_lt a_dec]. replace (0 / powerRZ 10 1)%R with 0%R by (simpl; lra).
      destruct (Rlt_dec 1 0); [lra|reflexivity]. }
    rewrite Es. assert (Hx : x = 0%nat \/ x = 1%nat) by lia. destruct Hx as [-> | ->]; reflexivity.
Qed.
Example C83_steady : steady arD [5] [a_ofZ arD 1] [a_ofZ arD 1] (a_dec arD 1 1) (a_dec arD 0 1).
Proof. intros [|j] Hj; [vm_compute; reflexivity|simpl in Hj; lia]. Qed.
(** 128 cells along each axis, the default of 10 steps: cell (4, 4, 3) is still exactly zero. *)
Example C83_default : exists r G, up_body arD (fun x => x) 128 10 false false = Ok r /\ up_f (ur_up r) = map G (cells [128; 128; 128]) /\
  G [4; 4; 3] = S754_zero false.
Proof.
  destruct (C83_driver (fun x => x) 128 10 false false ltac:(lia) ltac:(lia)) as (r & G & E & Ef & H). exists r, G.
  split; [exact E|]. split; [exact Ef|]. apply H; lia.
Qed.
