(** * The field of upwindMpi in double precision against exact arithmetic: property C95 *)
From Coq Require Import Reals ZArith Znumtheory Lia Lra Psatz Floats.SpecFloat List Permutation.
From Flocq Require Import Core BinarySingleNaN.
From Verif Require Import Cpp MaiSpec Radix MaiProof CdModel CdSpec CdProps FilterModel FilterSpec FilterProof FilterSum FilterProg FilterProps RealArith UpModel UpSpec UpProof UpExact UpMpiModel UpMpiSpec UpMpiProof UpMpiProps
  Ieee Double DblSpec DblProof DblField DblSten DblProps UmDblProps RoundProof RoundProps StenGap FortRoundProps LapSpec LapProof StdProof.
From Coq Require Import List.
Import ListNotations.
Local Open Scope R_scope.
Local Arguments prodZ : simpl never.
Local Arguments Z.of_nat : simpl never.

(** The weights the driver means: 1/10 for each neighbour and 7/10 for the cell itself. *)
Definition um_exact (p : list Z * spec_float) : R := if list_eq_dec Z.eq_dec (fst p) [0; 0; 0]%Z then 7 / 10 else 1 / 10.

Lemma um_exact_list : map (fun p => (fst p, um_exact p)) um_weights = [([-1; 0; 0]%Z, 1 / 10); ([0; -1; 0]%Z, 1 / 10); ([0; 0; -1]%Z, 1 / 10); ([0; 0; 0]%Z, 7 / 10)].
Proof. reflexivity. Qed.
Lemma um_exact_close : rsum (map (fun p => Rabs (SF2R radix2 (snd p) - um_exact p)) um_weights) <= eps.
Proof.
  unfold um_weights. cbn [map snd fst]. rewrite (fmt_val _ _ dv_tenth'), (fmt_val _ _ dv_seven). unfold um_exact. cbn [fst].
  repeat match goal with |- context [list_eq_dec ?a ?b ?c] => destruct (list_eq_dec a b c) as [?|?]; try congruence end.
  clear. unfold rsum. cbn [fold_right].
  assert (A : Rabs (7205759403792794 * / 2 ^ 56 - 1 / 10) <= / 10 * eps) by (unfold eps; apply Rabs_le; simpl; lra).
  assert (B : Rabs (6305039478318695 * / 2 ^ 53 - 7 / 10) <= 7 / 10 * eps) by (unfold eps; apply Rabs_le; simpl; lra).
  pose proof eps_small. lra.
Qed.

Lemma um_exact_field m k : (0 < m)%Z -> forall g, in_grid [m; m; m] g ->
  stencil_iter arR k [m; m; m] (map (fun p => (fst p, um_exact p)) um_weights) start g = exact_field m k g.
Proof.
  intros Hm. induction k as [|k IH]; intros g Hg; [reflexivity|]. unfold exact_field in *. cbn [stencil_iter coef_iter].
  assert (Hp : forall j, (j < length [m; m; m])%nat -> (0 < nth j [m; m; m] 0)%Z) by (intros [|[|[|j]]] Hj; cbn in *; lia).
  unfold stencil_sum. rewrite um_exact_list at 1. unfold coef_formula. cbn [fst snd fold_left length seq].
  pose proof (wrap_id [m; m; m] g Hg) as E0. cbn [length repeat] in E0. rewrite E0. clear E0. cbn [arR a_add a_mul a_sub a_zero].
  assert (P : forall j, (j < 3)%nat -> in_grid [m; m; m] (neighbour [m; m; m] g j (-1))) by (intros j Hj; apply neighbour_in; [exact Hp|exact Hg]).
  rewrite (IH g Hg). change [-1; 0; 0]%Z with (unit_vec 3 0 (-1)). change [0; -1; 0]%Z with (unit_vec 3 1 (-1)). change [0; 0; -1]%Z with (unit_vec 3 2 (-1)).
  change (wrap [m; m; m] (shift g (unit_vec 3 ?j (-1)))) with (neighbour [m; m; m] g j (-1)).
  rewrite !IH by (apply P; lia). field.
Qed.

(** The program run on [sz] processes: its distributed field, put together, and the file it writes are close to the field of the serial benchmark in exact arithmetic. *)
Theorem C95_upwindMpi sz m k vtk :
  let dims := [m; m; m] in let ones := repeat (a_dec arD 10 1) 3 in
  grid_ok dims -> (1 <= sz <= 2 ^ 30)%Z -> decomposable sz dims -> (m | 2 ^ 64)%Z -> (Z.of_nat k < 2 ^ 31)%Z ->
  exists r r' G, um_body arD ones ones sz m (Z.of_nat k) vtk = Ok (Some r) /\ up_body arR sqrt m (Z.of_nat k) false false = Ok r' /\
    distributed dims G (in_pieces (um_world r)) /\ ((0 < k)%nat -> distributed dims G (out_pieces (um_world r))) /\
    (forall field, (0 < k)%nat -> um_vtk r = Some field -> field = map G (col_major [0; 0; 0]%Z dims)) /\
    within (map G (cells dims)) (up_f (ur_up r')) (8 * INR k / 2 ^ 53).
Proof.
  intros dims ones Hg Hn Hd Hm Hk.
  destruct (C49_driver_field spec_float arD ones ones sz m k vtk eq_refl eq_refl Hg Hn Hd Hm Hk)
    as (deltas & signs & dt & st & r & Eax & _ & Est & Er & Hin & Hout & Hsum & Hfin & Hvtk & Hlen). cbv zeta in *. fold dims in Hin, Hout, Hsum, Hfin, Hvtk.
  pose proof Hg as (_ & _ & Hpos & Hpr). pose proof (Hpos 0%nat ltac:(simpl; lia)) as H0. cbn [dims nth] in H0.
  assert (Ep : prodZ dims = (m * m * m)%Z) by (unfold dims; rewrite !prodZ_cons; change (prodZ []) with 1%Z; ring). rewrite Ep in Hpr.
  assert (st = um_weights) by (apply (um_stencil_doubles m deltas signs dt st H0 ltac:(lia) Hm); assumption). subst st. clear Eax Est.
  destruct (exact_driver m (Z.of_nat k) false false ltac:(lia) Hpr) as (r' & Er' & Ef'). rewrite Nat2Z.id in Ef'. fold dims in Ef'.
  set (G := stencil_iter arD k dims um_weights (origin_field arD dims)) in *. exists r, r', G.
  split; [exact Er|]. split; [exact Er'|]. split; [exact Hin|]. split; [intros K; destruct k; [lia|exact Hout]|].
  split; [intros field K Ev; rewrite Hvtk in Ev; destruct vtk; [|discriminate]; destruct k; [lia|]; injection Ev as <-; reflexivity|].
  assert (HF0 : field_is dims (origin_field arD dims) start).
  { intros g Hgr. unfold origin_field, start. change (length dims) with 3%nat. destruct (list_eq_dec _ _ _); [split; [exact (dv_ofZ 1 ltac:(reflexivity))|lra]|split; [exact (dv_ofZ 0 ltac:(reflexivity))|lra]]. }
  assert (Hl : forall off w, In (off, w) um_weights -> length off = length dims) by exact um_weights_length.
  assert (H4 : (length um_weights <= 4)%nat) by (cbn; lia).
  pose proof (sten_iter_field dims um_weights Hpos Hl um_weights_ok um_weights_one k _ _ HF0) as HF. fold G in HF.
  assert (T0 : gtotal dims start = 1).
  { unfold gtotal. change (grid_cells dims) with (col_major (repeat 0%Z (length dims)) dims). rewrite <- (rsum_perm _ _ (Permutation_map start (cells_col dims))). change (rsum (map start (cells dims))) with (total dims start).
    exact (start_total m ltac:(lia) Hpr). }
  assert (NR : INR (length (grid_cells dims)) <= 2 ^ 31).
  { change (grid_cells dims) with (col_major (repeat 0%Z (length dims)) dims). rewrite <- (Permutation_length (cells_col dims)).
    destruct (cells_number m ltac:(lia) Hpr) as [N1 N2]. fold dims in N1. rewrite N1. exact N2. }
  assert (KR : INR k <= 2 ^ 31) by (rewrite INR_IZR_INZ, pow_IZR; apply IZR_le; change (2 ^ Z.of_nat 31)%Z with (2 ^ 31)%Z; lia).
  assert (E0 : forall p, In p um_weights -> 0 <= um_exact p) by (intros p _; unfold um_exact; destruct (list_eq_dec _ _ _); lra).
  assert (E1 : rsum (map um_exact um_weights) = 1).
  { unfold um_weights, um_exact. cbn [map fst]. repeat match goal with |- context [list_eq_dec ?a ?b ?c] => destruct (list_eq_dec a b c) as [?|?]; try congruence end. unfold rsum. cbn [fold_right]. lra. }
  pose proof (sten_iter_gap dims um_weights Hpos Hl um_weights_ok um_weights_one H4 um_weights_sum um_exact E0 E1 um_exact_close k _ _ HF0 T0 NR KR) as Gp.
  rewrite Ef'. apply (within_cells dims G _ _ _ HF). replace (8 * INR k / 2 ^ 53) with (8 * INR k * eps) by reflexivity. eapply Rle_trans; [|exact Gp].
  apply Req_le. unfold gap, ggap. rewrite (rsum_perm _ _ (Permutation_map _ (cells_col dims))). change (col_major (repeat 0%Z (length dims)) dims) with (grid_cells dims).
  f_equal. apply map_ext_in. intros g Hgr. apply (in_cells' dims) in Hgr. pose proof (um_exact_field m k H0 g Hgr) as X. fold dims in X. cbv beta. rewrite X. reflexivity.
Qed.
Print Assumptions C95_upwindMpi.

(** The parallel and the serial benchmark, which do not produce the same doubles (C49_doubles_refuted), differ by at most 17 steps / 2^53, all cells taken together. *)
Theorem C95_upwindMpi_agrees dsqrt sz m k vtk doVtk doStd :
  let dims := [m; m; m] in let ones := repeat (a_dec arD 10 1) 3 in
  grid_ok dims -> (1 <= sz <= 2 ^ 30)%Z -> decomposable sz dims -> (m | 2 ^ 64)%Z -> (Z.of_nat k < 2 ^ 31)%Z ->
  exists r s G, um_body arD ones ones sz m (Z.of_nat k) vtk = Ok (Some r) /\ up_body arD dsqrt m (Z.of_nat k) doVtk doStd = Ok s /\
    distributed dims G (in_pieces (um_world r)) /\ agree (map G (cells dims)) (up_f (ur_up s)) (17 * INR k / 2 ^ 53).
Proof.
  intros dims ones Hg Hn Hd Hm Hk. destruct (C95_upwindMpi sz m k vtk Hg Hn Hd Hm Hk) as (r & r' & G & Er & X & Hin & _ & _ & W). fold dims in W, Hin.
  pose proof Hg as (_ & _ & Hpos & Hpr). pose proof (Hpos 0%nat ltac:(simpl; lia)) as H0. cbn [dims nth] in H0.
  assert (Ep : prodZ dims = (m * m * m)%Z) by (unfold dims; rewrite !prodZ_cons; change (prodZ []) with 1%Z; ring). rewrite Ep in Hpr.
  destruct (C95_upwind dsqrt m (Z.of_nat k) doVtk doStd ltac:(lia) Hpr ltac:(lia)) as (s & s' & Es & X' & W').
  destruct (exact_driver m (Z.of_nat k) doVtk doStd ltac:(lia) Hpr) as (r4 & X4 & F4). rewrite X' in X4. injection X4 as <-.
  destruct (exact_driver m (Z.of_nat k) false false ltac:(lia) Hpr) as (r5 & X5 & F5). rewrite X in X5. injection X5 as <-. rewrite F4, <- F5 in W'.
  exists r, s, G. split; [exact Er|]. split; [exact Es|]. split; [exact Hin|].
  replace (17 * INR k / 2 ^ 53) with (8 * INR k / 2 ^ 53 + 9 * IZR (Z.of_nat k) / 2 ^ 53) by (rewrite <- INR_IZR_INZ; field). exact (within_agree _ _ _ _ _ W W').
Qed.
Print Assumptions C95_upwindMpi_agrees.

(** ** Examples *)

(** Eight processes, 128 cells along each axis, 100 steps. *)
Example C95_upwindMpi_example : exists r s G, um_body arD (repeat (a_dec arD 10 1) 3) (repeat (a_dec arD 10 1) 3) 8 128 100 false = Ok (Some r) /\
  up_body arD dbl_sqrt 128 100 false false = Ok s /\ distributed [128; 128; 128]%Z G (in_pieces (um_world r)) /\
  agree (map G (cells [128; 128; 128]%Z)) (up_f (ur_up s)) (/ 5000000000000).
Proof.
  assert (Hg : grid_ok [128; 128; 128]%Z).
  { split; [discriminate|]. split; [simpl; lia|]. split; [intros [|[|[|j]]] Hj; simpl in *; lia|]. vm_compute. reflexivity. }
  assert (Hd : decomposable 8 [128; 128; 128]%Z).
  { exists [2; 2; 2]%Z. split; [reflexivity|]. split; [|reflexivity]. intros [|[|[|j]]] Hj; cbn in Hj; try lia; (split; [cbn; lia|exists 64%Z; reflexivity]). }
  destruct (C95_upwindMpi_agrees dbl_sqrt 8 128 100 false false false Hg ltac:(lia) Hd ltac:(exists (2 ^ 57)%Z; reflexivity) ltac:(reflexivity)) as (r & s & G & A & B & C & F & H & V1 & V2 & L & S).
  change (Z.of_nat 100) with 100%Z in *. exists r, s, G. do 3 (split; [assumption|]). exists F, H. do 3 (split; [assumption|]). eapply Rle_trans; [exact S|].
  replace (INR 100) with 100 by (simpl; lra). simpl. lra.
Qed.
