(** * Property C49: the MPI upwind benchmark *)
From Coq Require Import Sorted Permutation Ring_theory Ring Reals Lra QArith.
From Verif Require Import Cpp CppProof OMap MaiModel MaiSpec Radix MaiProof CdModel CdSpec CdProof CdProps CmdModel
  FilterModel FilterSpec FilterProof FilterRank FilterWorld FilterSum FilterProg FilterProps RealArith LapModel LapSpec LapProof LapProps
  UpModel UpSpec UpProof UpExact UpProps AccProof Double UpMpiModel UpMpiSpec UpMpiProof.
From Coq Require Import List.
Import ListNotations.
Local Open Scope Z_scope.
Local Arguments prodZ : simpl never.
Local Arguments Z.of_nat : simpl never.

(** ** The serial driver, for any arithmetic *)
Lemma up_std_some {D} (ar : arith D) dsqrt u : vlen (up_f u) < 2 ^ 31 -> exists s, up_std ar dsqrt u = Ok s.
Proof.
  intros H. unfold up_std. set (mean := a_div ar _ _).
  match goal with |- context [for_upto ?c ?bd ?s] => destruct (for_upto_inv (fun _ _ => True) bd c s) as (r & -> & _) end; [exact I| |].
  - intros i r Hi _. unfold vlen in *. rewrite (vget_nat (up_f u) i (a_zero ar)) by lia. cbn [bind]. rewrite int_op_ok by (unfold two31; lia).
    cbn [bind]. eauto.
  - cbn [bind]. eauto.
Qed.

Theorem C42_driver {D} (ar : arith D) dsqrt m steps doVtk doStd :
  0 < m -> m * m * m < 2 ^ 31 ->
  let one := a_dec ar 10 1 in
  exists r dt, up_body ar dsqrt m steps doVtk doStd = Ok r /\ up_dt ar [one; one; one] [one; one; one] [m; m; m] = Ok dt /\
    up_f (ur_up r) = map (upwind_iter ar (Z.to_nat steps) [m; m; m] [one; one; one] [one; one; one] dt (first_cell ar [m; m; m])) (cells [m; m; m]) /\
    ur_sum r = fold_left (a_add ar) (up_f (ur_up r)) (a_dec ar 0 1).
Proof.
  intros H1 H2 one. assert (Hm : m < 2 ^ 30) by nia.
  assert (Ep : prodZ [m; m; m] = m * m * m) by (rewrite !prodZ_cons; change (prodZ []) with 1; ring).
  assert (Ha : up_args [m; m; m] [one; one; one] [one; one; one]).
  { repeat split; try discriminate; try reflexivity; [|rewrite Ep; exact H2]. intros [|[|[|j]]] Hj; simpl in *; lia. }
  assert (Hsh : short_axes [m; m; m]) by (intros [|[|[|j]]] Hj; simpl in *; lia).
  destruct (C42_constructor ar [m; m; m] _ _ Ha) as (u & Eu & Hu & HG).
  destruct (um_axes_eq ar one one one one one one m) as (dt & Edt & _).
  destruct (C42_advect ar _ _ _ _ _ dt steps Ha Hsh Hu HG) as (u' & E & Hu' & Hh').
  assert (Sv : forall w G, up_object ar [m; m; m] [one; one; one] [one; one; one] w -> holds w [m; m; m] G -> exists r, up_saveVTK ar 3 w = Ok r).
  { intros w G Hw HwG. destruct (C52_vtk ar _ _ _ w G Ha ltac:(simpl; lia) Hw HwG) as (r & ? & ? & ? & ? & ? & ? & Er & _). exists r. exact Er. }
  destruct (Sv u _ Hu HG) as (r0 & Er0). destruct (Sv u' _ Hu' Hh') as (r1 & Er1).
  destruct (up_std_some ar dsqrt u') as (s & Es); [rewrite Hh', cells_vlen by apply Ha; rewrite Ep; exact H2|].
  exists (mkUpResult u' (up_checksum ar u') (if doStd then Some s else None) (if doVtk then Some r0 else None) (if doVtk then Some r1 else None)), dt.
  split.
  - unfold up_body. rewrite u64_id by (unfold two64; lia). change (repeat m 3) with [m; m; m]. fold one. change (repeat one 3) with [one; one; one].
    rewrite Edt. cbn [bind]. change 3 with (vlen [m; m; m]) at 1. rewrite Eu. cbn [bind].
    rewrite Er0. change 3 with (vlen [m; m; m]). destruct doVtk, doStd; cbn [bind]; rewrite E; cbn [bind]; rewrite ?Es; cbn [bind];
      change (vlen [m; m; m]) with 3; rewrite ?Er1; reflexivity.
  - split; [exact Edt|]. cbn [ur_up ur_sum]. split; [exact Hh'|reflexivity].
Qed.
Print Assumptions C42_driver.

(** ** The MPI driver, for any arithmetic: repeated application of its stencil to the initial field *)
Theorem C49_driver_field :
  forall D (ar : arith D) v lengths sz m k vtk,
    let dims := [m; m; m] in
    length v = 3%nat -> length lengths = 3%nat ->
    grid_ok dims -> 1 <= sz <= 2 ^ 30 -> decomposable sz dims -> (m | 2 ^ 64) -> Z.of_nat k < 2 ^ 31 ->
    exists deltas signs dt st r,
      um_axes ar v lengths 3 m = Ok (deltas, signs, dt) /\ up_dt ar v lengths dims = Ok dt /\
      um_stencil ar 3 v deltas signs dt = Ok st /\
      um_body ar v lengths sz m (Z.of_nat k) vtk = Ok (Some r) /\
      let F i := stencil_iter ar i dims st (origin_field ar dims) in
      let out := match k with O => fun _ => a_zero ar | _ => F k end in
      let boxes := map fst (in_pieces (um_world r)) in
      distributed dims (F k) (in_pieces (um_world r)) /\ distributed dims out (out_pieces (um_world r)) /\
      um_sums r = map (fun i => (box_sums ar (F i) boxes, box_sums ar (F (S i)) boxes)) (seq 0 k) /\
      um_final r = box_sums ar out boxes /\
      um_vtk r = (if vtk : bool then Some (map out (col_major [0; 0; 0] dims)) else None) /\
      length boxes = Z.to_nat sz.
Proof.
  intros D ar v lengths sz m k vtk dims Lv Ll Hg Hn Hd Hm Hk.
  destruct v as [|v0 [|v1 [|v2 [|? ?]]]]; try discriminate Lv. destruct lengths as [|l0 [|l1 [|l2 [|? ?]]]]; try discriminate Ll.
  destruct (um_axes_eq ar v0 v1 v2 l0 l1 l2 m) as (dt & Edt & Eax).
  set (st := insert_all (um_entries ar v0 v1 v2 l0 l1 l2 m dt) []).
  set (x0 := repeat (a_dec ar 0 1) (Z.to_nat 3)). set (x1 := [l0; l1; l2]) in *.
  assert (Hs : setting sz dims x0 x1 st) by (split; [auto|]; split; [auto|]; split; [auto|]; split; [reflexivity|]; split; [reflexivity|]; apply um_axis).
  assert (Hp : periodic_stencil dims st) by (intros off c _ [|[|[|j]]] Hj _; try exact Hm; simpl in Hj; lia).
  destruct (start_inv ar dims sz x0 x1 st Hs (SetByIndices (um_init ar)) [] Hp I) as (b & w0 & w & Hb & E0 & E & H).
  destruct (new_inv ar dims sz x0 x1 st Hs) as (b' & w0' & Hb' & _ & E0' & Hw0 & _).
  destruct Hs as (_ & _ & _ & L0 & L1 & Hst). destruct (axis_good dims b st Hst) as (Hmap & Hoff).
  unfold final in H. cbn [fold_left meaning fst snd] in H.
  apply (wholds_ext dims sz b st x0 x1 Hg Hn Hb _ (origin_field ar dims) _ (fun _ => a_zero ar)) in H; [|intros; apply (um_init_eq ar m); auto|reflexivity].
  destruct (um_loop_ok ar dims sz b st x0 x1 Hg Hn Hb Hoff Hp _ _ w k H) as (w' & El & H').
  set (out := match k with O => fun _ => a_zero ar | _ => stencil_iter ar k dims st (origin_field ar dims) end) in *.
  pose proof (wholds_wfok _ _ _ _ _ _ _ _ _ H') as Hw.
  pose proof (saveVTK_ok ar dims sz b st x0 x1 Hg Hn Hb _ w' Hw) as EV.
  pose proof (wfok_boxes dims sz b st x0 x1 Hn _ w' Hw) as EB.
  eexists _, _, dt, st, (mkUm w' (if vtk then Some (map out (col_major [0; 0; 0] dims)) else None) _ (box_sums ar out (um_boxes dims sz b))).
  split; [exact Eax|]. split; [exact Edt|]. split; [apply um_stencil_eq|]. split.
  - assert (Hmr : 0 < m < 2 ^ 31).
    { destruct Hg as (_ & _ & Hpos & Hpr). pose proof (Hpos 0%nat ltac:(simpl; lia)) as H0. cbn [dims nth] in H0.
      assert (Ep : prodZ [m; m; m] = m * m * m) by (rewrite !prodZ_cons; change (prodZ []) with 1; ring). unfold dims in Hpr. rewrite Ep in Hpr. nia. }
    unfold um_body. rewrite (u64_id m) by (unfold two64; lia). rewrite (u64_id (Z.of_nat k)) by (unfold two64; lia).
    rewrite Eax. cbn [bind]. rewrite um_stencil_eq. cbn [bind]. change (repeat m (Z.to_nat 3)) with dims. fold st x0 x1. rewrite E0. cbn [bind].
    rewrite E0 in E0'. inversion E0'; subst w0'. destruct Hw0 as (Lw & Hw0).
    destruct w0 as [|f w0]; [cbn [length] in Lw; lia|].
    change (vget (f :: w0) 0) with (Ok f). cbn [bind]. unfold filter_isDecompValid.
    rewrite (fo_valid _ _ _ _ _ _ _ _ _ (proj1 (Hw0 0%nat f eq_refl))). cbn [negb].
    unfold run in E. cbn [for_each run_op] in E. destruct (world_setInDataByIndices (f :: w0) (um_init ar)) as [w1|u]; [|discriminate].
    cbn [bind] in E |- *. inversion E; subst w1. rewrite El. cbn [bind].
    rewrite (wholds_sums ar dims sz b st x0 x1 Hg Hn Hb _ _ w' false H'). rewrite EV. destruct vtk; reflexivity.
  - cbv zeta. cbn [um_world um_vtk um_sums um_final]. fold out. unfold in_pieces at 2 3 4 5. rewrite map_map. cbn [fst]. rewrite EB.
    split; [apply (in_ok dims sz b st x0 x1 Hg Hn Hb _ out); auto|]. split; [apply (out_ok dims sz b st x0 x1 Hg Hn Hb); auto|].
    split; [reflexivity|]. split; [reflexivity|]. split; [reflexivity|]. unfold um_boxes. rewrite map_length, seq_length. reflexivity.
Qed.
Print Assumptions C49_driver_field.

(** ** Over the real numbers the stencil is the upwind formula, whatever the velocities and lengths *)
Theorem C49_stencil_is_upwind :
  forall v lengths m, length v = 3%nat -> length lengths = 3%nat ->
    exists deltas signs dt st,
      um_axes arR v lengths 3 m = Ok (deltas, signs, dt) /\ up_dt arR v lengths [m; m; m] = Ok dt /\
      um_stencil arR 3 v deltas signs dt = Ok st /\
      forall G g, in_grid [m; m; m] g -> stencil_sum arR [m; m; m] st G g = upwind_formula arR [m; m; m] v lengths dt G g.
Proof.
  intros v lengths m Lv Ll.
  destruct v as [|v0 [|v1 [|v2 [|? ?]]]]; try discriminate Lv. destruct lengths as [|l0 [|l1 [|l2 [|? ?]]]]; try discriminate Ll.
  destruct (um_axes_eq arR v0 v1 v2 l0 l1 l2 m) as (dt & Edt & Eax). eexists _, _, dt, _. split; [exact Eax|]. split; [exact Edt|].
  split; [apply um_stencil_eq|]. intros G g Hg. apply um_real, Hg.
Qed.
Print Assumptions C49_stencil_is_upwind.

Lemma um_iter_real v0 v1 v2 l0 l1 l2 dt m i : grid_ok [m; m; m] -> forall g, in_grid [m; m; m] g ->
  stencil_iter arR i [m; m; m] (insert_all (um_entries arR v0 v1 v2 l0 l1 l2 m dt) []) (origin_field arR [m; m; m]) g =
  upwind_iter arR i [m; m; m] [v0; v1; v2] [l0; l1; l2] dt (first_cell arR [m; m; m]) g.
Proof.
  intros Hg. induction i as [|i IH]; intros g Hgr.
  - cbn [stencil_iter upwind_iter]. unfold origin_field, first_cell. destruct (list_eq_dec _ _ _); [reflexivity|]. cbn [arR a_ofZ a_dec]. simpl. lra.
  - cbn [stencil_iter upwind_iter]. rewrite um_real by exact Hgr. apply upwind_formula_ext; [exact (proj1 (proj2 (proj2 Hg)))|exact IH|exact Hgr].
Qed.

(** ** The fields of the two benchmarks are the same *)
Theorem C49_same_as_upwind :
  forall sz m k vtk doVtk doStd,
    let dims := [m; m; m] in let ones := repeat (a_dec arR 10 1) 3 in
    grid_ok dims -> 1 <= sz <= 2 ^ 30 -> decomposable sz dims -> (m | 2 ^ 64) -> Z.of_nat k < 2 ^ 31 ->
    exists r s G,
      um_body arR ones ones sz m (Z.of_nat k) vtk = Ok (Some r) /\
      up_body arR sqrt m (Z.of_nat k) doVtk doStd = Ok s /\
      up_f (ur_up s) = map G (cells dims) /\
      distributed dims G (in_pieces (um_world r)) /\
      ((0 < k)%nat -> distributed dims G (out_pieces (um_world r)) /\
         um_vtk r = if vtk : bool then Some (map G (col_major [0; 0; 0] dims)) else None) /\
      length (um_sums r) = k /\
      (forall a b x, In (a, b) (um_sums r) -> reduction Rplus a x \/ reduction Rplus b x -> x = 1%R) /\
      (forall x, reduction Rplus (um_final r) x -> x = if Nat.eqb k 0 then 0%R else 1%R) /\
      (forall g, in_grid dims g -> 0 <= G g <= 1)%R.
Proof.
  intros sz m k vtk doVtk doStd dims ones Hg Hn Hd Hm Hk.
  set (one := a_dec arR 10 1) in *. change ones with [one; one; one].
  assert (Ep : prodZ dims = m * m * m) by (unfold dims; rewrite !prodZ_cons; change (prodZ []) with 1; ring).
  assert (Hmp : 0 < m) by (apply (proj1 (proj2 (proj2 Hg)) 0%nat); simpl; lia).
  assert (Hm3 : m * m * m < 2 ^ 31) by (rewrite <- Ep; apply Hg).
  destruct (um_axes_eq arR one one one one one one m) as (dt & Edt & Eax).
  set (st := insert_all (um_entries arR one one one one one one m dt) []).
  set (U := fun i => upwind_iter arR i dims [one; one; one] [one; one; one] dt (first_cell arR dims)).
  assert (Hser : forall i doVtk doStd, exists s, up_body arR sqrt m (Z.of_nat i) doVtk doStd = Ok s /\ up_f (ur_up s) = map (U i) (cells dims) /\
     sum_of arR (map (U i) (cells dims)) = 1%R /\ forall g, in_grid dims g -> (0 <= U i g <= 1)%R).
  { intros i dv ds. destruct (C42_driver arR sqrt m (Z.of_nat i) dv ds Hmp Hm3) as (s & dt' & E & Edt' & Ef & Es). fold one in Edt', Ef.
    rewrite Edt in Edt'. inversion Edt'; subst dt'. rewrite Nat2Z.id in Ef. fold dims in Ef. change (up_f (ur_up s) = map (U i) (cells dims)) in Ef.
    destruct (C54_driver m (Z.of_nat i) dv ds ltac:(lia) Hm3) as (s' & dt' & E' & _ & _ & _ & E1 & _ & Hb). rewrite E in E'. inversion E'; subst s'.
    exists s. split; [exact E|]. split; [exact Ef|]. split.
    - rewrite <- Ef, <- E1, Es, (fold_add arR (en_ring _ arR_exact)). cbn [arR a_add a_dec]. simpl. lra.
    - intros g Hgr. apply Hb. rewrite Ef. apply in_map, UpProof.in_cells, Hgr. }
  destruct (Hser k doVtk doStd) as (s & E & Ef & _ & Hb).
  destruct (C49_driver_field R arR [one; one; one] [one; one; one] sz m k vtk eq_refl eq_refl Hg Hn Hd Hm Hk)
    as (deltas & signs & dt' & st' & r & Eax' & _ & Est & Er & Hin & Hout & Hsum & Hfin & Hvtk & _).
  rewrite Eax in Eax'. injection Eax' as <- <- <-.
  assert (Est' : Ok st' = Ok st) by (unfold st; rewrite <- (um_stencil_eq arR one one one one one one m dt); symmetry; exact Est).
  assert (st' = st) by congruence. subst st'. clear Est Est'.
  cbv zeta in *. fold dims in Hin, Hout, Hsum, Hfin, Hvtk.
  assert (HU : forall i g, in_grid dims g -> stencil_iter arR i dims st (origin_field arR dims) g = U i g) by (intros; apply um_iter_real; auto).
  assert (Htot : forall i x, reduction Rplus (box_sums arR (stencil_iter arR i dims st (origin_field arR dims)) (map fst (in_pieces (um_world r)))) x -> x = 1%R).
  { intros i x Hx. rewrite (box_sums_total arR dims _ _ (en_ring _ arR_exact) (proj1 Hin) x Hx).
    rewrite (map_ext_in _ (U i)).
    - destruct (Hser i false false) as (_ & _ & _ & E1 & _). rewrite <- E1. apply (sum_perm arR (en_ring _ arR_exact)). apply Permutation_map. symmetry. apply cells_col.
    - intros g Hgr. apply HU. apply (in_nested_loops false) in Hgr; [exact Hgr|]. rewrite repeat_length. reflexivity. }
  exists r, s, (U k). split; [exact Er|]. split; [exact E|]. split; [exact Ef|].
  split; [apply (distributed_ext dims _ (U k) _ (HU k)); exact Hin|]. split.
  { intros Hk0. destruct k as [|k]; [lia|]. split; [apply (distributed_ext dims _ (U (S k)) _ (HU (S k))); exact Hout|].
    rewrite Hvtk. destruct vtk; [|reflexivity]. f_equal. apply map_ext_in. intros g Hgr. apply HU.
    apply (in_nested_loops false) in Hgr; [exact Hgr|]. reflexivity. }
  split; [rewrite Hsum, map_length, seq_length; reflexivity|]. split.
  { intros a b x Hi Hx. rewrite Hsum in Hi. apply in_map_iff in Hi as (i & Ei & _). injection Ei as <- <-. destruct Hx as [Hx|Hx]; [apply (Htot i)|apply (Htot (S i))]; exact Hx. }
  split; [|exact Hb]. intros x Hx. rewrite Hfin in Hx. destruct k as [|k]; cbn [Nat.eqb].
  - rewrite (box_sums_total arR dims _ _ (en_ring _ arR_exact) (proj1 Hin) x Hx). apply (sum_zero arR (en_ring _ arR_exact)).
  - apply (Htot (S k)), Hx.
Qed.
Print Assumptions C49_same_as_upwind.

(** No decomposition: the benchmark stops after its message. *)
Theorem C49_driver_invalid :
  forall D (ar : arith D) v lengths sz m steps vtk,
    length v = 3%nat -> length lengths = 3%nat ->
    grid_ok [m; m; m] -> 1 <= sz <= 2 ^ 30 -> ~ decomposable sz [m; m; m] ->
    um_body ar v lengths sz m steps vtk = Ok None.
Proof.
  intros D ar v lengths sz m steps vtk Lv Ll Hg Hn Hd.
  destruct v as [|v0 [|v1 [|v2 [|? ?]]]]; try discriminate Lv. destruct lengths as [|l0 [|l1 [|l2 [|? ?]]]]; try discriminate Ll.
  destruct (square_nd m 3 Hg) as (_ & Hmr). destruct (um_axes_eq ar v0 v1 v2 l0 l1 l2 m) as (dt & _ & Eax).
  unfold um_body. rewrite (u64_id m) by (unfold two64; lia). rewrite Eax. cbn [bind]. rewrite um_stencil_eq. cbn [bind].
  destruct (invalid_world ar sz [m; m; m] (repeat (a_dec ar 0 1) (Z.to_nat 3)) [l0; l1; l2] (insert_all (um_entries ar v0 v1 v2 l0 l1 l2 m dt) []) Hg Hn Hd)
    as (f & w & E & Hv & _). change (repeat m (Z.to_nat 3)) with [m; m; m]. rewrite E. cbn [bind]. change (vget (f :: w) 0) with (Ok f). cbn [bind]. rewrite Hv. reflexivity.
Qed.
Print Assumptions C49_driver_invalid.

(** ** Sizes that are no powers of two: with three cells per axis the check sum grows to 1.3, with six cells per
    axis and two processes the program reads outside its arrays; in both cases the decomposition is valid. *)
Theorem C49_other_sizes_refuted :
  (exists sz m r s G, decomposable sz [m; m; m] /\
     um_body arQ (repeat 1%Q 3) (repeat 1%Q 3) sz m 1 false = Ok (Some r) /\
     up_body arQ (fun x => x) m 1 false false = Ok s /\ up_f (ur_up s) = map G (cells [m; m; m]) /\
     ~ distributed [m; m; m] G (in_pieces (um_world r)) /\
     reduction Qplus (um_final r) (13 # 10)%Q) /\
  (exists sz m, decomposable sz [m; m; m] /\
     um_body arQ (repeat 1%Q 3) (repeat 1%Q 3) sz m 1 false = Undef OobRead).
Proof.
  assert (HD : forall n m, 1 <= n -> n < 2 ^ 31 -> grid_ok [m; m; m] -> (exists c, cd_build cd_empty n [m; m; m] = Ok (true, c)) -> decomposable n [m; m; m]).
  { intros n m Hn Hn' Hg (c & E). destruct (C05_build_iff_decomposition_exists cd_empty n [m; m; m] Hg ltac:(unfold two31; lia)) as (ok & c' & E' & H).
    rewrite E in E'. inversion E'; subst. apply H. reflexivity. }
  assert (HG : forall m, 0 < m -> m * m * m < 2 ^ 31 -> grid_ok [m; m; m]).
  { intros m H1 H2. split; [discriminate|]. split; [simpl; lia|]. split; [intros [|[|[|j]]] Hj; simpl in *; lia|].
    rewrite !prodZ_cons. change (prodZ []) with 1. lia. }
  split.
  - exists 1, 3. eexists _, _, (fun g => nth (Z.to_nat (9 * nth 0 g 0 + 3 * nth 1 g 0 + nth 2 g 0))
      [(7 # 10); (1 # 10); 0; (1 # 10); 0; 0; 0; 0; 0; (1 # 10)]%Q 0%Q).
    split; [apply HD; [lia|lia|apply HG; lia|eexists; vm_compute; reflexivity]|].
    split; [vm_compute; reflexivity|]. split; [vm_compute; reflexivity|]. split; [vm_compute; reflexivity|]. split.
    + intros (_ & H). specialize (H _ _ _ (or_introl eq_refl)). vm_compute in H. discriminate.
    + vm_compute. constructor.
  - exists 2, 6. split; [apply HD; [lia|lia|apply HG; lia|eexists; vm_compute; reflexivity]|]. vm_compute. reflexivity.
Qed.
Print Assumptions C49_other_sizes_refuted.

(** In double precision the two benchmarks differ after two steps already for two cells per axis. *)
Theorem C49_doubles_refuted :
  let ones := repeat (a_dec arD 10 1) 3 in
  exists r s x y, um_body arD ones ones 1 2 2 false = Ok (Some r) /\ up_body arD (fun x => x) 2 2 false false = Ok s /\
    vget (concat (map f_inData (um_world r))) 0 = Ok x /\ vget (up_f (ur_up s)) 0 = Ok y /\ x <> y.
Proof.
  eexists _, _, _, _. split; [vm_compute; reflexivity|]. split; [vm_compute; reflexivity|]. split; [vm_compute; reflexivity|].
  split; [vm_compute; reflexivity|]. discriminate.
Qed.
Print Assumptions C49_doubles_refuted.

(** Four cells per axis on four processes, two steps: same field as the serial benchmark, check sums one. *)
Example C49_example :
  grid_ok [4; 4; 4] /\ decomposable 4 [4; 4; 4] /\ (4 | 2 ^ 64) /\
  (r <- um_body arQ (repeat 1%Q 3) (repeat 1%Q 3) 4 4 2 true ;;
   s <- up_body arQ (fun x => x) 4 2 false false ;;
   match r with
   | Some r => Ok (length (um_world r), map (fun p => (Qred (sum_of arQ (fst p)), Qred (sum_of arQ (snd p)))) (um_sums r), sum_of arQ (um_final r),
       match um_vtk r with Some f => forallb (fun p => Qeq_bool (fst p) (snd p)) (combine f (up_f (ur_up s))) | None => false end)
   | None => Undef OobRead
   end) = Ok (4%nat, [(1%Q, 1%Q); (1%Q, 1%Q)], 1%Q, true).
Proof.
  split; [|split; [|split]].
  - split; [discriminate|]. split; [simpl; lia|]. split; [intros [|[|[|j]]] Hj; simpl in *; lia|]. reflexivity.
  - exists [2; 2; 1]. split; [reflexivity|]. split; [|reflexivity].
    intros [|[|[|j]]] Hj; cbn [nth length] in *; try lia; (split; [lia|]); [exists 2|exists 2|exists 4]; reflexivity.
  - exists (2 ^ 62). reflexivity.
  - vm_compute. reflexivity.
Qed.
