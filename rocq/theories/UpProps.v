(** * Properties of the upwind benchmark: C41-C45, C50-C52, C54, C55, C58 *)
From Coq Require Import Permutation Ring_theory Ring List Reals Lra RealField QArith String.
From Verif Require Import Cpp CppProof MaiModel MaiSpec Radix MaiProof CdModel CdSpec FilterModel FilterSpec FilterProof
  FilterSum RealArith LapSpec LapProof UpModel UpSpec UpProof UpExact.
From Coq Require Import List.
Import ListNotations.
Local Open Scope Z_scope.
Local Arguments prodZ : simpl never.
Local Arguments Z.of_nat : simpl never.

(** An object of class Upwind<length dims>: built by the constructor, the fields being arbitrary. *)
Definition up_object {D} (ar : arith D) (dims : list Z) (v lengths : list D) (u : upwind D) : Prop :=
  exists u0 f old, up_new ar (vlen dims) v lengths dims = Ok u0 /\
    vlen f = prodZ dims /\ vlen old = prodZ dims /\ u = up_setFields u0 f old.

(** The field of an object as a function of the index set: G(g) is stored at the place of cell g. *)
Definition holds {D} (u : upwind D) (dims : list Z) (G : list Z -> D) : Prop := up_f u = map G (cells dims).

(** What the theorems ask of the constructor's arguments. *)
Definition up_args {D} (dims : list Z) (v lengths : list D) : Prop :=
  up_grid dims /\ length v = length dims /\ length lengths = length dims.

Lemma up_object_of {D} (ar : arith D) dims v lengths u : up_args dims v lengths ->
  (up_object ar dims v lengths u <-> exists f old, vlen f = prodZ dims /\ vlen old = prodZ dims /\ u = up_of ar dims v lengths f old).
Proof.
  intros (Hg & Hv & Hl). unfold up_object, vlen. rewrite (up_new_eq ar dims v lengths) by (auto using up_big). split.
  - intros (u0 & f & old & E & L1 & L2 & ->). exists f, old. inversion E. auto.
  - intros (f & old & L1 & L2 & ->). eexists _, f, old. repeat split; auto.
Qed.

Lemma field_exists {D} (ar : arith D) dims (f : list D) : up_grid dims -> vlen f = prodZ dims -> exists G, f = map G (cells dims).
Proof.
  intros Hg L. unfold vlen in L. exists (fun g => nth (Z.to_nat (dot (strd true dims) g)) f (a_zero ar)).
  pose proof (up_big dims Hg) as Hb. pose proof (big_allpos dims Hb) as Hp.
  apply (nth_ext' (a_zero ar)); [rewrite map_length, cells_length by auto; lia|]. intros i Hi.
  erewrite (nth_error_nth (map _ _)); [|apply map_nth_error, cell_at; auto; lia]. f_equal.
  rewrite dot_digs, Z.mod_small by (auto; lia). lia.
Qed.

Lemma cells_vlen {D} (G : list Z -> D) dims : up_grid dims -> vlen (map G (cells dims)) = prodZ dims.
Proof.
  intros Hg. pose proof (up_big dims Hg) as Hb. unfold vlen. rewrite map_length, cells_length by auto.
  pose proof (prod_range dims Hb). lia.
Qed.

Lemma object_field {D} (ar : arith D) dims v lengths u : up_args dims v lengths -> up_object ar dims v lengths u ->
  exists G old, vlen old = prodZ dims /\ u = up_of ar dims v lengths (map G (cells dims)) old.
Proof.
  intros Ha Hu. apply (up_object_of ar _ _ _ _ Ha) in Hu as (f & old & L1 & L2 & ->).
  destruct (field_exists ar dims f (proj1 Ha) L1) as (G & ->). eauto.
Qed.

Lemma holds_of {D} (ar : arith D) dims v lengths u G : up_args dims v lengths -> up_object ar dims v lengths u -> holds u dims G ->
  exists old, vlen old = prodZ dims /\ u = up_of ar dims v lengths (map G (cells dims)) old.
Proof.
  intros Ha Hu Hh. apply (up_object_of ar _ _ _ _ Ha) in Hu as (f & old & L1 & L2 & ->). unfold holds in Hh. cbn [up_of up_f] in Hh. subst f. eauto.
Qed.

Lemma of_object {D} (ar : arith D) dims v lengths G old : up_args dims v lengths -> vlen old = prodZ dims ->
  up_object ar dims v lengths (up_of ar dims v lengths (map G (cells dims)) old).
Proof. intros Ha L. apply up_object_of; auto. exists (map G (cells dims)), old. repeat split; auto. apply cells_vlen, Ha. Qed.

(** Any list of the right length is a field. *)
Theorem C42_every_field {D} (ar : arith D) dims v lengths u :
  up_args dims v lengths -> up_object ar dims v lengths u -> exists G, holds u dims G.
Proof. intros Ha Hu. destruct (object_field ar _ _ _ _ Ha Hu) as (G & old & _ & ->). exists G. reflexivity. Qed.
Print Assumptions C42_every_field.

(** The constructor gives an object whose field is one in the first cell and zero elsewhere. *)
Theorem C42_constructor {D} (ar : arith D) dims v lengths :
  up_args dims v lengths ->
  exists u, up_new ar (vlen dims) v lengths dims = Ok u /\ up_object ar dims v lengths u /\ holds u dims (first_cell ar dims).
Proof.
  intros (Hg & Hv & Hl). pose proof (up_big dims Hg) as Hb. unfold vlen. rewrite (up_new_eq ar dims v lengths) by auto.
  eexists; split; [reflexivity|]. split; [|reflexivity]. apply of_object; [split; auto|]. unfold vlen. rewrite repeat_length.
  pose proof (prod_range dims Hb). lia.
Qed.
Print Assumptions C42_constructor.

(** C41 *)
Theorem C41_flat_of_index_set {D} (ar : arith D) dims v lengths u i :
  up_args dims v lengths -> up_object ar dims v lengths u -> 0 <= i < prodZ dims ->
  exists g, up_getIndexSet (vlen dims) u i = Ok g /\ in_grid dims g /\ up_getFlatIndex u g = Ok i.
Proof.
  intros Ha Hu Hi. apply (up_object_of ar _ _ _ _ Ha) in Hu as (f & old & _ & _ & ->). destruct Ha as (Hg & Hv & Hl).
  pose proof (up_big dims Hg) as Hb. pose proof (big_allpos dims Hb) as Hp. assert (Hs : prodZ dims < 2 ^ 31) by apply Hg.
  exists (digs true dims i). unfold vlen. rewrite up_getIndexSet_eq by auto. split; [reflexivity|]. split; [apply digs_in_grid; auto|].
  rewrite up_getFlatIndex_eq by (auto; apply digs_digit_vec; auto). f_equal. rewrite dot_digs by auto. apply Z.mod_small. exact Hi.
Qed.
Print Assumptions C41_flat_of_index_set.

Theorem C41_index_set_of_flat {D} (ar : arith D) dims v lengths u g :
  up_args dims v lengths -> up_object ar dims v lengths u -> in_grid dims g ->
  exists i, up_getFlatIndex u g = Ok i /\ 0 <= i < prodZ dims /\ up_getIndexSet (vlen dims) u i = Ok g /\
            nth_error (cells dims) (Z.to_nat i) = Some g.
Proof.
  intros Ha Hu Hi. apply (up_object_of ar _ _ _ _ Ha) in Hu as (f & old & _ & _ & ->). destruct Ha as (Hg & Hv & Hl).
  pose proof (up_big dims Hg) as Hb. pose proof (big_allpos dims Hb) as Hp. assert (Hs : prodZ dims < 2 ^ 31) by apply Hg.
  apply in_grid_digit_vec in Hi. pose proof (dot_strd_range true dims g Hi).
  exists (dot (strd true dims) g). unfold vlen. rewrite up_getIndexSet_eq, up_getFlatIndex_eq, digs_dot by auto. repeat split; auto; try apply H.
  rewrite cell_at by (auto; lia). rewrite Z2Nat.id, digs_dot by (auto; lia). reflexivity.
Qed.
Print Assumptions C41_index_set_of_flat.

Theorem C41_distinct {D} (ar : arith D) dims v lengths u i i' :
  up_args dims v lengths -> up_object ar dims v lengths u -> 0 <= i < prodZ dims -> 0 <= i' < prodZ dims ->
  up_getIndexSet (vlen dims) u i = up_getIndexSet (vlen dims) u i' -> i = i'.
Proof.
  intros Ha Hu Hi Hi' E. destruct (C41_flat_of_index_set ar _ _ _ _ i Ha Hu Hi) as (g & E1 & _ & F1).
  destruct (C41_flat_of_index_set ar _ _ _ _ i' Ha Hu Hi') as (g' & E2 & _ & F2). congruence.
Qed.
Print Assumptions C41_distinct.

(** C42 *)
Theorem C42_one_step {D} (ar : arith D) dims v lengths u G dt :
  up_args dims v lengths -> short_axes dims -> up_object ar dims v lengths u -> holds u dims G ->
  exists u', up_step ar (vlen dims) u dt = Ok u' /\ up_object ar dims v lengths u' /\
             holds u' dims (upwind_formula ar dims v lengths dt G).
Proof.
  intros Ha Hsh Hu Hh. destruct (holds_of ar _ _ _ _ _ Ha Hu Hh) as (old & Lo & ->). pose proof Ha as (Hg & Hv & Hl).
  pose proof (up_big dims Hg) as Hb. unfold vlen. rewrite up_step_eq; auto; [|apply Hg|unfold vlen in Lo; lia].
  eexists; split; [reflexivity|]. split; [apply of_object; auto; apply cells_vlen; auto|].
  unfold holds. cbn [up_of up_f]. apply map_ext_in. intros g Hin. apply in_cells in Hin. apply code_step_formula; auto.
Qed.
Print Assumptions C42_one_step.

Theorem C42_advect {D} (ar : arith D) dims v lengths u G dt n :
  up_args dims v lengths -> short_axes dims -> up_object ar dims v lengths u -> holds u dims G ->
  exists u', up_advect ar (vlen dims) u n dt = Ok u' /\ up_object ar dims v lengths u' /\
             holds u' dims (upwind_iter ar (Z.to_nat n) dims v lengths dt G).
Proof.
  intros Ha Hsh Hu Hh. unfold up_advect.
  destruct (for_upto_inv (fun i u => up_object ar dims v lengths u /\ holds u dims (upwind_iter ar i dims v lengths dt G))
    (fun _ u => up_step ar (vlen dims) u dt) n u) as (u' & E & H).
  - split; auto.
  - intros i w _ (Hw & Hi). destruct (C42_one_step ar dims v lengths w _ dt Ha Hsh Hw Hi) as (w' & E & H1 & H2). exists w'. auto.
  - exists u'. tauto.
Qed.
Print Assumptions C42_advect.

(** Without the bound on the axes the scheme is not the upwind scheme: the periodic index is computed in size_t but
    stored in an int between the addition and the remainder. *)
Lemma long_axis_index : code_index (2 ^ 30 + 1) (-1) (2 ^ 30 + 2) = 70.
Proof. reflexivity. Qed.

Theorem C58_long_axis_refuted :
  exists (dims : list Z) (v lengths : list R) (u u' : upwind R) (G : list Z -> R) (dt : R),
    up_args dims v lengths /\ up_object arR dims v lengths u /\ holds u dims G /\
    up_step arR (vlen dims) u dt = Ok u' /\ ~ holds u' dims (upwind_formula arR dims v lengths dt G).
Proof.
  destruct (exist (fun n => n = 2 ^ 30 + 2) (2 ^ 30 + 2) eq_refl) as (n & Hn).
  set (G := fun g : list Z => if Z.eq_dec (nth 0 g 0) (2 ^ 30) then 1%R else 0%R).
  assert (Ep : prodZ [n] = n) by (rewrite prodZ_cons; change (prodZ []) with 1; lia).
  assert (Ha : up_args [n] [1%R] [IZR n]).
  { repeat split; try discriminate; try reflexivity; [|rewrite Ep; lia]. intros [|[|j]] Hj; simpl in *; lia. }
  pose proof (up_big [n] (proj1 Ha)) as Hb.
  exists [n], [1%R], [IZR n]. set (old := map G (cells [n])).
  assert (Lo : vlen old = prodZ [n]) by (apply cells_vlen, Ha).
  assert (Lo' : length old = Z.to_nat (prodZ [n])) by (unfold vlen in Lo; lia).
  pose proof (up_step_eq arR [n] [1%R] [IZR n] Hb eq_refl eq_refl 1%R G old (proj2 (proj2 (proj2 (proj1 Ha)))) Lo') as E.
  eexists. eexists. exists G, 1%R. split; [exact Ha|].
  split; [apply (of_object arR [n] [1%R] [IZR n] G old); auto|]. split; [reflexivity|]. split; [exact E|]. clear E.
  unfold holds. cbn [up_of up_f]. intros E.
  set (g := [2 ^ 30 + 1]). assert (Hg : in_grid [n] g).
  { apply in_grid_nth. split; [reflexivity|]. intros [|[|j]] Hj; simpl in *; lia. }
  apply in_cells in Hg. assert (Eg : code_step arR [n] [1%R] [IZR n] 1%R G g = upwind_formula arR [n] [1%R] [IZR n] 1%R G g).
  { clear - E Hg. induction (cells [n]) as [|h l IH]; [destruct Hg|]. cbn [map] in E.
    assert (E1 := f_equal (fun l => nth 0 l 0%R) E). assert (E2 := f_equal (@tl R) E). cbn [nth tl] in E1, E2.
    destruct Hg as [<-|Hg]; auto. }
  clear E. unfold code_step, cell_value, upwind_formula in Eg. cbn [length seq fold_left] in Eg.
  assert (Es : upwind_side arR (axis_velocity arR [1%R] 0) = -1).
  { unfold upwind_side, axis_velocity. cbn [nth arR a_lt a_dec]. replace (0 / powerRZ 10 1)%R with 0%R by (simpl; lra).
    destruct (Rlt_dec 1 0); [lra|reflexivity]. }
  assert (En : neighbour [n] g 0 (-1) = [2 ^ 30]) by (rewrite Hn; reflexivity).
  assert (Ec : code_neighbour arR [n] [1%R] g 0 = [70]).
  { unfold code_neighbour, side. rewrite Es, Hn. reflexivity. }
  assert (Ek : courant arR [n] [1%R] [IZR n] 1%R 0 = (-1)%R).
  { unfold courant. rewrite Es. unfold axis_velocity, cell_size. cbn [nth arR a_mul a_div a_ofZ a_zero].
    assert (IZR n <> 0)%R by (apply not_0_IZR; lia). field. exact H. }
  rewrite Es, En, Ec, Ek in Eg. unfold G, g in Eg. cbn [nth arR a_sub a_mul] in Eg.
  destruct (Z.eq_dec (2 ^ 30 + 1) (2 ^ 30)) as [H|_]; [lia|].
  destruct (Z.eq_dec 70 (2 ^ 30)) as [H|_]; [lia|]. destruct (Z.eq_dec (2 ^ 30) (2 ^ 30)) as [_|H]; [|congruence]. lra.
Qed.
Print Assumptions C58_long_axis_refuted.

(** C51 *)
Theorem C51_compose {D} (ar : arith D) NDIMS u n m dt : 0 <= n -> 0 <= m ->
  up_advect ar NDIMS u (n + m) dt = (u' <- up_advect ar NDIMS u n dt ;; up_advect ar NDIMS u' m dt).
Proof.
  intros Hn Hm. unfold up_advect, for_upto. rewrite Z2Nat.inj_add by auto. rewrite for_from_app.
  destruct (for_from 0 (Z.to_nat n) _ u) as [u'|e]; [|reflexivity]. cbn [bind].
  generalize (0 + Z.to_nat n)%nat as a, O as b, u' as w. induction (Z.to_nat m) as [|k IH]; intros a b w; [reflexivity|].
  cbn [for_from]. destruct (up_step ar NDIMS w dt) as [w'|e]; [|reflexivity]. cbn [bind]. apply (IH O (S b)).
Qed.
Print Assumptions C51_compose.

Theorem C51_no_steps {D} (ar : arith D) NDIMS u n dt : n <= 0 -> up_advect ar NDIMS u n dt = Ok u.
Proof. intros Hn. unfold up_advect, for_upto. replace (Z.to_nat n) with O by lia. reflexivity. Qed.
Print Assumptions C51_no_steps.

(** C43 *)
Lemma checksum_sum {D} (ar : arith D) : exact_numbers ar -> forall u, up_checksum ar u = sum_of ar (up_f u).
Proof.
  intros HE u. pose proof (en_ring ar HE) as HR. unfold up_checksum. rewrite (sum_fold_left ar HR).
  change (a_dec ar 0 1) with (a_dec ar (0 * 10) 1). rewrite (en_dec ar HE), (en_zero ar HE). apply (Radd_0_l HR).
Qed.

Theorem C43_conservation {D} (ar : arith D) dims v lengths u dt n :
  exact_numbers ar -> up_args dims v lengths -> short_axes dims -> up_object ar dims v lengths u ->
  exists u', up_advect ar (vlen dims) u n dt = Ok u' /\ up_checksum ar u' = up_checksum ar u.
Proof.
  intros HE Ha Hsh Hu. destruct (C42_every_field ar _ _ _ _ Ha Hu) as (G & HG).
  destruct (C42_advect ar _ _ _ _ G dt n Ha Hsh Hu HG) as (u' & E & Hu' & Hh'). exists u'. split; [exact E|].
  rewrite !(checksum_sum ar HE), Hh', HG. apply iter_conserves; [apply (en_ring ar HE)|]. exact (proj1 (proj2 (proj2 (proj1 Ha)))).
Qed.
Print Assumptions C43_conservation.

(** C55 *)
Theorem C55_constant {D} (ar : arith D) dims v lengths u dt n k :
  exact_arith ar -> up_args dims v lengths -> short_axes dims -> up_object ar dims v lengths u ->
  (forall x, In x (up_f u) -> x = k) ->
  exists u', up_advect ar (vlen dims) u n dt = Ok u' /\ up_f u' = up_f u.
Proof.
  intros HR Ha Hsh Hu Hk. destruct (C42_every_field ar _ _ _ _ Ha Hu) as (G & HG).
  assert (HG' : holds u dims (fun _ => k)).
  { unfold holds in *. rewrite HG in *. apply map_ext_in. intros g Hg. apply Hk. apply in_map. exact Hg. }
  destruct (C42_advect ar _ _ _ _ _ dt n Ha Hsh Hu HG') as (u' & E & Hu' & Hh'). exists u'. split; [exact E|].
  rewrite Hh', HG'. apply map_ext. intros g. apply iter_const. exact HR.
Qed.
Print Assumptions C55_constant.

(** C44 *)
Definition courant_sum (dims : list Z) (v lengths : list R) (dt : R) : R :=
  sum_of arR (map (fun j => Rabs (nth j v 0) * dt / (nth j lengths 0 / IZR (nth j dims 0%Z)))%R (seq 0 (length dims))).

Theorem C44_maximum_principle dims v lengths u dt n m M :
  up_args dims v lengths -> short_axes dims -> up_object arR dims v lengths u ->
  (forall x, In x lengths -> 0 < x)%R -> (0 <= dt)%R -> (courant_sum dims v lengths dt <= 1)%R ->
  (forall x, In x (up_f u) -> m <= x <= M)%R ->
  exists u', up_advect arR (vlen dims) u n dt = Ok u' /\ (forall x, In x (up_f u') -> m <= x <= M)%R.
Proof.
  intros Ha Hsh Hu HL Hdt HC Hb. destruct (C42_every_field arR _ _ _ _ Ha Hu) as (G & HG).
  destruct (C42_advect arR _ _ _ _ _ dt n Ha Hsh Hu HG) as (u' & E & Hu' & Hh'). exists u'. split; [exact E|].
  intros x Hx. rewrite Hh' in Hx. apply in_map_iff in Hx as (g & <- & Hg). apply in_cells in Hg.
  destruct Ha as (Hgr & Hv & Hl). apply iter_bounds; auto; [exact (proj1 (proj2 (proj2 Hgr)))|intros j Hj; apply HL, nth_In; lia|].
  intros h Hh. apply Hb. rewrite HG. apply in_map. apply in_cells. exact Hh.
Qed.
Print Assumptions C44_maximum_principle.

(** C45 *)
Lemma up_std_eq dims v lengths G old : up_args dims v lengths ->
  up_std arR sqrt (up_of arR dims v lengths (map G (cells dims)) old) =
  Ok (sqrt (sum_of arR (map (fun g => (G g - sum_of arR (map G (cells dims)) / IZR (prodZ dims)) ^ 2)%R (cells dims)) / IZR (prodZ dims))).
Proof.
  intros Ha. pose proof (checksum_sum arR arR_exact) as CS. unfold up_std. rewrite CS.
  change (up_f (up_of arR dims v lengths (map G (cells dims)) old)) with (map G (cells dims)).
  change (up_ntot (up_of arR dims v lengths (map G (cells dims)) old)) with (prodZ dims).
  cbn [arR a_div a_ofZ]. set (mean := (sum_of arR (map G (cells dims)) / IZR (prodZ dims))%R).
  pose proof (cells_vlen G dims (proj1 Ha)) as L. pose proof (proj1 Ha) as (_ & _ & _ & Hs). set (f := map G (cells dims)) in *.
  match goal with |- context [for_upto ?c ?bd ?s] =>
    destruct (for_upto_inv (fun i r => r = sum_of arR (map (fun x => (x - mean) ^ 2)%R (firstn i f))) bd c s) as (r & -> & Hr) end.
  - reflexivity.
  - intros i r Hi ->. unfold vlen in *. rewrite (vget_nat f i 0%R) by lia. cbn [bind]. rewrite int_op_ok by (unfold two31; lia). cbn [bind].
    eexists; split; [reflexivity|]. rewrite (firstn_S_nth f 0%R) by lia. rewrite map_app, (sum_app arR (en_ring _ arR_exact)).
    cbn [map sum_of fold_right arR a_add a_mul a_sub a_zero]. unfold sum_of. cbn [fold_right arR a_add]. simpl pow. ring.
  - unfold vlen in Hr. rewrite Nat2Z.id, firstn_all in Hr. subst r. cbn [bind]. unfold f. rewrite map_map. reflexivity.
Qed.

Theorem C45_spread dims v lengths u dt n :
  up_args dims v lengths -> short_axes dims -> up_object arR dims v lengths u ->
  (forall x, In x lengths -> 0 < x)%R -> (0 <= dt)%R -> (courant_sum dims v lengths dt <= 1)%R ->
  exists u' s s', up_advect arR (vlen dims) u n dt = Ok u' /\ up_std arR sqrt u = Ok s /\ up_std arR sqrt u' = Ok s' /\ (s' <= s)%R.
Proof.
  intros Ha Hsh Hu HL Hdt HC. destruct (C42_every_field arR _ _ _ _ Ha Hu) as (G & HG).
  destruct (C42_advect arR _ _ _ _ _ dt n Ha Hsh Hu HG) as (u' & E & Hu' & Hh').
  destruct (holds_of arR _ _ _ _ _ Ha Hu HG) as (old & _ & ->). destruct (holds_of arR _ _ _ _ _ Ha Hu' Hh') as (old' & _ & ->).
  eexists _, _, _. split; [exact E|]. split; [apply up_std_eq; auto|]. split; [apply up_std_eq; auto|].
  destruct Ha as (Hgr & Hv & Hl). assert (Hp : pos_axes dims) by exact (proj1 (proj2 (proj2 Hgr))).
  rewrite (iter_conserves arR (en_ring _ arR_exact) dims v lengths dt G _ Hp). set (mean := (_ / _)%R).
  assert (0 < IZR (prodZ dims))%R by (apply IZR_lt; apply prodZ_pos, allpos_nth; exact Hp).
  apply sqrt_le_1_alt. apply Rmult_le_compat_r; [left; apply Rinv_0_lt_compat; exact H|].
  apply iter_spread; auto. intros j Hj; apply HL, nth_In; lia.
Qed.
Print Assumptions C45_spread.

(** C50 *)
Theorem C50_truncated_loop {D} (ar : arith D) NDIMS u n dt :
  (up_ntot u + 2 ^ 31) mod 2 ^ 32 <= 2 ^ 31 -> up_advect ar NDIMS u n dt = Ok u.
Proof.
  intros H. assert (Hi : Z.to_nat (i32 (up_ntot u)) = O).
  { unfold i32, two31, two32. change (2 ^ 31) with 2147483648 in H. change (2 ^ 32) with 4294967296 in H. lia. }
  unfold up_advect, for_upto. generalize O as k. induction (Z.to_nat n) as [|m IH]; intros k; [reflexivity|]. cbn [for_from].
  assert (E : up_step ar NDIMS u dt = Ok u); [|rewrite E; cbn [bind]; apply IH].
  unfold up_step, up_copy, for_upto. rewrite Hi. cbn [for_from bind]. destruct u; reflexivity.
Qed.
Print Assumptions C50_truncated_loop.

Theorem C50_all_cells_partial {D} (ar : arith D) dims v lengths u G dt :
  up_args dims v lengths -> short_axes dims -> up_object ar dims v lengths u -> holds u dims G ->
  exists u', up_step ar (vlen dims) u dt = Ok u' /\
    forall i g, 0 <= i < prodZ dims -> up_getIndexSet (vlen dims) u i = Ok g ->
      vget (up_f u') i = Ok (upwind_formula ar dims v lengths dt G g).
Proof.
  intros Ha Hsh Hu HG. destruct (C42_one_step ar _ _ _ _ _ dt Ha Hsh Hu HG) as (u' & E & Hu' & Hh'). exists u'. split; [exact E|].
  intros i g Hi Eg. destruct (C41_flat_of_index_set ar _ _ _ _ i Ha Hu Hi) as (g' & E1 & Hg' & F1). assert (g' = g) by congruence. subst g'.
  destruct (C41_index_set_of_flat ar _ _ _ _ g Ha Hu Hg') as (i' & E2 & _ & _ & N). assert (i' = i) by congruence. subst i'.
  rewrite Hh'. unfold vget. rewrite cells_vlen by apply Ha.
  replace ((0 <=? i) && (i <? prodZ dims))%bool with true by (symmetry; apply andb_true_iff; split; [apply Z.leb_le|apply Z.ltb_lt]; lia).
  rewrite (map_nth_error _ _ _ N). reflexivity.
Qed.
Print Assumptions C50_all_cells_partial.

Theorem C50_all_cells_refuted :
  exists (dims : list Z) (v lengths : list R) (u : upwind R) (dt : R),
    dims = [2048; 2048; 2048] /\ up_new arR 3 v lengths dims = Ok u /\
    (forall n, up_advect arR 3 u n dt = Ok u) /\
    holds u dims (first_cell arR dims) /\
    upwind_formula arR dims v lengths dt (first_cell arR dims) [0; 0; 0] <> first_cell arR dims [0; 0; 0].
Proof.
  set (dims := [2048; 2048; 2048]). assert (Hb : big_grid dims).
  { repeat split; try discriminate; try reflexivity. intros [|[|[|[|j]]]] Hj; simpl in *; lia. }
  exists dims, [1%R; 1%R; 1%R], [2048%R; 2048%R; 2048%R].
  pose proof (up_new_eq arR dims [1%R; 1%R; 1%R] [2048%R; 2048%R; 2048%R] Hb eq_refl eq_refl) as E.
  eexists. exists (1 / 10)%R. split; [reflexivity|]. split; [exact E|]. split; [|split].
  - intros n. apply C50_truncated_loop. change (up_ntot _) with (prodZ dims). vm_compute. discriminate.
  - reflexivity.
  - unfold upwind_formula. change (seq 0 (length dims)) with [0; 1; 2]%nat. cbn [fold_left].
    assert (Es : forall j, (j < 3)%nat -> upwind_side arR (axis_velocity arR [1%R; 1%R; 1%R] j) = -1).
    { intros j Hj. assert (EE : axis_velocity arR [1%R; 1%R; 1%R] j = 1%R) by (destruct j as [|[|[|j]]]; try reflexivity; lia). rewrite EE.
      unfold upwind_side. cbn [arR a_lt a_dec]. replace (0 / powerRZ 10 1)%R with 0%R by (simpl; lra).
      destruct (Rlt_dec 1 0); [lra|reflexivity]. }
    assert (Ek : forall j, (j < 3)%nat -> courant arR dims [1%R; 1%R; 1%R] [2048%R; 2048%R; 2048%R] (1 / 10)%R j = (- (1 / 10))%R).
    { intros j Hj. unfold courant. rewrite Es by auto. unfold axis_velocity, cell_size.
      destruct j as [|[|[|j]]]; try lia; cbn [nth dims arR a_mul a_div a_ofZ a_zero]; field. }
    rewrite !Es, !Ek by lia. change (neighbour dims [0; 0; 0] 0 (-1)) with [2047; 0; 0]. change (neighbour dims [0; 0; 0] 1 (-1)) with [0; 2047; 0].
    change (neighbour dims [0; 0; 0] 2 (-1)) with [0; 0; 2047]. unfold first_cell, dims. cbn [length repeat].
    repeat match goal with |- context [list_eq_dec ?a ?b ?c] => destruct (list_eq_dec a b c); try congruence end.
    cbn [arR a_sub a_mul a_ofZ a_dec]. simpl. lra.
Qed.
Print Assumptions C50_all_cells_refuted.

(** C52 *)
Definition layers (points : Z) : Z := Z.max 1 (points - 1).

Lemma vtk_axis_eq {D} (ar : arith D) dims v lengths f old j :
  up_args dims v lengths -> (j < length dims)%nat ->
  vtk_axis ar (up_of ar dims v lengths f old) (Z.of_nat j) =
  Ok (nth j dims 0 + 1, map (fun k => a_add ar (a_dec ar 0 1) (a_mul ar (cell_size ar dims lengths j) (a_ofZ ar k))) (range 0 (nth j dims 0 + 1))).
Proof.
  intros (Hg & Hv & Hl) Hj. unfold vtk_axis, up_of; cbn [up_numCells up_deltas]. rewrite (vget_nat dims j 0) by auto. cbn [bind].
  rewrite (vget_nat _ j (a_zero ar)) by (unfold sizes; rewrite map_length, seq_length; auto). cbn [bind].
  rewrite sizes_nth by auto. pose proof (axis_range dims (up_big _ Hg) j Hj). assert (prodZ dims < 2 ^ 31) by apply Hg.
  rewrite u64_id by (unfold two64; lia).
  rewrite (tabulate_ok (fun i => a_add ar (a_dec ar 0 1) (a_mul ar (cell_size ar dims lengths j) (a_ofZ ar (Z.of_nat i))))) by reflexivity.
  cbn [bind]. f_equal. f_equal. unfold range. rewrite map_map. rewrite Z.sub_0_r. reflexivity.
Qed.

Lemma tabulate_vget {A} (l : list A) : tabulate (vlen l) (fun i => vget l i) = Ok l.
Proof.
  destruct l as [|a l]; [reflexivity|]. set (m := a :: l). rewrite (tabulate_ok (fun i => nth i m a)).
  - unfold vlen. rewrite Nat2Z.id, <- list_as_map_seq. reflexivity.
  - intros i Hi. unfold vlen in Hi. rewrite Nat2Z.id in Hi. apply vget_nat. exact Hi.
Qed.

Theorem C52_vtk {D} (ar : arith D) dims v lengths u G :
  up_args dims v lengths -> (length dims <= 3)%nat -> up_object ar dims v lengths u -> holds u dims G ->
  exists r dx dy dz cx cy cz, up_saveVTK ar (vlen dims) u = Ok r /\ rg_dims r = [dx; dy; dz] /\ rg_coords r = [cx; cy; cz] /\
    map fst (rg_coords r) = rg_dims r /\
    (forall c, In c (rg_coords r) -> vlen (snd c) = fst c) /\
    (forall j, (j < length dims)%nat -> nth (2 - j) (rg_coords r) cx =
       (nth j dims 0 + 1, map (fun k => a_add ar (a_dec ar 0 1) (a_mul ar (cell_size ar dims lengths j) (a_ofZ ar k))) (range 0 (nth j dims 0 + 1)))) /\
    (forall j, (length dims <= j <= 2)%nat -> nth (2 - j) (rg_coords r) cx = (1, [a_dec ar 0 1])) /\
    rg_count r = vlen (rg_values r) /\ rg_count r = layers dx * layers dy * layers dz /\
    forall x y z, 0 <= x < layers dx -> 0 <= y < layers dy -> 0 <= z < layers dz ->
      vget (rg_values r) (x + layers dx * (y + layers dy * z)) = Ok (G (firstn (length dims) [z; y; x])).
Proof.
  intros Ha Hd Hu HG. destruct (holds_of ar _ _ _ _ _ Ha Hu HG) as (old & _ & ->). clear Hu HG. pose proof Ha as (Hg & Hv & Hl).
  pose proof (up_big _ Hg) as Hb. assert (Hs : prodZ dims < 2 ^ 31) by apply Hg.
  pose proof (cells_vlen G dims Hg) as L. pose proof (tabulate_vget (map G (cells dims))) as T. rewrite L in T.
  pose proof (vtk_axis_eq ar dims v lengths (map G (cells dims)) old) as A. specialize (fun j => A j Ha).
  assert (Lr : forall F n, 0 <= n -> vlen (map F (range 0 n) : list D) = n).
  { intros F n Hn. unfold vlen. rewrite map_length, range_length. lia. }
  destruct dims as [|a [|b [|c [|e dims]]]]; try (exfalso; simpl in *; lia); try (destruct Hg; congruence).
  - assert (Ep : prodZ [a] = a) by (rewrite prodZ_cons; change (prodZ []) with 1; ring).
    assert (Pa : 0 < a) by (apply (proj1 (proj2 (proj2 Hg)) O); simpl; lia).
    eexists _, _, _, _, _, _, _. split.
    { unfold up_saveVTK. change (vlen [a]) with 1. change (2 <? 1) with false. change (1 <? 1) with false. cbn [bind].
      change (vget (up_numCells _) 0) with (Ok a). cbn [bind]. change 0 with (Z.of_nat 0) at 1. rewrite (A O) by (simpl; lia). cbn [bind].
      change (up_ntot _) with (prodZ [a]). change (up_f _) with (map G (cells [a])). rewrite T. cbn [bind]. reflexivity. }
    cbn [rg_dims rg_coords rg_count rg_values map fst nth length].
    split; [reflexivity|]. split; [reflexivity|]. rewrite u64_id by (unfold two64; lia).
    split; [reflexivity|]. split; [|split; [|split; [|split; [|split]]]].
    + intros q [<-|[<-|[<-|[]]]]; try reflexivity. cbn [fst snd]. apply Lr. lia.
    + intros [|j] Hj; [reflexivity|lia].
    + intros [|[|[|j]]] Hj; try lia; reflexivity.
    + symmetry. exact L.
    + unfold layers. lia.
    + unfold layers. intros x y z Hx Hy Hz. assert (x = 0 /\ y = 0) as [-> ->] by lia. cbn [firstn].
      rewrite <- (vget_cell [a] Hb G [z]).
      * f_equal. unfold strd. cbn [strides dot]. change (prodZ []) with 1. lia.
      * apply in_grid_nth. split; [reflexivity|]. intros [|j] Hj; simpl in *; lia.
  - assert (Ep : prodZ [a; b] = a * b) by (rewrite !prodZ_cons; change (prodZ []) with 1; ring).
    assert (Pa : 0 < a) by (apply (proj1 (proj2 (proj2 Hg)) O); simpl; lia).
    assert (Pb : 0 < b) by (apply (proj1 (proj2 (proj2 Hg)) 1%nat); simpl; lia).
    eexists _, _, _, _, _, _, _. split.
    { unfold up_saveVTK. change (vlen [a; b]) with 2. change (2 <? 2) with false. change (1 <? 2) with true. cbn [bind].
      change (vget (up_numCells _) 0) with (Ok a). change (vget (up_numCells _) 1) with (Ok b). cbn [bind].
      change (vtk_axis ar ?x 1) with (vtk_axis ar x (Z.of_nat 1)). rewrite (A 1%nat) by (simpl; lia). cbn [bind].
      change (vtk_axis ar ?x 0) with (vtk_axis ar x (Z.of_nat 0)). rewrite (A O) by (simpl; lia). cbn [bind].
      change (up_ntot _) with (prodZ [a; b]). change (up_f _) with (map G (cells [a; b])). rewrite T. cbn [bind]. reflexivity. }
    cbn [rg_dims rg_coords rg_count rg_values map fst nth length].
    split; [reflexivity|]. split; [reflexivity|]. rewrite !u64_id by (unfold two64; nia).
    split; [reflexivity|]. split; [|split; [|split; [|split; [|split]]]].
    + intros q [<-|[<-|[<-|[]]]]; try reflexivity; cbn [fst snd]; apply Lr; lia.
    + intros [|[|j]] Hj; [reflexivity|reflexivity|lia].
    + intros [|[|[|j]]] Hj; try lia; reflexivity.
    + symmetry. exact L.
    + unfold layers. rewrite Ep. replace (Z.max 1 (1 - 1)) with 1 by lia. rewrite !Z.max_r by lia. ring.
    + unfold layers. replace (Z.max 1 (1 - 1)) with 1 by lia. rewrite !Z.max_r by lia. replace (b + 1 - 1) with b by lia. replace (a + 1 - 1) with a by lia.
      intros x y z Hx Hy Hz. assert (x = 0) as -> by lia. cbn [firstn].
      rewrite <- (vget_cell [a; b] Hb G [z; y]).
      * f_equal. unfold strd. cbn [strides dot]. rewrite !prodZ_cons. change (prodZ []) with 1. ring.
      * apply in_grid_nth. split; [reflexivity|]. intros [|[|j]] Hj; simpl in *; lia.
  - assert (Ep : prodZ [a; b; c] = a * b * c) by (rewrite !prodZ_cons; change (prodZ []) with 1; ring).
    assert (Pa : 0 < a) by (apply (proj1 (proj2 (proj2 Hg)) O); simpl; lia).
    assert (Pb : 0 < b) by (apply (proj1 (proj2 (proj2 Hg)) 1%nat); simpl; lia).
    assert (Pc : 0 < c) by (apply (proj1 (proj2 (proj2 Hg)) 2%nat); simpl; lia).
    assert (Ba : a < 2 ^ 31) by (pose proof (proj2 (axis_range _ Hb 0%nat ltac:(simpl; lia))); simpl in *; lia).
    assert (Bb : b < 2 ^ 31) by (pose proof (proj2 (axis_range _ Hb 1%nat ltac:(simpl; lia))); simpl in *; lia).
    assert (Bc : c < 2 ^ 31) by (pose proof (proj2 (axis_range _ Hb 2%nat ltac:(simpl; lia))); simpl in *; lia).
    eexists _, _, _, _, _, _, _. split.
    { unfold up_saveVTK. change (vlen [a; b; c]) with 3. change (2 <? 3) with true. change (1 <? 3) with true. cbn [bind].
      change (vget (up_numCells _) 0) with (Ok a). change (vget (up_numCells _) 1) with (Ok b). change (vget (up_numCells _) 2) with (Ok c). cbn [bind].
      change (vtk_axis ar ?x 2) with (vtk_axis ar x (Z.of_nat 2)). rewrite (A 2%nat) by (simpl; lia). cbn [bind].
      change (vtk_axis ar ?x 1) with (vtk_axis ar x (Z.of_nat 1)). rewrite (A 1%nat) by (simpl; lia). cbn [bind].
      change (vtk_axis ar ?x 0) with (vtk_axis ar x (Z.of_nat 0)). rewrite (A O) by (simpl; lia). cbn [bind].
      change (up_ntot _) with (prodZ [a; b; c]). change (up_f _) with (map G (cells [a; b; c])). rewrite T. cbn [bind]. reflexivity. }
    cbn [rg_dims rg_coords rg_count rg_values map fst nth length].
    split; [reflexivity|]. split; [reflexivity|]. rewrite !u64_id by (unfold two64; lia).
    split; [reflexivity|]. split; [|split; [|split; [|split; [|split]]]].
    + intros q [<-|[<-|[<-|[]]]]; try reflexivity; cbn [fst snd]; apply Lr; lia.
    + intros [|[|[|j]]] Hj; [reflexivity|reflexivity|reflexivity|lia].
    + intros j Hj; lia.
    + symmetry. exact L.
    + unfold layers. rewrite Ep. rewrite !Z.max_r by lia. ring.
    + unfold layers. rewrite !Z.max_r by lia. replace (b + 1 - 1) with b by lia. replace (a + 1 - 1) with a by lia. replace (c + 1 - 1) with c by lia.
      intros x y z Hx Hy Hz. cbn [firstn].
      rewrite <- (vget_cell [a; b; c] Hb G [z; y; x]).
      * f_equal. unfold strd. cbn [strides dot]. rewrite !prodZ_cons. change (prodZ []) with 1. ring.
      * apply in_grid_nth. split; [reflexivity|]. intros [|[|[|j]]] Hj; simpl in *; lia.
Qed.
Print Assumptions C52_vtk.

(** C54 *)
Lemma dec10R : a_dec arR 10 1 = 1%R.
Proof. cbn [arR a_dec]. simpl. lra. Qed.

Lemma up_dt_driver n : 1 <= n -> n < 2 ^ 31 ->
  up_dt arR [1%R; 1%R; 1%R] [1%R; 1%R; 1%R] [n; n; n] = Ok (1 / 10 / IZR n)%R.
Proof.
  intros H1 H2. assert (Hn : (1 <= IZR n)%R) by (apply IZR_le; lia).
  assert (Hx : (1 / 10 * (1 / IZR n) / 1 = 1 / 10 / IZR n)%R) by (field; lra).
  assert (Hm : (1 / 10 / IZR n < IZR (2 ^ 1024 - 2 ^ 971))%R).
  { apply Rle_lt_trans with 1%R; [|apply IZR_lt; reflexivity].
    apply Rmult_le_reg_r with (IZR n); [lra|]. unfold Rdiv. rewrite Rmult_assoc, Rinv_l by lra. lra. }
  unfold up_dt. change (vlen [1%R; 1%R; 1%R]) with 3. unfold for_upto. change (Z.to_nat 3) with 3%nat. cbn [for_from].
  change (Z.of_nat 0) with 0. change (Z.of_nat 1) with 1. change (Z.of_nat 2) with 2.
  repeat (change (vget [1%R; 1%R; 1%R] ?k) with (Ok 1%R); change (vget [n; n; n] ?k) with (Ok n); cbn [bind]).
  replace (a_div arR (a_mul arR (a_dec arR 1 1) (a_div arR 1%R (a_ofZ arR n))) 1%R) with (1 / 10 / IZR n)%R.
  2: { rewrite <- Hx. cbn [arR a_div a_mul a_dec a_ofZ]. simpl. field. lra. }
  set (t := (1 / 10 / IZR n)%R) in *. cbn [arR a_lt a_max].
  destruct (Rlt_dec t (IZR (2 ^ 1024 - 2 ^ 971))) as [_|H]; [|contradiction].
  destruct (Rlt_dec t t) as [H|H]; [exfalso; lra|]. destruct (Rlt_dec t t) as [H'|_]; [contradiction|]. reflexivity.
Qed.

Theorem C54_driver n steps doVtk doStd :
  1 <= n -> n * n * n < 2 ^ 31 ->
  exists r dt, up_body arR sqrt n steps doVtk doStd = Ok r /\
    up_dt arR (up_v (ur_up r)) (up_lengths (ur_up r)) (up_numCells (ur_up r)) = Ok dt /\
    up_numCells (ur_up r) = [n; n; n] /\
    courant_sum [n; n; n] (up_v (ur_up r)) (up_lengths (ur_up r)) dt = (3 / 10)%R /\
    ur_sum r = 1%R /\ vlen (up_f (ur_up r)) = n * n * n /\
    (forall x, In x (up_f (ur_up r)) -> 0 <= x <= 1)%R.
Proof.
  intros H1 H2. assert (Hn : n < 2 ^ 30) by nia. assert (HnR : (1 <= IZR n)%R) by (apply IZR_le; lia).
  assert (Ep : prodZ [n; n; n] = n * n * n) by (rewrite !prodZ_cons; change (prodZ []) with 1; ring).
  set (o3 := [1%R; 1%R; 1%R]).
  assert (Ha : up_args [n; n; n] o3 o3).
  { repeat split; try discriminate; try reflexivity; [|rewrite Ep; exact H2]. intros [|[|[|j]]] Hj; simpl in *; lia. }
  assert (Hsh : short_axes [n; n; n]) by (intros [|[|[|j]]] Hj; simpl in *; lia).
  destruct (C42_constructor arR [n; n; n] o3 o3 Ha) as (u & Eu & Hu & HG).
  set (dt := (1 / 10 / IZR n)%R).
  assert (HC : courant_sum [n; n; n] o3 o3 dt = (3 / 10)%R).
  { unfold courant_sum, o3, dt. cbn [length seq map nth sum_of fold_right]. unfold sum_of. cbn [fold_right arR a_add a_zero].
    rewrite Rabs_R1. field. lra. }
  assert (Hdt : (0 <= dt)%R) by (unfold dt; apply Rmult_le_pos; [lra|left; apply Rinv_0_lt_compat; lra]).
  assert (HL : forall x, In x o3 -> (0 < x)%R) by (intros x [<-|[<-|[<-|[]]]]; lra).
  destruct (C42_advect arR _ _ _ _ _ dt steps Ha Hsh Hu HG) as (u' & E & Hu' & Hh').
  assert (Hb : forall x, In x (up_f u') -> (0 <= x <= 1)%R).
  { destruct (C44_maximum_principle _ _ _ u dt steps 0 1 Ha Hsh Hu HL Hdt) as (w & Ew & Hw); [rewrite HC; lra| |].
    - intros x Hx. rewrite HG in Hx. apply in_map_iff in Hx as (g & <- & _). unfold first_cell.
      destruct (list_eq_dec _ _ _); cbn [arR a_ofZ a_dec]; simpl; lra.
    - rewrite E in Ew. inversion Ew; subst. exact Hw. }
  assert (Hsum : up_checksum arR u' = 1%R).
  { destruct (C43_conservation arR _ _ _ u dt steps arR_exact Ha Hsh Hu) as (w & Ew & Hw). rewrite E in Ew. inversion Ew; subst w. rewrite Hw.
    rewrite (checksum_sum arR arR_exact), HG. assert (Hz : In [0; 0; 0] (cells [n; n; n])).
    { apply in_cells, in_grid_nth. split; [reflexivity|]. intros [|[|[|j]]] Hj; simpl in *; lia. }
    apply in_split in Hz as (l1 & l2 & El). assert (Nd : NoDup (cells [n; n; n])) by apply NoDup_row_major.
    rewrite El in *. rewrite map_app, (sum_app arR (en_ring _ arR_exact)). cbn [map].
    assert (Z0 : forall l, ~ In [0; 0; 0] l -> sum_of arR (map (first_cell arR [n; n; n]) l) = 0%R).
    { intros l Hl. rewrite (map_ext_in _ (fun _ => a_zero arR)); [apply (sum_zero arR (en_ring _ arR_exact))|].
      intros g Hg. unfold first_cell. destruct (list_eq_dec _ _ _) as [Eg|_]; [exfalso; apply Hl; rewrite Eg in Hg; exact Hg|].
      cbn [arR a_dec a_zero]. simpl. lra. }
    apply NoDup_remove_2 in Nd. rewrite Z0 by (intros Hi; apply Nd, in_or_app; auto).
    change (sum_of arR (?x :: ?l)) with (x + sum_of arR l)%R. rewrite Z0 by (intros Hi; apply Nd, in_or_app; auto).
    unfold first_cell. destruct (list_eq_dec _ _ _) as [_|Eg]; [|exfalso; apply Eg; reflexivity]. cbn [arR a_add a_ofZ]. lra. }
  assert (Sv : forall w G, up_object arR [n; n; n] o3 o3 w -> holds w [n; n; n] G -> exists r, up_saveVTK arR 3 w = Ok r).
  { intros w G Hw HwG. destruct (C52_vtk arR _ _ _ w G Ha ltac:(simpl; lia) Hw HwG) as (r & ? & ? & ? & ? & ? & ? & Er & _). exists r. exact Er. }
  destruct (Sv u _ Hu HG) as (r0 & Er0). destruct (Sv u' _ Hu' Hh') as (r1 & Er1).
  assert (Ss : exists s, up_std arR sqrt u' = Ok s).
  { destruct (holds_of arR _ _ _ _ _ Ha Hu' Hh') as (old & _ & ->). eexists. apply up_std_eq. exact Ha. }
  destruct Ss as (s & Es).
  assert (Edt : up_dt arR o3 o3 [n; n; n] = Ok dt) by (apply up_dt_driver; lia).
  exists (mkUpResult u' (up_checksum arR u') (if doStd then Some s else None) (if doVtk then Some r0 else None) (if doVtk then Some r1 else None)), dt.
  split.
  - unfold up_body. rewrite u64_id by (unfold two64; lia). rewrite dec10R. change (repeat n 3) with [n; n; n]. change (repeat 1%R 3) with o3.
    rewrite Edt. cbn [bind]. change 3 with (vlen [n; n; n]) at 1. rewrite Eu. cbn [bind].
    rewrite Er0. change 3 with (vlen [n; n; n]). destruct doVtk, doStd; cbn [bind]; rewrite E; cbn [bind]; rewrite ?Es; cbn [bind];
      change (vlen [n; n; n]) with 3; rewrite ?Er1; reflexivity.
  - cbn [ur_up ur_sum]. destruct (holds_of arR _ _ _ _ _ Ha Hu' Hh') as (old & _ & Eu'). rewrite Eu' at 1 2 3 4 5 6. cbn [up_of up_v up_lengths up_numCells].
    split; [exact Edt|]. split; [reflexivity|]. split; [exact HC|]. split; [exact Hsum|]. split; [|exact Hb].
    rewrite Hh', cells_vlen by apply Ha. exact Ep.
Qed.
Print Assumptions C54_driver.

(** C59: a grid without cells *)
Lemma up_new_cube {D} (ar : arith D) v z : exists a b d,
  up_new ar 3 [v; v; v] [v; v; v] [z; z; z] =
  let nt := u64 (u64 (u64 (1 * z) * z) * z) in
  if 2 ^ 60 <=? nt then Undef BadAlloc else
  (f <- vset (repeat (a_dec ar 0 1) (Z.to_nat nt)) 0 (a_ofZ ar 1) ;;
   Ok (mkUp [v; v; v] [v; v; v] a f (repeat (a_dec ar 0 1) (Z.to_nat nt)) b d [z; z; z] nt)).
Proof.
  unfold up_new, up_axes, for_upto. change (Z.to_nat 3) with 3%nat. cbn [for_from repeat].
  change (Z.of_nat 0) with 0. change (Z.of_nat 1) with 1. change (Z.of_nat 2) with 2.
  destruct (a_lt ar v (a_dec ar 0 1)) eqn:E.
  - eexists _, _, _. change (vget [v; v; v] ?k) with (Ok v). change (vget [z; z; z] ?k) with (Ok z). cbn [bind]. rewrite E. reflexivity.
  - eexists _, _, _. change (vget [v; v; v] ?k) with (Ok v). change (vget [z; z; z] ?k) with (Ok z). cbn [bind]. rewrite E. reflexivity.
Qed.

Lemma up_dt_cube {D} (ar : arith D) v z : exists dt, up_dt ar [v; v; v] [v; v; v] [z; z; z] = Ok dt.
Proof. eexists. reflexivity. Qed.

Theorem C59_zero_cells {D} (ar : arith D) dsqrt steps doVtk doStd :
  up_body ar dsqrt 0 steps doVtk doStd = Undef OobWrite.
Proof.
  unfold up_body. change (u64 0) with 0. change (repeat 0 3) with [0; 0; 0]. set (o := a_dec ar 10 1). change (repeat o 3) with [o; o; o].
  destruct (up_dt_cube ar o 0) as (dt & ->). cbn [bind]. destruct (up_new_cube ar o 0) as (a & b & d & ->). reflexivity.
Qed.
Print Assumptions C59_zero_cells.

(** ... or with a negative number of them along each axis: the size of the field wraps to a huge number *)
Theorem C59_negative_cells {D} (ar : arith D) dsqrt n steps doVtk doStd :
  - 1000000 <= n < 0 -> up_body ar dsqrt n steps doVtk doStd = Undef BadAlloc.
Proof.
  intros Hn. unfold up_body. change (repeat (u64 n) 3) with [u64 n; u64 n; u64 n].
  set (o := a_dec ar 10 1). change (repeat o 3) with [o; o; o].
  destruct (up_dt_cube ar o (u64 n)) as (dt & ->). cbn [bind]. destruct (up_new_cube ar o (u64 n)) as (a & b & d & ->). cbv zeta.
  replace (u64 (u64 (u64 (1 * u64 n) * u64 n) * u64 n)) with (2 ^ 64 + n * n * n).
  - destruct (Z.leb_spec (2 ^ 60) (2 ^ 64 + n * n * n)); [reflexivity|]. exfalso. nia.
  - rewrite Z.mul_1_l. rewrite !u64_mul_r, u64_mul_l. rewrite <- (u64_mul_l (u64 (u64 n) * n) n), u64_mul_l. rewrite <- !Z.mul_assoc, !u64_mul_l, !Z.mul_assoc.
    unfold u64, two64. rewrite <- (Z_mod_plus_full (n * n * n) 1). symmetry. rewrite Z.add_comm, Z.mul_1_l. apply Z.mod_small. nia.
Qed.
Print Assumptions C59_negative_cells.

(** ** Examples *)
(** Rational numbers in lowest terms *)
Definition arQ : arith Q :=
  mkArith Q 0%Q 1%Q inject_Z (fun m e => Qred (m # Z.to_pos (10 ^ e))%Q) (fun x y => Qred (x + y)) (fun x y => Qred (x - y))
    (fun x y => Qred (x * y)) (fun x y => Qred (x / y)) (fun x => Qred (- x)) (fun x y => negb (Qle_bool y x)) (inject_Z (2 ^ 1023)).

Definition ex_dims := [2; 3].
Example C41_C42_hypotheses : up_args ex_dims [1%Q; (-2)%Q] [1%Q; 3%Q] /\ short_axes ex_dims.
Proof.
  split; [|intros [|[|j]] Hj; simpl in *; lia]. repeat split; try discriminate; try reflexivity; try (simpl; lia).
  intros [|[|j]] Hj; simpl in *; lia.
Qed.

Example C41_example :
  (u <- up_new arQ 2 [1%Q; (-2)%Q] [1%Q; 3%Q] ex_dims ;; g <- up_getIndexSet 2 u 5 ;; i <- up_getFlatIndex u [1; 1] ;; Ok (g, i)) = Ok ([1; 2], 4).
Proof. vm_compute. reflexivity. Qed.

(** Velocity 1 along axis 0 (cells of size 1/2) and -2 along axis 1 (cells of size 1), time step 1/8: one quarter of the
    first cell goes to the next one of axis 0, one quarter to the previous one of axis 1. *)
Example C42_example :
  (u <- up_new arQ 2 [1%Q; (-2)%Q] [1%Q; 3%Q] ex_dims ;; u <- up_advect arQ 2 u 1 (1 # 8)%Q ;; Ok (up_f u, up_checksum arQ u)) =
  Ok ([1 # 2; 0; 1 # 4; 1 # 4; 0; 0]%Q, 1%Q).
Proof. vm_compute. reflexivity. Qed.

Example C43_C51_example :
  (u <- up_new arQ 2 [1%Q; (-2)%Q] [1%Q; 3%Q] ex_dims ;; u <- up_advect arQ 2 u 3 (1 # 8)%Q ;; Ok (up_checksum arQ u)) = Ok 1%Q /\
  (u <- up_new arQ 2 [1%Q; (-2)%Q] [1%Q; 3%Q] ex_dims ;; u <- up_advect arQ 2 u 3 (1 # 8)%Q ;; Ok (up_f u)) =
  (u <- up_new arQ 2 [1%Q; (-2)%Q] [1%Q; 3%Q] ex_dims ;; u <- up_advect arQ 2 u 2 (1 # 8)%Q ;; u <- up_advect arQ 2 u 1 (1 # 8)%Q ;; Ok (up_f u)).
Proof. vm_compute. split; reflexivity. Qed.

(** The stability condition with equality: the field is carried without being spread. *)
Example C44_C45_hypotheses : up_args ex_dims [1%R; (-2)%R] [1%R; 3%R] /\ (courant_sum ex_dims [1; -2] [1; 3] (1 / 4) = 1)%R.
Proof.
  split.
  - repeat split; try discriminate; try reflexivity; try (simpl; lia). intros [|[|j]] Hj; simpl in *; lia.
  - unfold courant_sum, ex_dims. cbn [length seq map nth]. unfold sum_of. cbn [fold_right arR a_add a_zero].
    rewrite Rabs_R1. replace (Rabs (-2)) with 2%R by (rewrite Rabs_left; lra). lra.
Qed.

Example C52_example :
  (u <- up_new arQ 2 [1%Q; (-2)%Q] [1%Q; 3%Q] ex_dims ;; up_saveVTK arQ 2 u) =
  Ok (mkRect [1; 4; 3] [(1, [0%Q]); (4, [0; 1; 2; 3]%Q); (3, [0; 1 # 2; 1]%Q)] 6 [1; 0; 0; 0; 0; 0]%Q).
Proof. vm_compute. reflexivity. Qed.

(** The program run with "-numCells 2 -numSteps 2 -vtk" *)
Example C54_example :
  (r <- up_main arQ (fun x => x) (fun _ => 0%Q) ["upwind"%string; "-numCells"%string; "2"%string; "-numSteps"%string; "2"%string; "-vtk"%string] ;;
   Ok (match r with Some r => Some (ur_sum r, up_f (ur_up r), ur_std r, option_map (@rg_dims Q) (ur_vtk1 r)) | None => None end)) =
  Ok (Some (1%Q, [13 # 25; 7 # 50; 7 # 50; 1 # 50; 7 # 50; 1 # 50; 1 # 50; 0]%Q, None, Some [3; 3; 3])).
Proof. vm_compute. reflexivity. Qed.

Example C59_example :
  up_main arQ (fun x => x) (fun _ => 0%Q) ["upwind"%string; "-numCells"%string; "0"%string] = Undef OobWrite /\
  up_main arQ (fun x => x) (fun _ => 0%Q) ["upwind"%string; "-numCells"%string; "-3"%string] = Undef BadAlloc.
Proof. split; vm_compute; reflexivity. Qed.
