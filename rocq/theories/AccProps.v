(** * Properties of the accelerator versions of the upwind benchmark: C48, C60 *)
From Coq Require Import Permutation Ring_theory Ring List Reals Lra RealField QArith String Floats.SpecFloat.
From Verif Require Import Cpp CppProof MaiModel MaiSpec Radix MaiProof CdModel CdSpec FilterModel FilterSpec FilterProof
  FilterSum RealArith LapSpec LapProof UpModel UpSpec UpProof UpExact UpProps AccModel AccSpec AccProof Double.
From Coq Require Import List.
Import ListNotations.
Local Open Scope Z_scope.
Local Arguments prodZ : simpl never.
Local Arguments Z.of_nat : simpl never.

(** An object of class Upwind<3> of upwindAcc2.cxx (hasOld) or of upwindAcc.cxx and upwindOMP5.cxx: built by the
    constructor, the fields being arbitrary. *)
Definition acc_object {D} (ar : arith D) (hasOld : bool) (dims : list Z) (v lengths : list D) (a : accel D) : Prop :=
  exists a0 f old, acc_new ar hasOld 3 v lengths dims = Ok a0 /\ vlen f = prodZ dims /\
    vlen old = (if hasOld then prodZ dims else 0) /\ a = acc_setFields a0 f old.

Definition acc_holds {D} (a : accel D) (dims : list Z) (G : list Z -> D) : Prop := ac_f a = map G (cells dims).

Definition acc_args {D} (dims : list Z) (v lengths : list D) : Prop := up_args dims v lengths /\ length dims = 3%nat.

Lemma length3 {A} (l : list A) : length l = 3%nat -> exists a b c, l = [a; b; c].
Proof. intros H. destruct l as [|a [|b [|c [|]]]]; try discriminate. exists a, b, c. reflexivity. Qed.

Theorem C48_constructor {D} (ar : arith D) hasOld dims v lengths : acc_args dims v lengths ->
  exists a, acc_new ar hasOld 3 v lengths dims = Ok a /\ acc_object ar hasOld dims v lengths a /\ acc_holds a dims (first_cell ar dims).
Proof.
  intros ((Hg & Hv & Hl) & H3). rewrite H3 in Hv, Hl. pose proof (cells_vlen (first_cell ar dims) dims Hg) as L.
  destruct (length3 _ H3) as (a & b & c & ->). destruct (length3 _ Hv) as (v0 & v1 & v2 & ->). destruct (length3 _ Hl) as (l0 & l1 & l2 & ->).
  rewrite acc_new_eq by exact Hg. eexists; split; [reflexivity|]. split; [|reflexivity].
  eexists _, _, _. rewrite acc_new_eq by exact Hg. split; [reflexivity|]. split; [|split; [|reflexivity]].
  - exact L.
  - destruct hasOld; [|reflexivity]. unfold vlen. rewrite repeat_length. unfold vlen in L. lia.
Qed.
Print Assumptions C48_constructor.

(** The three versions of the time loop applied to an object that fits the version *)
Definition has_old (ver : acc_version) : bool := match ver with Acc2 => true | _ => false end.

Theorem C48_formula {D} (ar : arith D) ver dims v lengths a G dt n :
  acc_args dims v lengths -> shorter_axes dims -> acc_object ar (has_old ver) dims v lengths a -> acc_holds a dims G ->
  exists a', acc_run ar ver a n dt = Ok a' /\ acc_object ar (has_old ver) dims v lengths a' /\
             acc_holds a' dims (acc_iter ar (Z.to_nat n) dims v lengths dt G).
Proof.
  intros ((Hg & Hv & Hl) & H3) Hsh (a0 & f & old & E0 & Lf & Lo & ->) HG. rewrite H3 in Hv, Hl.
  pose proof (cells_vlen (acc_iter ar (Z.to_nat n) dims v lengths dt G) dims Hg) as L.
  destruct (length3 _ H3) as (na & nb & nc & ->). destruct (length3 _ Hv) as (v0 & v1 & v2 & ->). destruct (length3 _ Hl) as (l0 & l1 & l2 & ->).
  set (dims := [na; nb; nc]) in *. set (v := [v0; v1; v2]) in *. set (lengths := [l0; l1; l2]) in *.
  pose proof (acc_new_eq ar na nb nc v0 v1 v2 l0 l1 l2 Hg (has_old ver)) as E. fold dims v lengths in E. rewrite E0 in E. inversion E; subst a0. clear E.
  unfold acc_holds in HG. cbn [acc_setFields ac_f] in HG. subst f.
  change (acc_setFields (acc_of ar na nb nc v0 v1 v2 l0 l1 l2 ?x ?y) ?f ?old) with (acc_of ar na nb nc v0 v1 v2 l0 l1 l2 f old).
  assert (R : exists old', vlen old' = (if has_old ver then prodZ dims else 0) /\ acc_run ar ver (acc_of ar na nb nc v0 v1 v2 l0 l1 l2 (map G (cells dims)) old) n dt =
     Ok (acc_of ar na nb nc v0 v1 v2 l0 l1 l2 (map (acc_iter ar (Z.to_nat n) dims v lengths dt G) (cells dims)) old')).
  { destruct ver; cbn [acc_run has_old] in *.
    - exists old. split; [exact Lo|]. apply acc1_steps_eq; auto.
    - unfold acc2_advect. destruct (acc_steps_eq ar na nb nc v0 v1 v2 l0 l1 l2 Hg (map G (cells dims)) old dt G old n Hsh) as (old' & Lo' & E).
      { unfold vlen in Lo. fold dims. lia. }
      exists old'. split; [unfold vlen; fold dims in Lo'; unfold vlen in L; lia|].
      change (ac_f (acc_of _ _ _ _ _ _ _ _ _ _ ?x ?y)) with x. change (ac_fOld (acc_of _ _ _ _ _ _ _ _ _ _ ?x ?y)) with y.
      fold dims in E. rewrite E. cbn [bind]. reflexivity.
    - exists old. split; [exact Lo|]. unfold omp5_advect.
      destruct (acc_steps_eq ar na nb nc v0 v1 v2 l0 l1 l2 Hg (map G (cells dims)) old dt G (map G (cells dims)) n Hsh) as (old' & Lo' & E).
      { apply LG. exact Hg. }
      change (ac_f (acc_of _ _ _ _ _ _ _ _ _ _ ?x ?y)) with x. fold dims in E. rewrite E. cbn [bind]. reflexivity. }
  destruct R as (old' & Lo' & R). eexists; split; [exact R|]. split; [|reflexivity].
  eexists _, _, _. split; [exact E0|]. split; [exact L|]. split; [exact Lo'|]. reflexivity.
Qed.
Print Assumptions C48_formula.

(** The three versions compute the same field, bit for bit, in any arithmetic. *)
Theorem C48_versions_agree {D} (ar : arith D) ver ver' dims v lengths a a' dt n :
  acc_args dims v lengths -> shorter_axes dims ->
  acc_object ar (has_old ver) dims v lengths a -> acc_object ar (has_old ver') dims v lengths a' -> ac_f a = ac_f a' ->
  exists b b', acc_run ar ver a n dt = Ok b /\ acc_run ar ver' a' n dt = Ok b' /\ ac_f b = ac_f b' /\ acc_checksum ar b = acc_checksum ar b'.
Proof.
  intros Ha Hsh Ho Ho' Ef. pose proof Ho as (a0 & f & old & _ & Lf & _ & Ea). destruct Ha as (Ha & H3).
  destruct (field_exists ar dims f (proj1 Ha)) as (G & HG).
  { exact Lf. }
  assert (HG1 : acc_holds a dims G) by (rewrite Ea; exact HG).
  assert (HG2 : acc_holds a' dims G) by (unfold acc_holds; rewrite <- Ef; exact HG1).
  destruct (C48_formula ar ver _ _ _ _ _ dt n (conj Ha H3) Hsh Ho HG1) as (b & E & _ & Hb).
  destruct (C48_formula ar ver' _ _ _ _ _ dt n (conj Ha H3) Hsh Ho' HG2) as (b' & E' & _ & Hb').
  exists b, b'. repeat split; auto; [rewrite Hb, Hb'; reflexivity|]. unfold acc_checksum. rewrite Hb, Hb'. reflexivity.
Qed.
Print Assumptions C48_versions_agree.

Lemma courant_regroup {D} (ar : arith D) dims v lengths dt j : regroups ar -> acc_courant ar dims v lengths dt j = courant ar dims v lengths dt j.
Proof. intros [H1 H2]. unfold acc_courant, courant. rewrite H2, H1. reflexivity. Qed.

Lemma iter_regroup {D} (ar : arith D) n dims v lengths dt G g : regroups ar ->
  acc_iter ar n dims v lengths dt G g = upwind_iter ar n dims v lengths dt G g.
Proof.
  intros H. revert g. induction n as [|n IH]; intros g; [reflexivity|]. cbn [acc_iter upwind_iter]. unfold acc_formula, upwind_formula.
  rewrite IH. generalize (upwind_iter ar n dims v lengths dt G g) at 2 4 as x. generalize (seq 0 (length dims)) as l.
  induction l as [|j l IHl]; intros x; [reflexivity|]. cbn [fold_left]. rewrite (courant_regroup ar _ _ _ _ j H), IH. apply IHl.
Qed.

(** ... and the same field as upwind when products and quotients can be regrouped. *)
Theorem C48_same_as_upwind {D} (ar : arith D) ver dims v lengths a u dt n :
  regroups ar -> acc_args dims v lengths -> shorter_axes dims ->
  acc_object ar (has_old ver) dims v lengths a -> up_object ar dims v lengths u -> ac_f a = up_f u ->
  exists a' u', acc_run ar ver a n dt = Ok a' /\ up_advect ar 3 u n dt = Ok u' /\
    ac_f a' = up_f u' /\ acc_checksum ar a' = up_checksum ar u'.
Proof.
  intros HR (Ha & H3) Hsh Ho Hu Ef. destruct (C42_every_field ar _ _ _ _ Ha Hu) as (G & HG).
  assert (HG1 : acc_holds a dims G) by (unfold acc_holds; rewrite Ef; exact HG).
  destruct (C48_formula ar ver _ _ _ _ _ dt n (conj Ha H3) Hsh Ho HG1) as (a' & E & _ & Hb).
  assert (Hsh' : short_axes dims) by (intros j Hj; specialize (Hsh j Hj); lia).
  destruct (C42_advect ar _ _ _ _ G dt n Ha Hsh' Hu HG) as (u' & E' & _ & Hb').
  unfold vlen in E'. rewrite H3 in E'. exists a', u'.
  assert (Ef' : ac_f a' = up_f u') by (rewrite Hb, Hb'; apply map_ext; intros; apply iter_regroup; exact HR).
  repeat split; auto. unfold acc_checksum, up_checksum. rewrite Ef'. reflexivity.
Qed.
Print Assumptions C48_same_as_upwind.

(** The real numbers regroup ... *)
Theorem C48_reals : regroups arR.
Proof. split; intros; cbn [arR a_mul a_div]; [ring|unfold Rdiv; ring]. Qed.
Print Assumptions C48_reals.

(** ... doubles do not: with 7 cells along each axis the driver's two programs differ after one step. *)
Theorem C48_doubles_refuted :
  exists n steps r a s d t, up_body arD (fun x => x) n steps false false = Ok r /\
    acc_body arD Acc1 (fun x => x) n steps false false = Ok (a, s, d, t) /\ ac_f a <> up_f (ur_up r).
Proof.
  exists 7, 1.
  assert (H : (r <- up_body arD (fun x => x) 7 1 false false ;; ' (a, _, _, _) <- acc_body arD Acc1 (fun x => x) 7 1 false false ;;
     Ok (nth 1 (up_f (ur_up r)) S754_nan, nth 1 (ac_f a) S754_nan)) =
     Ok (S754_finite false 7205759403792794 (-56), S754_finite false 7205759403792793 (-56))) by (vm_compute; reflexivity).
  destruct (up_body arD (fun x => x) 7 1 false false) as [r|e]; [|discriminate]. cbn [bind] in H.
  destruct (acc_body arD Acc1 (fun x => x) 7 1 false false) as [[[[a s] d] t]|e]; [|discriminate]. cbn [bind] in H.
  exists r, a, s, d, t. repeat split. intros E. rewrite E in H. inversion H as [H']. rewrite H' in H. inversion H.
Qed.
Print Assumptions C48_doubles_refuted.

(** Objects with the same field: same spread and same file, bit for bit. *)
Theorem C48_same_output {D} (ar : arith D) dsqrt hasOld dims v lengths a u :
  acc_args dims v lengths -> shorter_axes dims ->
  acc_object ar hasOld dims v lengths a -> up_object ar dims v lengths u -> ac_f a = up_f u ->
  acc_checksum ar a = up_checksum ar u /\ acc_std ar dsqrt a = up_std ar dsqrt u /\ acc_saveVTK ar 3 a = up_saveVTK ar 3 u.
Proof.
  intros ((Hg & Hv & Hl) & H3) Hsh (a0 & f & old & E0 & Lf & _ & ->) Hu Ef. cbn [acc_setFields ac_f] in Ef.
  destruct (C42_every_field ar _ _ _ _ (conj Hg (conj Hv Hl)) Hu) as (G & HG).
  destruct (holds_of ar _ _ _ _ _ (conj Hg (conj Hv Hl)) Hu HG) as (old' & _ & ->). cbn [up_of up_f] in Ef. rewrite <- Ef. clear G HG Ef Hu.
  assert (Ep : 0 <= prodZ dims < 2 ^ 31) by (split; [unfold vlen in Lf; lia|apply Hg]).
  rewrite H3 in Hv, Hl. assert (Hd : forall j, (j < 3)%nat -> 0 < nth j dims 0 < 2 ^ 30).
  { intros j Hj. rewrite <- H3 in Hj. split; [apply (axis_range dims (up_big _ Hg) j Hj)|apply Hsh; exact Hj]. }
  destruct (length3 _ H3) as (na & nb & nc & ->). destruct (length3 _ Hv) as (v0 & v1 & v2 & ->). destruct (length3 _ Hl) as (l0 & l1 & l2 & ->).
  pose proof (acc_new_eq ar na nb nc v0 v1 v2 l0 l1 l2 Hg hasOld) as E. rewrite E0 in E. inversion E; subst a0. clear E E0.
  pose proof (Hd 0%nat ltac:(lia)) as D0. pose proof (Hd 1%nat ltac:(lia)) as D1. pose proof (Hd 2%nat ltac:(lia)) as D2. cbn [nth] in D0, D1, D2.
  split; [reflexivity|]. split; [reflexivity|].
  unfold acc_saveVTK, acc_vtk_axis, up_saveVTK, vtk_axis, up_of. cbn [acc_setFields acc_of ac_numCells ac_deltas ac_ntot ac_f up_numCells up_deltas up_ntot up_f].
  change (2 <? 3) with true. change (1 <? 3) with true. cbv iota. rewrite get0, get1, get2. cbn [bind].
  rewrite !int_op_ok by (unfold two31, int_max; lia). cbn [bind]. unfold sizes. cbn [map seq length].
  rewrite get0, get1, get2. cbn [bind]. rewrite !u64_id by (unfold two64; lia). reflexivity.
Qed.
Print Assumptions C48_same_output.

(** The drivers over the real numbers: same field, same printed numbers, same final file; upwindAcc has no option -std. *)
Lemma acc_std_eq dims v lengths a : acc_args dims v lengths -> forall b, acc_object arR b dims v lengths a ->
  exists s, acc_std arR sqrt a = Ok s.
Proof.
  intros (Ha & H3) b (a0 & f & old & E0 & Lf & _ & ->). unfold acc_std. cbn [ac_f acc_setFields].
  match goal with |- context [for_upto ?c ?bd ?s] => destruct (for_upto_inv (fun _ _ => True) bd c s) as (t & -> & _) end; auto.
  - intros i s Hi _. assert (Hi' : (i < length f)%nat) by (unfold vlen in Hi; lia). rewrite (vget_nat f i 0%R) by exact Hi'. cbn [bind].
    pose proof (proj2 (proj2 (proj2 (proj1 Ha)))). unfold vlen in Lf. rewrite int_op_ok by (unfold two31, int_max; lia). cbn [bind].
    eexists; split; [reflexivity|auto].
  - cbn [bind]. eexists; reflexivity.
Qed.

Theorem C48_drivers ver n steps doVtk doStd : 1 <= n -> n * n * n < 2 ^ 31 ->
  exists r a s d t, up_body arR sqrt n steps doVtk doStd = Ok r /\
    acc_body arR ver sqrt n steps doVtk doStd = Ok (a, s, d, t) /\ ac_f a = up_f (ur_up r) /\ s = ur_sum r /\ s = 1%R /\
    d = (match ver with Acc1 => None | _ => ur_std r end) /\ t = ur_vtk1 r /\ (t = None <-> doVtk = false).
Proof.
  intros H1 H2. assert (Hn : n < 2 ^ 30) by nia.
  assert (Ep : prodZ [n; n; n] = n * n * n) by (rewrite !prodZ_cons; change (prodZ []) with 1; ring).
  set (o3 := [1%R; 1%R; 1%R]).
  assert (Ha : up_args [n; n; n] o3 o3).
  { repeat split; try discriminate; try reflexivity; [|rewrite Ep; exact H2]. intros [|[|[|j]]] Hj; simpl in *; lia. }
  assert (Hsh : shorter_axes [n; n; n]) by (intros [|[|[|j]]] Hj; simpl in *; lia).
  assert (Hsh' : short_axes [n; n; n]) by (intros j Hj; specialize (Hsh j Hj); lia).
  destruct (C42_constructor arR [n; n; n] o3 o3 Ha) as (u & Eu & Hu & HG).
  destruct (C48_constructor arR (has_old ver) [n; n; n] o3 o3 (conj Ha eq_refl)) as (a & Ea & Hoa & HGa).
  set (dt := (1 / 10 / IZR n)%R).
  destruct (C54_driver n steps doVtk doStd H1 H2) as (r & dt' & Er & Edt' & Enc & _ & Esum & _).
  assert (Edt : up_dt arR o3 o3 [n; n; n] = Ok dt) by (apply up_dt_driver; lia).
  destruct (C48_same_as_upwind arR ver _ _ _ a u dt steps C48_reals (conj Ha eq_refl) Hsh Hoa Hu (eq_trans HGa (eq_sym HG))) as (a' & u' & Ea' & Eu' & Ef & Ec).
  destruct (C48_formula arR ver _ _ _ _ _ dt steps (conj Ha eq_refl) Hsh Hoa HGa) as (a'' & Ea'' & Ho'' & Hh'').
  rewrite Ea' in Ea''. inversion Ea''; subst a''.
  destruct (C42_advect arR _ _ _ _ _ dt steps Ha Hsh' Hu HG) as (u'' & Eu'' & Hu'' & _).
  change (vlen [n; n; n]) with 3 in Eu''. rewrite Eu' in Eu''. inversion Eu''; subst u''.
  destruct (C48_same_output arR sqrt _ _ _ _ a' u' (conj Ha eq_refl) Hsh Ho'' Hu'' Ef) as (_ & Esd & Evtk).
  revert Er. unfold up_body. rewrite u64_id by (unfold two64; lia). rewrite dec10R. change (repeat n 3) with [n; n; n]. change (repeat 1%R 3) with o3.
  rewrite Edt. cbn [bind]. change (vlen [n; n; n]) with 3 in Eu. rewrite Eu. cbn [bind].
  destruct (if doVtk then r <- up_saveVTK arR 3 u ;; _ else _) as [f0|]; [|discriminate]. cbn [bind]. rewrite Eu'. cbn [bind].
  destruct (acc_std_eq _ _ _ a' (conj Ha eq_refl) _ Ho'') as (sd & Es). rewrite Esd in Es. rewrite Es.
  replace (if doStd then _ else _) with (Ok (if doStd then Some sd else None)) by (destruct doStd; reflexivity). cbn [bind].
  destruct (if doVtk then r <- up_saveVTK arR 3 u' ;; _ else _) as [f1|] eqn:E1; [|discriminate]. cbn [bind]. intros Er. inversion Er; subst r. clear Er.
  cbn [ur_up ur_sum ur_std ur_vtk1] in *.
  eexists _, a', (acc_checksum arR a'), (match ver with Acc1 => None | _ => if doStd then Some sd else None end), f1.
  split; [reflexivity|]. cbn [ur_up ur_sum ur_std ur_vtk1]. split.
  - unfold acc_body. rewrite dec10R. change (repeat n 3) with [n; n; n]. change (repeat 1%R 3) with o3. rewrite Edt. cbn [bind].
    fold (has_old ver). rewrite Ea. cbn [bind]. rewrite Ea'. cbn [bind]. rewrite Esd, Es, Evtk. cbn [bind]. rewrite E1.
    destruct ver, doStd; reflexivity.
  - split; [exact Ef|]. split; [exact Ec|]. split; [rewrite Ec; exact Esum|]. split; [reflexivity|]. split; [reflexivity|].
    destruct doVtk; [|inversion E1; split; reflexivity]. destruct (up_saveVTK arR 3 u'); inversion E1. split; discriminate.
Qed.
Print Assumptions C48_drivers.

(** C60: the kernels assume three axes *)
Lemma for_from_reaches {St} (body : Z -> St -> res St) c : forall k s t, for_from k c body s = Ok t ->
  forall i, (k <= i < k + c)%nat -> exists s' t', body (Z.of_nat i) s' = Ok t'.
Proof.
  induction c as [|c IH]; intros k s t E i Hi; [lia|]. cbn [for_from] in E.
  destruct (body (Z.of_nat k) s) as [s1|] eqn:Eb; [|discriminate]. cbn [bind] in E.
  destruct (Nat.eq_dec i k) as [->|Hne]; [exists s, s1; exact Eb|]. apply (IH _ _ _ E). lia.
Qed.

Lemma bind_ok {A B} (r : res A) (k : A -> res B) b : bind r k = Ok b -> exists a, r = Ok a /\ k a = Ok b.
Proof. destruct r as [a|]; [|discriminate]. intros E. exists a. auto. Qed.

Lemma tabulate_length {A} n (f : Z -> res A) l : tabulate n f = Ok l -> vlen l = Z.max 0 n.
Proof.
  unfold tabulate. assert (H : forall c k l, tab_from k c f = Ok l -> length l = c).
  { induction c as [|c IH]; intros k m E; cbn [tab_from] in E; [inversion E; reflexivity|].
    apply bind_ok in E as (a & _ & E). apply bind_ok in E as (b & E1 & E). inversion E. simpl. f_equal. eapply IH. exact E1. }
  intros E. apply H in E. unfold vlen. lia.
Qed.

Theorem C60_fewer_axes {D} (ar : arith D) NDIMS a dt a' : NDIMS <= 2 -> 0 < ac_ntot a -> acc1_advect ar NDIMS a dt <> Ok a'.
Proof.
  intros Hd Hn E. unfold acc1_advect in E. apply bind_ok in E as (f & E & _). unfold acc_cells, for_upto in E.
  destruct (for_from_reaches _ _ _ _ _ E 0%nat ltac:(lia)) as (f1 & f2 & Ec). unfold acc_cell in Ec.
  apply bind_ok in Ec as (inds & Ei & Ec). apply tabulate_length in Ei. apply bind_ok in Ec as ([u f3] & Ef & _).
  unfold for_upto in Ef. change (Z.to_nat 3) with 3%nat in Ef. cbn [for_from] in Ef. apply bind_ok in Ef as ([u0 g0] & E0 & _).
  change (Z.of_nat 0) with 0 in E0. unfold acc_axis in E0. destruct (Z.ltb_spec 0 NDIMS) as [H|H].
  - apply bind_ok in E0 as (o & E0 & _). apply bind_ok in E0 as (o' & E0 & _). unfold acc_upI in E0.
    apply bind_ok in E0 as (? & _ & E0). apply bind_ok in E0 as (? & _ & E0). apply bind_ok in E0 as (? & _ & E0). apply bind_ok in E0 as (? & E0 & _).
    unfold acc_term in E0. apply bind_ok in E0 as (? & _ & E0). apply bind_ok in E0 as (? & E0 & _). unfold vget in E0.
    replace ((0 <=? 2) && (2 <? vlen inds)) with false in E0 by (symmetry; apply andb_false_iff; right; apply Z.ltb_ge; lia). discriminate.
  - cbn [bind] in E0. apply bind_ok in E0 as (? & _ & E0). discriminate.
Qed.
Print Assumptions C60_fewer_axes.

(** ... and an index plus the number of cells of the axis must fit in an int. *)
Theorem C60_long_axis_refuted :
  exists (dims : list Z) (v lengths : list R) (a : accel R), acc_args dims v lengths /\ short_axes dims /\
    acc_object arR false dims v lengths a /\ forall dt a', acc1_advect arR 3 a dt <> Ok a'.
Proof.
  destruct (exist (fun n => n = 2 ^ 30) (2 ^ 30) eq_refl) as (n & Hn).
  set (v := [(-1)%R; 1%R; 1%R]). set (o3 := [1%R; 1%R; 1%R]).
  assert (Ep : prodZ [n; 1; 1] = n) by (rewrite !prodZ_cons; change (prodZ []) with 1; ring).
  assert (Hg : up_grid [n; 1; 1]).
  { split; [discriminate|]. split; [simpl; lia|]. split; [|rewrite Ep; lia]. intros [|[|[|j]]] Hj; simpl in *; lia. }
  assert (Ha : acc_args [n; 1; 1] v o3) by (split; [split; [exact Hg|split; reflexivity]|reflexivity]).
  destruct (C48_constructor arR false _ _ _ Ha) as (a & Ea & Hoa & _).
  exists [n; 1; 1], v, o3, a. split; [exact Ha|]. split; [intros [|[|[|j]]] Hj; simpl in *; lia|]. split; [exact Hoa|].
  intros dt a' E. pose proof (acc_new_eq arR n 1 1 (-1)%R 1%R 1%R 1%R 1%R 1%R Hg false) as E0. fold v o3 in E0. rewrite Ea in E0. inversion E0; subst a. clear E0.
  unfold acc1_advect in E. apply bind_ok in E as (f & E & _). unfold acc_cells, for_upto in E.
  match type of E with for_from 0 (Z.to_nat (ac_ntot ?a)) _ _ = _ => change (ac_ntot a) with (prodZ [n; 1; 1]) in E end.
  destruct (for_from_reaches _ _ _ _ _ E (Z.to_nat (n - 1)) ltac:(lia)) as (f1 & f2 & Ec). unfold acc_cell in Ec.
  apply bind_ok in Ec as (inds & Ei & Ec). rewrite acc_inds_eq in Ei by (auto; lia). inversion Ei; subst inds. clear Ei.
  apply bind_ok in Ec as ([u f3] & Ef & _).
  unfold for_upto in Ef. change (Z.to_nat 3) with 3%nat in Ef. cbn [for_from] in Ef. apply bind_ok in Ef as ([u0 g0] & E0 & _).
  change (Z.of_nat 0) with 0 in E0. unfold acc_axis in E0. change (0 <? 3) with true in E0. cbv iota in E0.
  apply bind_ok in E0 as (o & E0 & _). apply bind_ok in E0 as (o' & E0 & _). unfold acc_upI in E0.
  apply bind_ok in E0 as (? & E0 & _). unfold acc_term in E0. apply bind_ok in E0 as (? & _ & E0). apply bind_ok in E0 as (xx & Ex & E0).
  assert (xx = n - 1).
  { rewrite get0 in Ex. inversion Ex as [Ex']. rewrite !prodZ_cons. change (prodZ []) with 1. rewrite !Z.mul_1_r, Z.div_1_r. rewrite Z.mod_small; lia. }
  subst xx. apply bind_ok in E0 as (? & E0 & _). change (0 =? 0) with true in E0. cbv iota in E0.
  unfold acc_of in E0; cbn [ac_upDirection ac_numCells] in E0. unfold sides, v in E0. cbn [map] in E0. rewrite !get0 in E0. cbn [bind] in E0.
  assert (Hs : upwind_side arR (-1)%R = 1).
  { unfold upwind_side. cbn [arR a_lt a_dec]. destruct (Rlt_dec _ _) as [_|H]; [reflexivity|]. exfalso. apply H. simpl. lra. }
  rewrite Hs in E0. rewrite int_op_ok in E0 by (unfold two31, int_max; lia). cbn [bind] in E0.
  replace (n - 1 + 1 + n) with (2 ^ 31) in E0 by lia. discriminate.
Qed.
Print Assumptions C60_long_axis_refuted.

(** ** Examples *)
Example C48_hypotheses : acc_args [2; 3; 4] [1%Q; (-2)%Q; 1%Q] [1%Q; 3%Q; 2%Q] /\ shorter_axes [2; 3; 4].
Proof.
  split; [|intros [|[|[|j]]] Hj; simpl in *; lia]. repeat split; try discriminate; try reflexivity; try (simpl; lia).
  intros [|[|[|j]]] Hj; simpl in *; lia.
Qed.

Example C48_example :
  (a <- acc_new arQ true 3 [1%Q; (-2)%Q; 1%Q] [1%Q; 3%Q; 2%Q] [2; 3; 4] ;; a <- acc_run arQ Acc2 a 2 (1 # 8)%Q ;; Ok (ac_f a)) =
  (u <- up_new arQ 3 [1%Q; (-2)%Q; 1%Q] [1%Q; 3%Q; 2%Q] [2; 3; 4] ;; u <- up_advect arQ 3 u 2 (1 # 8)%Q ;; Ok (up_f u)) /\
  (a <- acc_new arQ true 3 [1%Q; (-2)%Q; 1%Q] [1%Q; 3%Q; 2%Q] [2; 3; 4] ;; a <- acc_run arQ Acc2 a 2 (1 # 8)%Q ;; Ok (firstn 6 (ac_f a))) =
  Ok [1 # 8; 1 # 8; 1 # 16; 0; 1 # 16; 0]%Q.
Proof. vm_compute. split; reflexivity. Qed.

Example C48_example_main :
  (r <- acc_main arQ Omp5 (fun x => x) (fun _ => 0%Q) ["upwindOMP5"%string; "-numCells"%string; "2"%string; "-numSteps"%string; "2"%string] ;;
   Ok (match r with Some (a, s, _, _) => Some (s, ac_f a) | None => None end)) =
  Ok (Some (1%Q, [13 # 25; 7 # 50; 7 # 50; 1 # 50; 7 # 50; 1 # 50; 1 # 50; 0]%Q)).
Proof. vm_compute. reflexivity. Qed.
