(** * Properties of the Julia versions of the upwind benchmark: C78, C79 *)
From Coq Require Import List ZArith Bool Lia Permutation Reals Lra String SpecFloat.
From Flocq Require Import Core BinarySingleNaN.
From Verif Require Import Cpp CppProof MaiModel MaiSpec Radix MaiProof CmdModel CdModel CdSpec FilterModel FilterSpec FilterProof
  FilterSum RealArith Ieee Double DblSpec DblProof DblField DblSten LapSpec LapProof VtkModel UpModel UpSpec UpProof UpExact UpProps AccModel AccSpec AccProof AccProps
  UpMpiProps DblProps ParModel ParSpec ParProof LangSpec FortModel FortProof FortProps NumModel NumSpec NumProof TextModel TextSpec TextProof PySpec PyModel PyProof PyProps
  JlSpec JlModel JlProof.
From Coq Require Import List.
Import ListNotations.
Local Open Scope Z_scope.
Local Arguments prodZ : simpl never.
Local Arguments Z.of_nat : simpl never.

(** An object built by the constructor, the field being arbitrary. *)
Definition jl_object {D} (ar : arith D) (dims : list Z) (v lengths : list D) (o : jl D) : Prop :=
  exists o0 f, jl_new ar (vlen dims) v lengths dims = Ok o0 /\ vlen f = prodZ dims /\ o = jl_setF o0 f.
Definition j3_object {D} (ar : arith D) (dims : list Z) (v lengths : list D) (o : jl3 D) : Prop :=
  exists o0 f, j3_new ar (vlen dims) v lengths dims = Ok o0 /\ vlen f = prodZ dims /\ o = j3_setF o0 f.

Lemma firsts_vlen {D} dims (G : list Z -> D) : big_grid dims -> vlen (map G (cells_first dims)) = prodZ dims.
Proof. intros H. unfold vlen. rewrite firsts_map_length by exact H. pose proof (prod_range dims H). lia. Qed.

Lemma jl_object_of {D} (ar : arith D) dims v lengths o : large_args dims v lengths ->
  (jl_object ar dims v lengths o <-> exists f, vlen f = prodZ dims /\ o = jl_of ar dims v lengths f).
Proof.
  intros (Hg & Hv & Hl). unfold jl_object, vlen at 1. rewrite jl_new_eq by auto. split.
  - intros (p0 & f & E & L & ->). injection E as <-. exists f. split; [exact L|reflexivity].
  - intros (f & L & ->). eexists _, f. split; [reflexivity|]. split; [exact L|reflexivity].
Qed.
Lemma j3_object_of {D} (ar : arith D) dims v lengths o : large_args dims v lengths ->
  (j3_object ar dims v lengths o <-> exists f, vlen f = prodZ dims /\ o = j3_of ar dims v lengths f).
Proof.
  intros (Hg & Hv & Hl). unfold j3_object, vlen at 1. rewrite j3_new_eq by auto. split.
  - intros (p0 & f & E & L & ->). injection E as <-. exists f. split; [exact L|reflexivity].
  - intros (f & L & ->). eexists _, f. split; [reflexivity|]. split; [exact L|reflexivity].
Qed.

(** ** C78 *)

(** The constructors: one in the first cell, zero in the others. *)
Theorem C78_constructor {D} (ar : arith D) dims v lengths :
  large_args dims v lengths ->
  exists o o3, jl_new ar (vlen dims) v lengths dims = Ok o /\ jl_object ar dims v lengths o /\
               j3_new ar (vlen dims) v lengths dims = Ok o3 /\ j3_object ar dims v lengths o3 /\
               jl_f o = map (corner (a_ofZ ar 0) (a_dec ar 10 1) dims) (cells_first dims) /\ jl_f (j3_obj o3) = jl_f o.
Proof.
  intros Ha. pose proof Ha as (Hg & Hv & Hl). eexists _, _. split; [apply jl_new_eq; auto|]. split.
  - apply jl_object_of; auto. eexists. split; [apply firsts_vlen, Hg|reflexivity].
  - split; [apply j3_new_eq; auto|]. split; [|split; reflexivity]. apply j3_object_of; auto. eexists. split; [apply firsts_vlen, Hg|reflexivity].
Qed.
Print Assumptions C78_constructor.

(** getFlatIndex and getIndexSet are inverse to each other. *)
Theorem C78_index_functions {D} (ar : arith D) dims v lengths o i :
  large_args dims v lengths -> jl_object ar dims v lengths o -> 1 <= i <= prodZ dims ->
  exists inds, jl_getIndexSet o i = Ok inds /\ List.length inds = List.length dims /\
    (forall j, (j < List.length dims)%nat -> 1 <= nth j inds 0 <= nth j dims 0) /\
    nth_error (cells_first dims) (Z.to_nat (i - 1)) = Some (map (fun x => x - 1) inds) /\ jl_getFlatIndex o inds = Ok i.
Proof.
  intros Ha Ho Hi. pose proof Ha as (Hg & _). apply (jl_object_of ar _ _ _ _ Ha) in Ho as (f & L & ->). exists (plus1 (digs false dims (i - 1))).
  pose proof (big_allpos _ Hg) as Hp. pose proof (digs_digit_vec false dims (i - 1) Hp) as Hd.
  replace i with (i - 1 + 1) at 1 by ring. split; [apply jl_getIndexSet_eq; [exact Hg|lia]|]. split; [rewrite plus1_length, digs_length; reflexivity|]. split.
  - intros j Hj. rewrite plus1_nth by (rewrite digs_length; exact Hj). destruct Hd as [_ Hd]. specialize (Hd j Hj). lia.
  - split.
    + rewrite (first_at dims _ Hg) by lia. rewrite Z2Nat.id by lia. f_equal. unfold plus1. rewrite map_map. rewrite <- (map_id (digs _ _ _)) at 1. apply map_ext. intros x. ring.
    + unfold jl_of. rewrite jl_getFlatIndex_eq by assumption. f_equal. rewrite dot_digs by exact Hp. rewrite Z.mod_small by lia. ring.
Qed.
Print Assumptions C78_index_functions.

(** One call of advect! of upwind.jl: the upwind scheme, with (dt v (+-1) / dx) (f(upwind neighbour) - f) evaluated in this
    order, provided the global variable up holds an object with the same grid (its velocity, lengths and field do not matter). *)
Theorem C78_one_call {D} (ar : arith D) dims v lengths v' lengths' up this G dt :
  large_args dims v lengths -> large_args dims v' lengths' ->
  jl_object ar dims v' lengths' up -> jl_object ar dims v lengths this -> jl_f this = map G (cells_first dims) ->
  exists this', jl_advect ar up this dt = Ok this' /\ jl_object ar dims v lengths this' /\
    jl_f this' = map (scheme ar (cxx_term ar dims v lengths dt) dims v G) (cells_first dims).
Proof.
  intros Ha Ha' Hu Ho HG. apply (jl_object_of ar _ _ _ _ Ha) in Ho as (f & L & ->). apply (jl_object_of ar _ _ _ _ Ha') in Hu as (f' & L' & ->).
  cbn [jl_of jl_f] in HG. subst f. pose proof Ha as (Hg & Hv & Hl). unfold jl_of at 1. rewrite jl_advect_eq by auto.
  eexists. split; [reflexivity|]. split; [|reflexivity]. apply jl_object_of; auto. eexists. split; [apply firsts_vlen, Hg|reflexivity].
Qed.
Print Assumptions C78_one_call.

(** The time loops of upwind.jl and upwind3.jl: the scheme, any number of times. *)
Theorem C78_advect {D} (ar : arith D) dims v lengths o G dt n :
  large_args dims v lengths -> jl_object ar dims v lengths o -> jl_f o = map G (cells_first dims) ->
  exists o', jl_run ar o n dt = Ok o' /\ jl_object ar dims v lengths o' /\
    jl_f o' = map (scheme_iter ar (Z.to_nat n) (cxx_term ar dims v lengths dt) dims v G) (cells_first dims).
Proof.
  intros Ha Ho HG. apply (jl_object_of ar _ _ _ _ Ha) in Ho as (f & L & ->). cbn [jl_of jl_f] in HG. subst f. pose proof Ha as (Hg & Hv & Hl).
  rewrite jl_run_eq by auto. eexists. split; [reflexivity|]. split; [|reflexivity]. apply jl_object_of; auto. eexists. split; [apply firsts_vlen, Hg|reflexivity].
Qed.
Print Assumptions C78_advect.

Theorem C78_advect3 {D} (ar : arith D) dims v lengths o G dt n :
  large_args dims v lengths -> float_axes dims -> j3_object ar dims v lengths o -> jl_f (j3_obj o) = map G (cells_first dims) ->
  exists o', j3_run ar o n dt = Ok o' /\ j3_object ar dims v lengths o' /\
    jl_f (j3_obj o') = map (scheme_iter ar (Z.to_nat n) (cxx_term ar dims v lengths dt) dims v G) (cells_first dims).
Proof.
  intros Ha Hf Ho HG. apply (j3_object_of ar _ _ _ _ Ha) in Ho as (f & L & ->). cbn [j3_of j3_obj jl_of jl_f] in HG. subst f. pose proof Ha as (Hg & Hv & Hl).
  rewrite j3_run_eq by auto. eexists. split; [reflexivity|]. split; [|reflexivity]. apply j3_object_of; auto. eexists. split; [apply firsts_vlen, Hg|reflexivity].
Qed.
Print Assumptions C78_advect3.

(** Every field is a function of the cell. *)
Lemma first_field {D} (ar : arith D) dims (f : list D) : large_grid dims -> vlen f = prodZ dims -> exists G, f = map G (cells_first dims).
Proof.
  intros Hg L. exists (fun g => nth (Z.to_nat (dot (strd false dims) g)) f (a_zero ar)). pose proof (prod_range dims Hg) as P. pose proof (big_allpos dims Hg) as Hp. unfold vlen in L.
  apply (nth_ext' (a_zero ar)); [rewrite firsts_map_length by exact Hg; lia|]. intros i Hi. rewrite (firsts_nth (a_zero ar) dims _ i Hg) by lia.
  rewrite dot_digs by exact Hp. rewrite Z.mod_small, Nat2Z.id by lia. reflexivity.
Qed.

(** The two versions compute the same field, to the last bit. *)
Theorem C78_versions_agree {D} (ar : arith D) dims v lengths o o3 dt n :
  large_args dims v lengths -> float_axes dims -> jl_object ar dims v lengths o -> j3_object ar dims v lengths o3 -> jl_f o = jl_f (j3_obj o3) ->
  exists o' o3', jl_run ar o n dt = Ok o' /\ j3_run ar o3 n dt = Ok o3' /\ jl_f o' = jl_f (j3_obj o3').
Proof.
  intros Ha Hf Ho H3 E. pose proof Ho as Ho'. apply (jl_object_of ar _ _ _ _ Ha) in Ho' as (f & L & Eo).
  destruct (first_field ar dims f (proj1 Ha) L) as (G & HG). assert (HGo : jl_f o = map G (cells_first dims)) by (rewrite Eo; exact HG).
  destruct (C78_advect ar _ _ _ _ _ dt n Ha Ho HGo) as (o' & E1 & _ & H1'). rewrite E in HGo.
  destruct (C78_advect3 ar _ _ _ _ _ dt n Ha Hf H3 HGo) as (o3' & E2 & _ & H2'). exists o', o3'. rewrite H1', H2'. auto.
Qed.
Print Assumptions C78_versions_agree.

(** The same number in every cell, to the last bit, as the C++ version, which lists the cells with the last index varying fastest. *)
Lemma up_large {D} dims (v lengths : list D) : up_args dims v lengths -> large_args dims v lengths.
Proof. intros (Hg & Hv & Hl). split; [exact (up_big _ Hg)|auto]. Qed.

Theorem C78_same_as_cxx {D} (ar : arith D) dims v lengths o u G dt n :
  up_args dims v lengths -> short_axes dims ->
  jl_object ar dims v lengths o -> up_object ar dims v lengths u -> jl_f o = map G (cells_first dims) -> up_f u = map G (cells dims) ->
  exists o' u' F, jl_run ar o n dt = Ok o' /\ up_advect ar (vlen dims) u n dt = Ok u' /\
    jl_f o' = map F (cells_first dims) /\ up_f u' = map F (cells dims).
Proof.
  intros Ha Hsh Ho Hu HG HG'. destruct (C42_advect ar _ _ _ _ G dt n Ha Hsh Hu HG') as (u' & Eu & _ & Hu'). unfold holds in *.
  destruct (C78_advect ar _ _ _ _ G dt n (up_large _ _ _ Ha) Ho HG) as (o' & Eo & _ & Ho'). rewrite upwind_iter_scheme in Hu'.
  exists o', u'. eexists. split; [exact Eo|]. split; [exact Eu|]. split; [exact Ho'|exact Hu'].
Qed.
Print Assumptions C78_same_as_cxx.

(** Both lists name every cell once: the values are the same up to their order. *)
Theorem C78_same_values {D} dims (F : list Z -> D) : Permutation (map F (cells_first dims)) (map F (cells dims)).
Proof. apply Permutation_map, firsts_perm. Qed.
Print Assumptions C78_same_values.

(** When the global variable up holds an object with another grid, advect! takes the neighbours of that grid: for 2 x 3 cells
    and up with 2 x 2 cells nothing fails, and the field is not that of the scheme. *)
Theorem C78_global_refuted :
  exists up this this', jl_new arInt 2 [1; 1] [2; 2] [2; 2] = Ok up /\ jl_new arInt 2 [1; 1] [2; 3] [2; 3] = Ok this /\
    jl_advect arInt up this 1 = Ok this' /\
    jl_f this' <> map (scheme arInt (cxx_term arInt [2; 3] [1; 1] [2; 3] 1) [2; 3] [1; 1] (corner 0 1 [2; 3])) (cells_first [2; 3]).
Proof.
  do 3 eexists. split; [vm_compute; reflexivity|]. split; [vm_compute; reflexivity|]. split; [vm_compute; reflexivity|]. vm_compute. discriminate.
Qed.
Print Assumptions C78_global_refuted.

(** ** The programs *)
Lemma jl_dt_eq {D} (ar : arith D) n : jl_dt ar 3 (repeat (a_ofZ ar 1) 3) (repeat (a_ofZ ar 1) 3) (repeat n 3) = Ok (Some (py_step ar n)).
Proof.
  unfold jl_dt, f_do, for_upto. change (Z.to_nat 3) with 3%nat. cbn [for_from]. change (Z.of_nat 0 + 1) with 1. change (Z.of_nat 1 + 1) with 2. change (Z.of_nat 2 + 1) with 3.
  repeat (change (fget (repeat (a_ofZ ar 1) 3) ?k) with (Ok (a_ofZ ar 1)); change (fget (repeat n 3) ?k) with (Ok n); cbn [bind]).
  change (a_div ar (a_mul ar (a_dec ar 1 1) (a_div ar (a_ofZ ar 1) (a_ofZ ar n))) (a_ofZ ar 1)) with (py_step ar n).
  destruct (a_lt ar (py_step ar n) (py_step ar n)) eqn:E; rewrite ?E; reflexivity.
Qed.

Lemma cube_large {D} (x : D) n : 1 <= n < 2 ^ 20 -> large_args [n; n; n] [x; x; x] [x; x; x] /\ float_axes [n; n; n].
Proof.
  intros H. split; [|repeat constructor; lia]. split; [|split; reflexivity]. split; [discriminate|]. split; [reflexivity|]. split.
  - intros [|[|[|j]]] Hj; cbn in *; lia.
  - change (fold_right Z.mul 1 [n; n; n]) with (prodZ [n; n; n]). rewrite cube_prod. assert (n * n <= (2 ^ 20 - 1) * (2 ^ 20 - 1)) by nia. nia.
Qed.

Definition jl_final {D} (ar : arith D) (n steps : Z) : list D :=
  let o3 := repeat (a_ofZ ar 1) 3 in
  map (scheme_iter ar (Z.to_nat steps) (cxx_term ar [n; n; n] o3 o3 (py_step ar n)) [n; n; n] o3 (corner (a_ofZ ar 0) (a_dec ar 10 1) [n; n; n])) (cells_first [n; n; n]).

Lemma jl_body_eq {D} (ar : arith D) n steps : 1 <= n < 2 ^ 20 -> exists o, jl_body ar n steps = Ok o /\ jl_f o = jl_final ar n steps.
Proof.
  intros H. destruct (cube_large (a_ofZ ar 1) n H) as (Ha & _). destruct (C78_constructor ar _ _ _ Ha) as (o & _ & Eo & Ho & _ & _ & Hf & _).
  destruct (C78_advect ar _ _ _ _ _ (py_step ar n) steps Ha Ho Hf) as (o' & Eo' & _ & Hf').
  exists o'. split; [|exact Hf']. unfold jl_body. rewrite jl_dt_eq. cbn [bind]. change (repeat n 3) with [n; n; n]. change (vlen [n; n; n]) with 3 in Eo.
  change (repeat (a_ofZ ar 1) 3) with [a_ofZ ar 1; a_ofZ ar 1; a_ofZ ar 1]. rewrite Eo. cbn [bind]. exact Eo'.
Qed.
Lemma j3_body_eq {D} (ar : arith D) n steps : 1 <= n < 2 ^ 20 -> exists o, j3_body ar n steps = Ok o /\ jl_f (j3_obj o) = jl_final ar n steps.
Proof.
  intros H. destruct (cube_large (a_ofZ ar 1) n H) as (Ha & Hfl). destruct (C78_constructor ar _ _ _ Ha) as (o1 & o & _ & _ & Eo & Ho & Hf0 & Hf). rewrite Hf0 in Hf.
  destruct (C78_advect3 ar _ _ _ _ _ (py_step ar n) steps Ha Hfl Ho Hf) as (o' & Eo' & _ & Hf').
  exists o'. split; [|exact Hf']. unfold j3_body. change (repeat n 3) with [n; n; n]. change (vlen [n; n; n]) with 3 in Eo.
  change (repeat (a_ofZ ar 1) 3) with [a_ofZ ar 1; a_ofZ ar 1; a_ofZ ar 1]. rewrite Eo. cbn [bind]. pose proof (jl_dt_eq ar n) as Ed.
  change (repeat (a_ofZ ar 1) 3) with [a_ofZ ar 1; a_ofZ ar 1; a_ofZ ar 1] in Ed. change (repeat n 3) with [n; n; n] in Ed. rewrite Ed. cbn [bind]. exact Eo'.
Qed.

(** For fewer than 2^20 cells along an axis the computations end normally exactly when the number of cells is positive. *)
Theorem C78_body_iff {D} (ar : arith D) n steps : Z.abs n < 2 ^ 20 ->
  ((exists o, jl_body ar n steps = Ok o) <-> 1 <= n) /\ ((exists o, j3_body ar n steps = Ok o) <-> 1 <= n).
Proof.
  intros Hn.
  assert (Hnew : forall o, jl_new ar 3 (repeat (a_ofZ ar 1) 3) (repeat (a_ofZ ar 1) 3) [n; n; n] = Ok o -> 1 <= n).
  { intros o E. destruct (Z_le_gt_dec 1 n) as [H|H]; [exact H|exfalso]. unfold jl_new in E. cbv beta iota in E. change (3 <? 0) with false in E. cbv iota in E.
    pose proof (jl_axes_gen ar [n; n; n] (repeat (a_ofZ ar 1) 3) (repeat (a_ofZ ar 1) 3) eq_refl eq_refl) as Ea. change (Z.of_nat (List.length [n; n; n])) with 3 in Ea.
    rewrite Ea in E.
    - cbn [bind] in E. apply bind_ok in E as (dp & _ & E). rewrite cube_prod in E. destruct (Z.ltb_spec (n * n * n) 0) as [|Hp]; [discriminate|].
      apply bind_ok in E as (f & Ef & _). unfold fset in Ef. apply vset_inv in Ef as (Hr & _). unfold vlen in Hr. rewrite repeat_length in Hr. assert (0 <= n * n) by nia. nia.
    - assert (A2 : Z.abs (n * n) <= 2 ^ 40) by (rewrite Z.abs_mul; nia). assert (A3 : Z.abs (n * (n * n)) <= 2 ^ 60) by (rewrite Z.abs_mul; nia).
      intros [|[|[|[|i]]]]; cbn [firstn]; rewrite ?firstn_nil, ?prodZ_cons; change (prodZ []) with 1; rewrite ?Z.mul_1_r; lia. }
  split; split.
  - intros (o & E). unfold jl_body in E. rewrite jl_dt_eq in E. cbn [bind] in E. apply bind_ok in E as (o0 & E & _). exact (Hnew o0 E).
  - intros H. destruct (jl_body_eq ar n steps ltac:(lia)) as (o & E & _). eauto.
  - intros (o & E). unfold j3_body, j3_new in E. apply bind_ok in E as (o0 & E & _). apply bind_ok in E as (o1 & E & _). exact (Hnew o1 E).
  - intros H. destruct (j3_body_eq ar n steps ltac:(lia)) as (o & E & _). eauto.
Qed.
Print Assumptions C78_body_iff.

(** In the real numbers: in every cell the value of the C++ program run with -numCells n -numSteps steps; the check sum is one. *)
Theorem C78_driver n steps doVtk doStd : 1 <= n -> n * n * n < 2 ^ 31 ->
  exists o o3 r F, jl_body arR n steps = Ok o /\ j3_body arR n steps = Ok o3 /\ up_body arR sqrt n steps doVtk doStd = Ok r /\
    jl_f o = map F (cells_first [n; n; n]) /\ jl_f (j3_obj o3) = jl_f o /\ up_f (ur_up r) = map F (cells [n; n; n]) /\
    (forall psum, sums arR psum -> psum (jl_f o) = 1%R).
Proof.
  intros H1 H2. assert (H3 : 1 <= n < 2 ^ 20) by nia. destruct (C54_driver n steps doVtk doStd H1 H2) as (r & dt & Er & _ & _ & _ & Hs & _ & _).
  destruct (C42_driver arR sqrt n steps doVtk doStd ltac:(lia) H2) as (r' & dt' & Er' & Edt & Ef & Es). rewrite Er in Er'. injection Er' as <-.
  destruct (jl_body_eq arR n steps H3) as (o & Eo & Hf). destruct (j3_body_eq arR n steps H3) as (o3 & E3 & Hf3). unfold jl_final in *.
  assert (Edec : a_dec arR 10 1 = 1%R) by apply dec10R. assert (Ed : py_step arR n = dt').
  { pose proof (up_dt_driver n H1 ltac:(nia)) as E. rewrite Edec in Edt. rewrite Edt in E. injection E as ->. unfold py_step. cbn [arR a_div a_mul a_dec a_ofZ]. simpl.
    assert (1 <= IZR n)%R by (apply IZR_le; lia). field. lra. }
  exists o, o3, r. eexists. split; [exact Eo|]. split; [exact E3|]. split; [exact Er|]. split; [exact Hf|]. split; [rewrite Hf, Hf3; reflexivity|].
  assert (Hff : up_f (ur_up r) = map (scheme_iter arR (Z.to_nat steps) (cxx_term arR [n; n; n] (repeat (a_ofZ arR 1) 3) (repeat (a_ofZ arR 1) 3) (py_step arR n)) [n; n; n] (repeat (a_ofZ arR 1) 3)
     (corner (a_ofZ arR 0) (a_dec arR 10 1) [n; n; n])) (cells [n; n; n])).
  { rewrite Ef, Ed, upwind_iter_scheme, Edec. change [1%R; 1%R; 1%R] with (repeat (a_ofZ arR 1) 3). apply map_ext. intros g. apply scheme_iter_ext; [reflexivity|].
    intros h. symmetry. change 1%R with (a_ofZ arR 1). apply first_corner. cbn [arR a_dec a_ofZ]. simpl. lra. }
  split; [exact Hff|]. intros psum Hp. destruct (Hp (jl_f o)) as (zs & _ & Hz & Hr). rewrite (zeros_sum _ _ _ Hz Hr), Hf.
  rewrite (sum_perm arR (en_ring _ arR_exact) _ _ (C78_same_values [n; n; n] _)). rewrite <- Hff, <- Hs, Es.
  rewrite (sum_fold_left arR (en_ring _ arR_exact)). cbn [arR a_add a_dec]. simpl. lra.
Qed.
Print Assumptions C78_driver.

(** ** In IEEE doubles *)

(** In every cell the number, to the last bit, of the C++ program. *)
Theorem C78_doubles_same_as_cxx dsqrt n steps doVtk doStd : 1 <= n -> n * n * n < 2 ^ 31 ->
  exists o o3 r F, jl_body arD n steps = Ok o /\ j3_body arD n steps = Ok o3 /\ up_body arD dsqrt n steps doVtk doStd = Ok r /\
    jl_f o = map F (cells_first [n; n; n]) /\ jl_f (j3_obj o3) = jl_f o /\ up_f (ur_up r) = map F (cells [n; n; n]).
Proof.
  intros H1 H2. assert (H3 : 1 <= n < 2 ^ 20) by nia. destruct (C42_driver arD dsqrt n steps doVtk doStd ltac:(lia) H2) as (r & dt & Er & Edt & Ef & _).
  destruct (jl_body_eq arD n steps H3) as (o & Eo & Hf). destruct (j3_body_eq arD n steps H3) as (o3 & E3 & Hf3).
  change (a_dec arD 10 1) with one in *. rewrite py_dt_double in Edt by assumption. injection Edt as <-.
  exists o, o3, r. eexists. split; [exact Eo|]. split; [exact E3|]. split; [exact Er|]. split; [exact Hf|]. split; [rewrite Hf, Hf3; reflexivity|].
  rewrite Ef, upwind_iter_scheme. assert (Eo1 : a_ofZ arD 1 = one) by (vm_compute; reflexivity).
  change (repeat (a_ofZ arD 1) 3) with [a_ofZ arD 1; a_ofZ arD 1; a_ofZ arD 1].
  assert (Eo3 : [a_ofZ arD 1; a_ofZ arD 1; a_ofZ arD 1] = [one; one; one]) by (rewrite Eo1; reflexivity). rewrite Eo3.
  apply map_ext. intros g. apply scheme_iter_ext; [reflexivity|]. intros h. rewrite <- Eo1. symmetry. apply first_corner. vm_compute. reflexivity.
Qed.
Print Assumptions C78_doubles_same_as_cxx.

(** The check sum of such values, listed and added up in any order. *)
Lemma any_check_sum psum C sd n steps l : sums arD psum -> 1 <= n -> n * n * n < 2 ^ 31 -> 0 <= steps < 2 ^ 31 -> small_courant [n; n; n] C ->
  Permutation l (map (coef_iter arD [n; n; n] C sd (Z.to_nat steps) (first_cell arD [n; n; n])) (cells [n; n; n])) ->
  unit_values l /\ exists s, double_value (psum l) s /\ (Rabs (s - 1) <= (7 * IZR steps + 12 / 10 * (IZR (n * n * n) + 2)) / 2 ^ 53)%R.
Proof.
  intros Hps H1 H2 H4 HC Hperm. set (k := Z.to_nat steps) in *.
  pose proof (check_unit n H1 H2 _ _ k _ HC (eq_refl (map (coef_iter arD [n; n; n] C sd k (first_cell arD [n; n; n])) (cells [n; n; n])))) as Hu0.
  assert (Hu : unit_values l) by (intros x Hx; apply Hu0; exact (Permutation_in _ Hperm Hx)).
  pose proof (up_pos _ _ _ (driver_args n H1 H2)) as Hp. pose proof (small_values _ _ HC) as HC'. set (dims := [n; n; n]) in *.
  set (c := fun j => SF2R radix2 (C j)) in *. destruct (cells_number n H1 H2) as [N1 N2]. fold dims in N1.
  assert (L3 : (List.length dims <= 3)%nat) by apply le_n.
  pose proof (iter_field dims C sd c Hp L3 HC' k _ _ (start_field n)) as HF.
  pose proof (iter_total dims C sd c Hp L3 HC' k _ _ (start_field n) (start_total n H1 H2) ltac:(rewrite N1; exact N2) (steps_bound steps ltac:(lia))) as HT.
  fold dims in HF. set (G := coef_iter arD dims C sd k (first_cell arD dims)) in *. set (F := rounded_iter dims sd c k start) in *.
  destruct (Hps l) as (zs & Lz & Hz & Hr).
  assert (Vz : forall z, In z zs -> double_value z 0%R).
  { intros z Hi. destruct (Hz z Hi) as [-> | ->]; [exact (dv_ofZ 0 ltac:(reflexivity))|]. split; [reflexivity|split; reflexivity]. }
  pose proof eps_small as Ee. pose proof eta_tiny as Te. pose proof (pos_INR k) as K0.
  assert (T31 : (2 ^ 31 * eps <= / 1000000)%R) by (unfold eps; simpl; lra).
  assert (Ke : (INR k * eps <= / 1000000)%R) by (apply Rle_trans with (2 ^ 31 * eps)%R; [apply Rmult_le_compat_r; [lra|apply steps_bound; lia]|exact T31]).
  apply Rabs_le_inv in HT as HT'.
  assert (PS : forall a b : list R, Permutation a b -> rsum a = rsum b).
  { induction 1 as [|x a b _ IH|x y a|a b c0 _ IH1 _ IH2]; [reflexivity|change (x + rsum a = x + rsum b)%R; rewrite IH; reflexivity|change (y + (x + rsum a) = x + (y + rsum a))%R; ring|congruence]. }
  assert (ES : rsum (map val (zs ++ l)) = total dims F).
  { rewrite map_app, rsum_app. replace (rsum (map val zs)) with 0%R.
    - rewrite Rplus_0_l, (PS _ _ (Permutation_map val Hperm)), map_map. unfold total. f_equal. apply map_ext_in. intros g Hg. apply fmt_val. apply HF. apply in_cells, Hg.
    - clear - Vz. induction zs as [|z zs IH]; [reflexivity|]. cbn [map]. change (rsum (?y :: ?l)) with (y + rsum l)%R. rewrite <- IH by (intros w Hw; apply Vz; right; exact Hw).
      rewrite (fmt_val _ _ (Vz z (or_introl eq_refl))). lra. }
  assert (Len : (INR (List.length (zs ++ l)) <= IZR (n * n * n) + 2)%R).
  { rewrite app_length, plus_INR, (Permutation_length Hperm), map_length, N1. apply (le_INR) in Lz. simpl INR in Lz. lra. }
  assert (Hn : n <= 1290) by nia. assert (Hn3 : n * n * n <= 2 ^ 31 - 2) by nia.
  assert (N31 : (IZR (n * n * n) + 2 <= 2 ^ 31)%R).
  { rewrite pow_IZR, <- plus_IZR. apply IZR_le. change (2 ^ Z.of_nat 31) with (2 ^ 31). lia. }
  destruct (red_double _ _ Hr (1 + / 1000)%R) as (L1 & s & V & P & B).
  - intros y Hy. apply in_app_or in Hy as [Hy|Hy]; [exists 0%R; split; [apply Vz; exact Hy|lra]|]. destruct (Hu y Hy) as (r & Vr & Rr). exists r. split; [exact Vr|lra].
  - rewrite ES. lra.
  - lra.
  - lra.
  - split; [exact Hu|]. exists s. split; [exact V|]. rewrite ES in B.
    replace (s - 1)%R with ((s - total dims F) + (total dims F - 1))%R by ring. eapply Rle_trans; [apply Rabs_triang|].
    assert (D0 : (0 <= 11 / 10 * eps * (1 + / 1000) + 2 * eta <= 12 / 10 * eps)%R) by (assert (eps * eps * eps <= / 1000 * eps)%R by nra; lra).
    assert (B2 : ((INR (List.length (zs ++ l)) - 1) * (11 / 10 * eps * (1 + / 1000) + 2 * eta) <= (IZR (n * n * n) + 2) * (12 / 10 * eps))%R).
    { apply Rle_trans with ((IZR (n * n * n) + 2) * (11 / 10 * eps * (1 + / 1000) + 2 * eta))%R; [apply Rmult_le_compat_r; lra|apply Rmult_le_compat_l; [|lra]].
      assert (0 <= IZR (n * n * n))%R by (apply IZR_le; nia). lra. }
    unfold k in *. rewrite INR_IZR_INZ, Z2Nat.id in HT by lia. unfold Rdiv at 1. change (/ 2 ^ 53)%R with eps. lra.
Qed.

(** All values stay between 0 and 1; the check sum, added up in any order, is one up to rounding. *)
Theorem C78_check_sum psum n steps : sums arD psum -> 1 <= n -> n * n * n < 2 ^ 31 -> 0 <= steps < 2 ^ 31 ->
  exists o o3 s, jl_body arD n steps = Ok o /\ j3_body arD n steps = Ok o3 /\ jl_f (j3_obj o3) = jl_f o /\ unit_values (jl_f o) /\ double_value (psum (jl_f o)) s /\
    (Rabs (s - 1) <= (7 * IZR steps + 12 / 10 * (IZR (n * n * n) + 2)) / 2 ^ 53)%R.
Proof.
  intros Hps H1 H2 H4. destruct (C78_doubles_same_as_cxx (fun x => x) n steps false false H1 H2) as (o & o3 & r & F & Eo & E3 & Er & Hf & Hf3 & Hr).
  destruct (C42_driver arD (fun x => x) n steps false false ltac:(lia) H2) as (r' & dt & Er' & Edt & Ef & _). rewrite Er in Er'. injection Er' as <-.
  destruct (driver_dt n H1 H2) as (dt' & Edt' & HC & _). rewrite Edt in Edt'. inversion Edt'; subst dt'. rewrite upwind_coef in Ef.
  destruct (any_check_sum psum _ (fun j => upwind_side arD (axis_velocity arD [one; one; one] j)) n steps (jl_f o) Hps H1 H2 H4 HC) as (Hu & s & Vs & B).
  { rewrite Hf. eapply perm_trans; [apply C78_same_values|]. rewrite <- Hr, Ef. apply Permutation_refl. }
  exists o, o3, s. auto 10.
Qed.
Print Assumptions C78_check_sum.

(** ** The whole programs *)

(** upwind.jl without an argument: a message and status 1. *)
Theorem C78_usage {D} (ar : arith D) show read psum message source :
  exists r, jl_main ar show read psum message source [] = Ok r /\ r_exit r = 1 /\ r_files r = [] /\ r_out r <> ""%string.
Proof. eexists. split; [reflexivity|repeat split; discriminate]. Qed.
Print Assumptions C78_usage.

(** The words of the command line of upwind3.jl: 128 cells and 2 steps when there are none. *)
Definition j3_words (read : string -> option Z) (args : list string) (n steps : Z) (vtk : bool) : Prop :=
  match args with
  | [] => n = 128 /\ steps = 2 /\ vtk = false
  | [a1] => read a1 = Some n /\ steps = 2 /\ vtk = false
  | [a1; a2] => read a1 = Some n /\ read a2 = Some steps /\ vtk = false
  | a1 :: a2 :: a3 :: _ => read a1 = Some n /\ read a2 = Some steps /\ (vtk = true <-> a3 = "vtk"%string)
  end.

Lemma vtk_iff (vtk : bool) a3 : (vtk = true <-> a3 = "vtk"%string) -> (a3 =? "vtk")%string = vtk.
Proof. intros H. destruct (String.eqb_spec a3 "vtk") as [E|E]; destruct vtk; auto; [symmetry; apply H, E|exfalso; apply E, H; reflexivity]. Qed.

Lemma jl_main_eq {D} (ar : arith D) show read psum message source a1 rest n steps vtk o : read a1 = Some n -> py_rest read rest steps vtk -> jl_body ar n steps = Ok o ->
  jl_main ar show read psum message source (a1 :: rest) = Ok (jl_end message (jl_report show n steps (psum (jl_f o))) vtk).
Proof.
  intros R1 R2 Eo. unfold jl_main, jl_parse. rewrite R1. cbn [bind].
  destruct rest as [|a2 [|a3 t]]; cbn [py_rest] in R2; destruct R2 as (R2 & Rv).
  - subst steps vtk. cbn [bind]. rewrite Eo. reflexivity.
  - subst vtk. rewrite R2. cbn [bind]. rewrite Eo. reflexivity.
  - rewrite R2. cbn [bind]. rewrite Eo. cbn [bind jl_vtk]. rewrite (vtk_iff _ _ Rv). reflexivity.
Qed.
Lemma j3_main_eq {D} (ar : arith D) show read psum message args n steps vtk o : j3_words read args n steps vtk -> j3_body ar n steps = Ok o ->
  j3_main ar show read psum message args = Ok (jl_end message (jl_report show n steps (psum (jl_f (j3_obj o)))) vtk).
Proof.
  intros R Eo. unfold j3_main, jl_parse. destruct args as [|a1 [|a2 [|a3 t]]]; cbn [j3_words] in R; destruct R as (R1 & R2 & Rv).
  - subst n steps vtk. cbn [bind]. rewrite Eo. reflexivity.
  - subst steps vtk. rewrite R1. cbn [bind]. rewrite Eo. reflexivity.
  - subst vtk. rewrite R1, R2. cbn [bind]. rewrite Eo. reflexivity.
  - rewrite R1, R2. cbn [bind]. rewrite Eo. cbn [bind jl_vtk]. rewrite (vtk_iff _ _ Rv). reflexivity.
Qed.

(** In doubles: with a positive number of cells (fewer than 2^31 in all) and up to two hundred million steps the check sum printed
    is 1 to six decimals, and the test accepts the output, provided the text of a double between 1/2 and 3/2 starts with 0 or 1.
    The status is 0 without vtk; with vtk it is 1 and there is no file. *)
Definition good_output (show : spec_float -> string) (vtk : bool) (r : run) : Prop :=
  r_exit r = (if vtk then 1 else 0) /\ r_files r = [] /\
  exists x s pre, double_value x s /\ (Rabs (s - 1) < / 2000000)%R /\ r_out r = (pre ++ "check sum: " ++ show x ++ line_end)%string /\
    ((forall x r, double_value x r -> (1 / 2 < r < 3 / 2)%R -> exists c t, show x = String c t /\ In c ["0"; "1"]%char) -> ctest_accepts (r_out r)).

Lemma jl_good show psum message n steps vtk (l : list spec_float) s : 1 <= n -> n * n * n < 2 ^ 31 -> 0 <= steps <= 2 * 10 ^ 8 -> double_value (psum l) s ->
  (Rabs (s - 1) <= (7 * IZR steps + 12 / 10 * (IZR (n * n * n) + 2)) / 2 ^ 53)%R -> good_output show vtk (jl_end message (jl_report show n steps (psum l)) vtk).
Proof.
  intros H1 H2 H4 Vs B.
  assert (Bs : (Rabs (s - 1) < / 2000000)%R).
  { eapply Rle_lt_trans; [exact B|]. assert (S2 : (IZR steps <= 200000000)%R) by (apply IZR_le; lia). assert (N2 : (IZR (n * n * n) <= 2147483648)%R) by (apply IZR_le; lia).
    unfold Rdiv. change (/ 2 ^ 53)%R with eps. apply Rle_lt_trans with ((7 * 200000000 + 12 / 10 * (2147483648 + 2)) * eps)%R.
    - apply Rmult_le_compat_r; [pose proof eps_small; lra|lra].
    - unfold eps. simpl. lra. }
  split; [destruct vtk; reflexivity|]. split; [destruct vtk; reflexivity|].
  set (pre := ("number of cells: " ++ jl_list_text (repeat n 3) ++ newline ++ "number of time steps: " ++ show_int steps ++ newline)%string).
  assert (Eo : r_out (jl_end message (jl_report show n steps (psum l)) vtk) = (pre ++ "check sum: " ++ show (psum l) ++ newline)%string).
  { transitivity (jl_report show n steps (psum l)); [destruct vtk; reflexivity|]. unfold jl_report, pre. rewrite !append_assoc. reflexivity. }
  exists (psum l), s, pre. split; [exact Vs|]. split; [exact Bs|]. split; [exact Eo|].
  intros Hsh. apply Rabs_def2 in Bs. destruct (Hsh _ _ Vs ltac:(lra)) as (c & t & Es & Hc). rewrite Eo, Es.
  exists pre, "c"%char, " "%string, c, (t ++ newline)%string. split; [reflexivity|]. split; [right; reflexivity|]. split.
  - intros [|i] a E; cbn in E; [injection E as <-; reflexivity|destruct i; discriminate].
  - cbn [In] in *. tauto.
Qed.

Theorem C78_program show read psum message source a1 rest n steps vtk :
  sums arD psum -> read a1 = Some n -> py_rest read rest steps vtk -> 1 <= n -> n * n * n < 2 ^ 31 -> 0 <= steps <= 2 * 10 ^ 8 ->
  exists r, jl_main arD show read psum message source (a1 :: rest) = Ok r /\ good_output show vtk r.
Proof.
  intros Hps R1 R2 H1 H2 H4. destruct (C78_check_sum psum n steps Hps H1 H2 ltac:(lia)) as (o & o3 & s & Eo & _ & _ & _ & Vs & B).
  rewrite (jl_main_eq arD show read psum message source a1 rest n steps vtk o R1 R2 Eo). eexists. split; [reflexivity|]. exact (jl_good show psum message n steps vtk _ s H1 H2 H4 Vs B).
Qed.
Print Assumptions C78_program.

Theorem C78_program3 show read psum message args n steps vtk :
  sums arD psum -> j3_words read args n steps vtk -> 1 <= n -> n * n * n < 2 ^ 31 -> 0 <= steps <= 2 * 10 ^ 8 ->
  exists r, j3_main arD show read psum message args = Ok r /\ good_output show vtk r.
Proof.
  intros Hps R H1 H2 H4. destruct (C78_check_sum psum n steps Hps H1 H2 ltac:(lia)) as (o & o3 & s & _ & Eo & Ef & _ & Vs & B).
  rewrite (j3_main_eq arD show read psum message args n steps vtk o3 R Eo), Ef. eexists. split; [reflexivity|]. exact (jl_good show psum message n steps vtk _ s H1 H2 H4 Vs B).
Qed.
Print Assumptions C78_program3.

(** ** C79: saveVTK.jl *)
Section File.
  Context {D : Type} (fixed : D -> string).
  Hypothesis Hs : forall x, nospace (fixed x) = true /\ fixed x <> ""%string.
  Local Open Scope string_scope.
  Local Open Scope Z_scope.

  Lemma split_after l s : split_words "" (texts (map (fun x => fixed x ++ " ") l) ++ newline ++ s) = (map fixed l ++ split_words "" s)%list.
  Proof using Hs.
    induction l as [|x l IH]; [reflexivity|]. cbn [map texts]. rewrite !append_assoc. rewrite split_word_space by apply Hs. cbn [app]. f_equal. exact IH.
  Qed.
  Lemma split_jl_values l : forall i, split_words "" (jl_values_text fixed i l ++ newline) = map fixed l.
  Proof using Hs.
    induction l as [|x l IH]; intros i; [reflexivity|]. cbn [map jl_values_text]. rewrite !append_assoc. rewrite split_word_space by apply Hs. f_equal.
    destruct (i mod 10 =? 0); [rewrite split_newline|]; cbn [append word app]; apply IH.
  Qed.
  Lemma split_jl_axis key xs s : nospace key = true -> key <> "" ->
    split_words "" (key ++ " " ++ jl_axis_text fixed xs ++ newline ++ s) = (key :: show_int (vlen xs) :: "double" :: map fixed xs ++ split_words "" s)%list.
  Proof using Hs.
    intros K1 K2. rewrite split_word_space by assumption. f_equal. unfold jl_axis_text. replace (vlen xs - 1 + 1) with (vlen xs) by ring. rewrite !append_assoc.
    rewrite (lit2 " double" " " "double" _ eq_refl). rewrite split_word_space by (apply nospace_int || apply show_int_nonempty). f_equal.
    rewrite split_word_newline by (reflexivity || discriminate). f_equal. apply split_after.
  Qed.

  Lemma jl_file_words xs ys zs data : read_header (jl_rectilinear fixed xs ys zs data) = Some
    ("DATASET" :: "RECTILINEAR_GRID" :: "DIMENSIONS" :: show_int (vlen xs) :: show_int (vlen ys) :: show_int (vlen zs) ::
     "X_COORDINATES" :: show_int (vlen xs) :: "double" :: map fixed xs ++ "Y_COORDINATES" :: show_int (vlen ys) :: "double" :: map fixed ys ++
     "Z_COORDINATES" :: show_int (vlen zs) :: "double" :: map fixed zs ++
     "CELL_DATA" :: show_int (vlen data) :: "SCALARS" :: "f" :: "double" :: "1" :: "LOOKUP_TABLE" :: "default" :: map fixed data)%list.
  Proof using Hs.
    unfold read_header, jl_rectilinear. replace (vlen xs - 1 + 1) with (vlen xs) by ring. replace (vlen ys - 1 + 1) with (vlen ys) by ring. replace (vlen zs - 1 + 1) with (vlen zs) by ring.
    rewrite (NL "# vtk DataFile Version 2.0") by reflexivity. rewrite (NL "upwind.jl") by reflexivity. rewrite (NL "ASCII") by reflexivity.
    rewrite !String.eqb_refl. cbn [andb]. f_equal. unfold words.
    rewrite (lit3 "DATASET RECTILINEAR_GRID" "DATASET" " " "RECTILINEAR_GRID" _ eq_refl).
    rewrite split_word_space by (reflexivity || discriminate). rewrite split_word_newline by (reflexivity || discriminate).
    rewrite split_word_space by (reflexivity || discriminate). rewrite !(split_word_space (show_int _)) by (apply nospace_int || apply show_int_nonempty).
    rewrite (split_word_newline (show_int _)) by (apply nospace_int || apply show_int_nonempty).
    rewrite (lit2 "X_COORDINATES " "X_COORDINATES" " " _ eq_refl). rewrite split_jl_axis by (reflexivity || discriminate).
    rewrite (lit2 "Y_COORDINATES " "Y_COORDINATES" " " _ eq_refl). rewrite split_jl_axis by (reflexivity || discriminate).
    rewrite (lit2 "Z_COORDINATES " "Z_COORDINATES" " " _ eq_refl). rewrite split_jl_axis by (reflexivity || discriminate).
    rewrite (lit2 "CELL_DATA " "CELL_DATA" " " _ eq_refl). rewrite split_word_space by (reflexivity || discriminate).
    rewrite split_word_newline by (apply nospace_int || apply show_int_nonempty).
    rewrite (lit3 "SCALARS f double 1" "SCALARS" " " "f double 1" _ eq_refl), (lit3 "f double 1" "f" " " "double 1" _ eq_refl), (lit3 "double 1" "double" " " "1" _ eq_refl).
    do 3 rewrite split_word_space by (reflexivity || discriminate). rewrite split_word_newline by (reflexivity || discriminate).
    rewrite (lit3 "LOOKUP_TABLE default" "LOOKUP_TABLE" " " "default" _ eq_refl).
    rewrite split_word_space by (reflexivity || discriminate). rewrite split_word_newline by (reflexivity || discriminate).
    rewrite split_jl_values. reflexivity.
  Qed.
End File.

(** What rectilinear writes for axes with at least one point, as many values as cells and numbers written as numerals is read back:
    the axes and the values, in the order given. *)
Theorem C79_read_back {D} (fixed : D -> string) xs ys zs data :
  (forall x, nospace (fixed x) = true /\ fixed x <> ""%string) ->
  (forall x, In x (xs ++ ys ++ zs ++ data) -> numeral (fixed x) <> None) ->
  vlen data = cells_along (vlen xs) * cells_along (vlen ys) * cells_along (vlen zs) ->
  read_rectilinear (jl_rectilinear fixed xs ys zs data) =
  Some (mkRectDoc (vlen xs, vlen ys, vlen zs) (map fixed xs) (map fixed ys) (map fixed zs) "f" (map fixed data)).
Proof.
  intros Hs Hn L. unfold read_rectilinear. rewrite jl_file_words by exact Hs. cbn [bindo]. rewrite expect_same. cbn [bindo]. rewrite expect_same. cbn [bindo].
  assert (V : forall l : list D, 0 <= vlen l) by (intros l; unfold vlen; lia).
  unfold read_dims. rewrite expect_same. cbn [bindo]. unfold next_nat at 1 2 3. cbn [next bindo fst snd]. rewrite read_nat_int by apply V. cbn [next bindo fst snd]. rewrite read_nat_int by apply V.
  cbn [next bindo fst snd]. rewrite read_nat_int by apply V. cbn [bindo fst snd].
  assert (RA : forall key l ws, (forall x, In x l -> numeral (fixed x) <> None) -> read_axis key (vlen l) (key :: show_int (vlen l) :: "double"%string :: map fixed l ++ ws) = Some (map fixed l, ws)).
  { intros key l ws Hl. exact (read_axis_ok fixed key true (vlen l) l ws (V l) eq_refl Hl). }
  rewrite RA by (intros x Hx; apply Hn; rewrite !in_app_iff; tauto). cbn [bindo fst snd].
  rewrite RA by (intros x Hx; apply Hn; rewrite !in_app_iff; tauto). cbn [bindo fst snd].
  rewrite RA by (intros x Hx; apply Hn; rewrite !in_app_iff; tauto). cbn [bindo fst snd].
  rewrite <- L. rewrite (proj1 (read_scalars_ok fixed (vlen data) "f" data (V data) eq_refl ltac:(intros x Hx; apply Hn; rewrite !in_app_iff; tauto))). reflexivity.
Qed.
Print Assumptions C79_read_back.

(** The field of an object is listed with the first index varying fastest, as the format requires: the word for the cell (x, y, z)
    stands where the reader looks for the cell number x along the first axis, y along the second, z along the third. *)
Theorem C79_cells {D} (ar : arith D) (fixed : D -> string) nx ny nz v lengths o G x y z :
  large_args [nx; ny; nz] v lengths -> jl_object ar [nx; ny; nz] v lengths o -> jl_f o = map G (cells_first [nx; ny; nz]) ->
  0 <= x < nx -> 0 <= y < ny -> 0 <= z < nz ->
  nth_error (map fixed (jl_f o)) (Z.to_nat (x + nx * (y + ny * z))) = Some (fixed (G [x; y; z])).
Proof.
  intros Ha Ho HG Hx Hy Hz. rewrite HG, map_map. pose proof Ha as (Hg & _). set (dims := [nx; ny; nz]) in *.
  assert (Hin : in_grid dims [x; y; z]) by (apply in_grid_nth; split; [reflexivity|]; intros [|[|[|j]]] Hj; cbn in *; lia).
  pose proof (vget_first dims (fun g => fixed (G g)) [x; y; z] Hg Hin) as E. unfold vget in E.
  replace (dot (strd false dims) [x; y; z]) with (x + nx * (y + ny * z)) in E.
  - match type of E with (if ?c then _ else _) = _ => destruct c; [|discriminate] end.
    match type of E with match ?c with Some _ => _ | None => _ end = _ => destruct c as [w|]; [|discriminate] end. injection E as ->. reflexivity.
  - pose proof (strd_col_nth dims) as S. assert (Ls : List.length (strd false dims) = 3%nat) by apply strd_length.
    pose proof (S 0%nat ltac:(cbn; lia)) as S0. pose proof (S 1%nat ltac:(cbn; lia)) as S1. pose proof (S 2%nat ltac:(cbn; lia)) as S2. clear S.
    destruct (strd false dims) as [|a [|b [|c [|d t]]]]; try discriminate Ls. cbn [nth dims firstn] in S0, S1, S2. rewrite !prodZ_cons in *. change (prodZ []) with 1 in *.
    cbn [dot]. rewrite S0, S1, S2. ring.
Qed.
Print Assumptions C79_cells.

(** The programs never write it: with vtk they end with status 1 and leave no file. *)
Theorem C79_never_written {D} (ar : arith D) show read psum message source args r :
  (jl_main ar show read psum message source args = Ok r \/ j3_main ar show read psum message args = Ok r) ->
  r_files r = [] /\ ((exists a1 a2 t, args = a1 :: a2 :: "vtk"%string :: t) -> r_exit r = 1).
Proof.
  assert (K : forall out b, r_files (jl_end message out b) = [] /\ (b = true -> r_exit (jl_end message out b) = 1)) by (intros out []; split; reflexivity || (intros; reflexivity || discriminate)).
  intros [E|E].
  - unfold jl_main in E. destruct args as [|a1 rest]; [injection E as <-; split; [reflexivity|intros (? & ? & ? & [=])]|].
    apply bind_ok in E as (n & _ & E). apply bind_ok in E as (s & _ & E). apply bind_ok in E as (o & _ & E). injection E as <-.
    split; [apply K|]. intros (b1 & b2 & t & [= -> ->]). apply K. reflexivity.
  - unfold j3_main in E. apply bind_ok in E as (n & _ & E). apply bind_ok in E as (s & _ & E). apply bind_ok in E as (o & _ & E). injection E as <-.
    split; [apply K|]. intros (b1 & b2 & t & ->). apply K. reflexivity.
Qed.
Print Assumptions C79_never_written.

(** ** Examples *)

(** One step on 3 x 2 x 2 cells, in whole numbers, with both versions: the numbers of the Python example, first index fastest. *)
Example C78_example :
  match jl_new arInt 3 [1; -1; 1] [3; 2; 2] [3; 2; 2], j3_new arInt 3 [1; -1; 1] [3; 2; 2] [3; 2; 2] with
  | Ok o, Ok o3 =>
      match jl_run arInt o 1 1, j3_run arInt o3 1 1 with
      | Ok o', Ok o3' => jl_f o' = [-2; 1; 0; 1; 0; 0; 1; 0; 0; 0; 0; 0] /\ jl_f (j3_obj o3') = jl_f o'
      | _, _ => False
      end
  | _, _ => False
  end.
Proof. vm_compute. split; reflexivity. Qed.

Example C78_args : large_args [3; 2; 2] [1; -1; 1] [3; 2; 2] /\ float_axes [3; 2; 2].
Proof. split; [|repeat constructor; discriminate]. split; [|split; reflexivity]. split; [discriminate|]. split; [reflexivity|]. split; [|reflexivity]. intros [|[|[|j]]] Hj; cbn in *; lia. Qed.

(** The command lines "upwind3.jl" and "upwind3.jl 3 2 vtk". *)
Example C78_words : j3_words one_digit [] 128 2 false /\ j3_words one_digit ["3"; "2"; "vtk"]%string 3 2 true.
Proof. repeat split. Qed.

(** Three points along the first axis, two along the others, two values. *)
Example C79_example :
  read_rectilinear (jl_rectilinear show_int [0; 1; 2] [0; 1] [0; 5] [7; -8]) =
  Some (mkRectDoc (3, 2, 2) ["0"; "1"; "2"] ["0"; "1"] ["0"; "5"] "f" ["7"; "-8"])%string.
Proof. vm_compute. reflexivity. Qed.
