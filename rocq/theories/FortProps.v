(** * Properties of the Fortran versions of the upwind benchmark: C74, C75 *)
From Coq Require Import List ZArith Bool Lia Permutation Reals Lra String SpecFloat.
From Verif Require Import Cpp CppProof MaiModel MaiSpec Radix MaiProof CdModel CdSpec FilterModel FilterSpec FilterProof
  FilterSum RealArith Double LapSpec LapProof UpModel UpSpec UpProof UpExact UpProps AccModel AccSpec AccProof AccProps
  ParModel ParSpec ParProof ParProps LangSpec FortModel FortProof.
From Coq Require Import List.
Import ListNotations.
Local Open Scope Z_scope.
Local Arguments prodZ : simpl never.
Local Arguments Z.of_nat : simpl never.

(** An object built by upwind_new, the field being arbitrary. *)
Definition fo_object {D} (ar : arith D) (dims : list Z) (v lengths : list D) (o : fort D) : Prop :=
  exists o0 f, fo_new ar v lengths dims = Ok o0 /\ vlen f = prodZ dims /\ o = fo_set o0 f.

Lemma fo_object_of {D} (ar : arith D) dims v lengths o : up_args dims v lengths ->
  (fo_object ar dims v lengths o <-> exists f, vlen f = prodZ dims /\ o = fo_of ar dims v lengths f).
Proof.
  intros (Hg & Hv & Hl). unfold fo_object. rewrite fo_new_eq by auto. split.
  - intros (o0 & f & E & L & ->). injection E as <-. exists f. split; [exact L|reflexivity].
  - intros (f & L & ->). eexists _, f. split; [reflexivity|]. split; [exact L|reflexivity].
Qed.

(** ** C74 *)

(** The constructor: on a grid without empty axes it is defined exactly when the number of cells is less than 2^31, and
    then the field is one in the first cell and zero elsewhere. *)
Theorem C74_constructor {D} (ar : arith D) dims v lengths :
  up_args dims v lengths ->
  exists o, fo_new ar v lengths dims = Ok o /\ fo_object ar dims v lengths o /\
            fo_f o = map (corner (a_ofZ ar 0) (a_ofZ ar 1) dims) (cells dims).
Proof.
  intros Ha. pose proof Ha as (Hg & Hv & Hl). exists (fo_of ar dims v lengths (map (corner (a_ofZ ar 0) (a_ofZ ar 1) dims) (cells dims))).
  split; [apply fo_new_eq; auto|]. split; [|reflexivity]. apply fo_object_of; auto. eexists. split; [apply cells_vlen, Hg|reflexivity].
Qed.
Print Assumptions C74_constructor.

Theorem C74_constructor_iff {D} (ar : arith D) dims v lengths :
  dims <> [] -> Z.of_nat (List.length dims) < 2 ^ 31 -> (forall j, (j < List.length dims)%nat -> 0 < nth j dims 0) ->
  List.length v = List.length dims -> List.length lengths = List.length dims ->
  ((exists o, fo_new ar v lengths dims = Ok o) <-> prodZ dims < 2 ^ 31).
Proof.
  intros H1 H2 H3 Hv Hl. split.
  - intros (o & E). unfold fo_new in E. replace (vlen v) with (Z.of_nat (List.length dims)) in E by (unfold vlen; congruence).
    rewrite fo_axes_gen in E by (auto; apply allpos_nth; exact H3). destruct (Z.ltb_spec (prodZ dims) (2 ^ 31)); [assumption|discriminate].
  - intros H. eexists. apply fo_new_eq; auto. repeat split; auto.
Qed.
Print Assumptions C74_constructor_iff.

(** Any number of calls of advect: the upwind scheme, with dt v (+-1) (f(upwind neighbour) - f) / dx evaluated in this order. *)
Theorem C74_advect {D} (ar : arith D) dims v lengths o G dt n :
  up_args dims v lengths -> shorter_axes dims -> fo_object ar dims v lengths o -> fo_f o = map G (cells dims) ->
  exists o', fo_run ar o n dt = Ok o' /\ fo_object ar dims v lengths o' /\
    fo_f o' = map (scheme_iter ar (Z.to_nat n) (f90_term ar dims v lengths dt) dims v G) (cells dims).
Proof.
  intros Ha Hsh Ho HG. apply (fo_object_of ar _ _ _ _ Ha) in Ho as (f & L & ->). cbn [fo_of fo_f] in HG. subst f. pose proof Ha as (Hg & Hv & Hl).
  rewrite fo_run_eq by auto. eexists. split; [reflexivity|]. split; [|reflexivity]. apply fo_object_of; auto. eexists. split; [apply cells_vlen, Hg|reflexivity].
Qed.
Print Assumptions C74_advect.

(** The same field as the C++ version, in any arithmetic in which a division can be moved across a product. *)
Lemma scheme_ext {D} (ar : arith D) t t' dims v G g : (forall j a b, t j a b = t' j a b) -> scheme ar t dims v G g = scheme ar t' dims v G g.
Proof.
  intros H. unfold scheme. generalize (G g) at 2 4 as x. generalize (seq 0 (List.length dims)) as l.
  induction l as [|j l IH]; intros x; [reflexivity|]. cbn [fold_left]. rewrite H. apply IH.
Qed.
Lemma scheme_arg {D} (ar : arith D) t dims v G G' g : (forall g, G g = G' g) -> scheme ar t dims v G g = scheme ar t dims v G' g.
Proof.
  intros H. unfold scheme. rewrite (H g). generalize (G' g) at 2 4 as x. generalize (seq 0 (List.length dims)) as l.
  induction l as [|j l IH]; intros x; [reflexivity|]. cbn [fold_left]. rewrite H. apply IH.
Qed.
Lemma scheme_iter_ext {D} (ar : arith D) t t' dims v n : (forall j a b, t j a b = t' j a b) ->
  forall G G', (forall g, G g = G' g) -> forall g, scheme_iter ar n t dims v G g = scheme_iter ar n t' dims v G' g.
Proof.
  intros H. induction n as [|n IH]; intros G G' HG g; [apply HG|]. cbn [scheme_iter].
  rewrite (scheme_arg ar t dims v _ _ g (IH G G' HG)). apply scheme_ext. exact H.
Qed.
Lemma upwind_iter_scheme {D} (ar : arith D) dims v lengths dt n G :
  upwind_iter ar n dims v lengths dt G = scheme_iter ar n (cxx_term ar dims v lengths dt) dims v G.
Proof. induction n as [|n IH]; [reflexivity|]. cbn [upwind_iter scheme_iter]. rewrite IH. reflexivity. Qed.

Theorem C74_same_as_cxx {D} (ar : arith D) dims v lengths o u dt n :
  divides_through ar -> up_args dims v lengths -> shorter_axes dims ->
  fo_object ar dims v lengths o -> up_object ar dims v lengths u -> fo_f o = up_f u ->
  exists o' u', fo_run ar o n dt = Ok o' /\ up_advect ar (vlen dims) u n dt = Ok u' /\ fo_f o' = up_f u'.
Proof.
  intros HD Ha Hsh Ho Hu E. destruct (C42_every_field ar _ _ _ _ Ha Hu) as (G & HG).
  assert (Hsh' : short_axes dims) by (intros j Hj; specialize (Hsh j Hj); lia).
  destruct (C42_advect ar _ _ _ _ G dt n Ha Hsh' Hu HG) as (u' & Eu & _ & Hu'). unfold holds in *.
  destruct (C74_advect ar _ _ _ _ G dt n Ha Hsh Ho (eq_trans E HG)) as (o' & Eo & _ & Ho').
  exists o', u'. split; [exact Eo|]. split; [exact Eu|]. rewrite Ho', Hu', upwind_iter_scheme. apply map_ext. intros g.
  apply scheme_iter_ext; [|reflexivity]. intros j a b. apply HD.
Qed.
Print Assumptions C74_same_as_cxx.

Theorem C74_reals : divides_through arR.
Proof. intros x y z. cbn [arR a_div a_mul]. unfold Rdiv. ring. Qed.
Print Assumptions C74_reals.

(** ** The loop in parallel *)
Section Omp.
  Context {D : Type} (ar : arith D).
  Lemma fo_loop_good T (o o' : fort D) dt who : fo_advect ar o dt = Ok o' -> shares T (fo_ntot o) who ->
    chain T [fun t => share (fo_cell_task ar o dt) (who t)] (fo_f o, fo_f o) (fo_f o', fo_f o).
  Proof.
    intros E Hw. unfold fo_advect in E. destruct (vlen (fo_f o) =? fo_ntot o); [|discriminate]. unfold f_do in E.
    destruct (for_upto (fo_ntot o) _ (fo_f o)) as [f1|] eqn:E2; [|discriminate]. cbn [bind] in E. injection E as <-. cbn [fo_set fo_f].
    cbn [chain]. exists (f1, fo_f o). split; [|reflexivity].
    apply (loop_good _ F (fo_cell_respects ar o dt) T (fo_ntot o)); [exact Hw|].
    rewrite (share_for _ (fun i => fo_cell ar o dt (fo_f o) (i + 1))) by (intros; apply fo_cell_alone). rewrite E2. reflexivity.
  Qed.
  Lemma fo_copy_good T (o : fort D) old who : vlen (fo_f o) = fo_ntot o -> vlen old = fo_ntot o -> shares T (fo_ntot o) who ->
    forall ls Mf, chain T ls (fo_f o, fo_f o) Mf -> chain T ((fun t => share copy_task (who t)) :: ls) (fo_f o, old) Mf.
  Proof.
    intros L1 L2 Hw ls Mf Hc. cbn [chain]. exists (fo_f o, fo_f o). split; [|exact Hc].
    apply (loop_good _ OldF copy_respects T (fo_ntot o)); [exact Hw|]. rewrite copy_for.
    match goal with |- context [for_upto ?c ?bd ?s] =>
      destruct (for_upto_inv (fun i t => List.length t = List.length (fo_f o) /\ forall k, (k < i)%nat -> nth k t (a_zero ar) = nth k (fo_f o) (a_zero ar)) bd c s)
        as (t & -> & L & H) end.
    - unfold vlen in *. split; lia.
    - intros i s Hi (L & H). unfold vlen in *. rewrite (vget_nat (fo_f o) i (a_zero ar)) by lia. cbn [bind]. rewrite vset_nat by lia. eexists; split; [reflexivity|].
      rewrite upd_length. split; auto. intros k Hk. rewrite upd_nth by lia. destruct (Nat.eqb_spec k i); [congruence|apply H; lia].
    - cbn [bind]. f_equal. f_equal. apply (nth_ext' (a_zero ar)); [exact L|]. intros k Hk. apply H. unfold vlen in *. lia.
  Qed.
End Omp.

(** Any number of threads, any assignment of the iterations to threads, any interleaving of their accesses: nothing is
    accessed out of bounds, there is no race, a finished execution has computed the field of the sequential program, and
    every execution can be finished (upwind.F90, upwindF03.F90 with OpenMP; upwindF08.F90: do concurrent). *)
Theorem C74_every_schedule {D} (ar : arith D) o o' dt T who :
  fo_advect ar o dt = Ok o' -> (0 < T)%nat -> shares T (fo_ntot o) who ->
  (forall s r, run s (fo_region ar T o dt who) = Some r -> exists c, r = Ok c /\ ~ race c /\ (finished c -> fst c = (fo_f o', fo_f o))) /\
  (forall s c, run s (fo_region ar T o dt who) = Some (Ok c) -> exists s' c', run s' c = Some (Ok c') /\ finished c').
Proof.
  intros E HT Hw. pose proof (fo_loop_good ar T o o' dt who E Hw) as Hc. split.
  - intros s r Hr. destruct (region_runs T _ _ _ HT Hc s r Hr) as (c & -> & H1 & H2 & _). eauto.
  - apply region_completes.
    { intros l t [<-|[]]. eexists. apply atmost_share. apply fo_cell_atmost. }
    intros s r Hr. destruct (region_runs T _ _ _ HT Hc s r Hr) as (c & -> & _ & _ & H). exists c. split; [reflexivity|].
    destruct (finished_dec c); auto.
Qed.
Print Assumptions C74_every_schedule.

(** upwindF08Gpu.F90: the copy is a parallel loop too. *)
Theorem C74_gpu_schedule {D} (ar : arith D) o o' old dt T who who' :
  fo_advect ar o dt = Ok o' -> vlen old = fo_ntot o -> (0 < T)%nat -> shares T (fo_ntot o) who -> shares T (fo_ntot o) who' ->
  (forall s r, run s (fo_gpu_region ar T o old dt who who') = Some r -> exists c, r = Ok c /\ ~ race c /\ (finished c -> fst c = (fo_f o', fo_f o))) /\
  (forall s c, run s (fo_gpu_region ar T o old dt who who') = Some (Ok c) -> exists s' c', run s' c = Some (Ok c') /\ finished c').
Proof.
  intros E L HT Hw Hw'. assert (L1 : vlen (fo_f o) = fo_ntot o).
  { unfold fo_advect in E. destruct (Z.eqb_spec (vlen (fo_f o)) (fo_ntot o)); [assumption|discriminate]. }
  pose proof (fo_copy_good ar T o old who L1 L Hw _ _ (fo_loop_good ar T o o' dt who' E Hw')) as Hc. split.
  - intros s r Hr. destruct (region_runs T _ _ _ HT Hc s r Hr) as (c & -> & H1 & H2 & _). eauto.
  - apply region_completes.
    { intros l t [<-|[<-|[]]]; eexists; [apply (atmost_share _ 2); apply copy_atmost|apply atmost_share; apply fo_cell_atmost]. }
    intros s r Hr. destruct (region_runs T _ _ _ HT Hc s r Hr) as (c & -> & _ & _ & H). exists c. split; [reflexivity|].
    destruct (finished_dec c); auto.
Qed.
Print Assumptions C74_gpu_schedule.

(** ** Axes of 2^30 cells or more *)
Lemma for_from_reaches_inv {St} (I : St -> Prop) (body : Z -> St -> res St) c : (forall i s t, I s -> body i s = Ok t -> I t) ->
  forall k s t, I s -> for_from k c body s = Ok t -> forall i, (k <= i < k + c)%nat -> exists s' t', I s' /\ body (Z.of_nat i) s' = Ok t'.
Proof.
  intros HI. induction c as [|c IH]; intros k s t Hs E i Hi; [lia|]. cbn [for_from] in E.
  destruct (body (Z.of_nat k) s) as [s1|] eqn:Eb; [|discriminate]. cbn [bind] in E.
  destruct (Nat.eq_dec i k) as [->|]; [eauto|]. apply (IH (S k) s1 t); eauto. lia.
Qed.

Lemma fo_axis_inds {D} (ar : arith D) o dt old i j inds f inds' f' :
  fo_axis ar o dt old i j (inds, f) = Ok (inds', f') -> inds' = inds.
Proof.
  unfold fo_axis, fo_private, fget, fset. intros E. repeat (apply bind_ok in E as (? & ? & E)). 
  destruct x as [[inds2 upI] oldIndex]. repeat (apply bind_ok in E as (? & ? & E)). injection E as <- _.
  repeat match goal with H : bind _ _ = Ok _ |- _ => apply bind_ok in H as (? & ? & H) end.
  match goal with H : Ok _ = Ok _ |- _ => injection H as <- <- <- end.
  repeat match goal with H : vset _ _ _ = Ok _ |- _ => apply vset_inv in H as (? & ->) end.
  rewrite !upd_upd. match goal with H : vget inds (j - 1) = Ok ?y |- _ => rename H into Hg end.
  unfold vget in Hg. destruct ((0 <=? j - 1) && (j - 1 <? vlen inds)) eqn:Eb; [|discriminate].
  destruct (nth_error inds (Z.to_nat (j - 1))) as [y|] eqn:En; [|discriminate]. injection Hg as ->.
  rewrite <- (nth_error_nth _ _ 0 En). apply upd_self. apply nth_error_Some. congruence.
Qed.

Theorem C74_long_axis {D} (ar : arith D) dims v lengths o dt j :
  up_args dims v lengths -> fo_object ar dims v lengths o -> (j < List.length dims)%nat ->
  2 ^ 30 <= nth j dims 0 -> upwind_side ar (axis_velocity ar v j) = 1 ->
  forall o', fo_advect ar o dt <> Ok o'.
Proof.
  intros Ha Ho Hj Hn Hs o' E.
  apply (fo_object_of ar _ _ _ _ Ha) in Ho as (f & L & ->). pose proof Ha as (Hg & Hv & Hl). pose proof (up_big _ Hg) as Hb.
  unfold fo_advect in E. cbn [fo_of fo_f fo_ntot] in E. rewrite L, Z.eqb_refl in E. apply bind_ok in E as (f1 & E & _). unfold f_do, for_upto in E.
  set (g := upd (repeat 0 (List.length dims)) j (nth j dims 0 - 1)).
  assert (Hd : digit_vec dims g).
  { unfold g. split; [rewrite upd_length, repeat_length; reflexivity|]. intros k Hk. rewrite upd_nth by (rewrite repeat_length; lia).
    pose proof (axis_range dims Hb k Hk). destruct (Nat.eqb_spec k j); [subst; lia|]. rewrite nth_repeat0. lia. }
  pose proof (dot_strd_range true dims g Hd) as R. set (i := Z.to_nat (dot (strd true dims) g)).
  destruct (for_from_reaches_inv (fun _ => True) _ _ ltac:(auto) _ _ _ Logic.I E i ltac:(unfold i; lia)) as (s' & t' & _ & Ei).
  unfold fo_cell in Ei. replace (Z.of_nat i) with (dot (strd true dims) g) in Ei by (unfold i; lia).
  change (mkFort _ _ _ _ _ _ _ _ _) with (fo_of ar dims v lengths f) in Ei.
  rewrite fo_getIndexSet_eq in Ei by auto. cbn [bind] in Ei. rewrite digs_dot in Ei by (auto; apply big_allpos; exact Hb).
  apply bind_ok in Ei as ([inds' f'] & Ei & _). unfold f_do, for_upto in Ei. cbn [fo_of fo_ndims] in Ei. rewrite Nat2Z.id in Ei.
  match type of Ei with for_from _ _ ?B _ = _ => assert (HI : forall a s t, fst s = plus1 g -> B a s = Ok t -> fst t = plus1 g) end.
  { intros a [s1 s2] [t1 t2] <- Ex. cbn beta in Ex. apply fo_axis_inds in Ex. exact Ex. }
  destruct (for_from_reaches_inv (fun p => fst p = plus1 g) _ _ HI _ (plus1 g, s') _ eq_refl Ei j ltac:(lia)) as ([i2 f2] & t2 & Hi2 & Ej).
  cbn [fst] in Hi2. subst i2. unfold fo_axis, fo_private in Ej. apply bind_ok in Ej as (x & Ej & _).
  assert (Lg : List.length g = List.length dims) by apply Hd.
  rewrite (fget_nat _ j 0) in Ej by (rewrite plus1_length, Lg; exact Hj). cbn [bind] in Ej. rewrite plus1_nth in Ej by (rewrite Lg; exact Hj).
  cbn [fo_of fo_upDirection fo_numCells] in Ej. rewrite (fget_nat (sides ar v) j 0) in Ej by (unfold sides; rewrite map_length; lia). cbn [bind] in Ej.
  rewrite (sides_nth ar dims v Hv) in Ej by exact Hj. rewrite Hs in Ej.
  assert (Eg : nth j g 0 = nth j dims 0 - 1) by (unfold g; rewrite upd_nth, Nat.eqb_refl by (rewrite repeat_length; exact Hj); reflexivity).
  rewrite Eg in Ej. apply bind_ok in Ej as (y & Ey & Ej). apply bind_ok in Ej as (i3 & E3 & Ej).
  rewrite (fget_nat dims j 0) in Ej by exact Hj. cbn [bind] in Ej.
  unfold int_op in Ey. destruct (int_range _); [|discriminate]. injection Ey as <-.
  rewrite fset_nat in E3 by (rewrite plus1_length, Lg; exact Hj). injection E3 as <-.
  rewrite (fget_nat _ j 0) in Ej by (rewrite upd_length, plus1_length, Lg; exact Hj). cbn [bind] in Ej.
  rewrite upd_nth, Nat.eqb_refl in Ej by (rewrite plus1_length, Lg; exact Hj).
  unfold int_op at 1 in Ej. replace (int_range _) with false in Ej; [discriminate|]. symmetry. unfold int_range, int_max. apply andb_false_iff. right. apply Z.leb_gt. lia.
Qed.
Print Assumptions C74_long_axis.

(** ** The program *)
Definition fo_dt_body {D} (ar : arith D) (n : Z) : res D := fo_dt ar (repeat (a_ofZ ar 1) 3) (repeat (a_ofZ ar 1) 3) (repeat n 3).

Lemma fo_dt_some {D} (ar : arith D) n : exists dt, fo_dt_body ar n = Ok dt.
Proof. unfold fo_dt_body, fo_dt, f_do, for_upto. cbn. eexists. reflexivity. Qed.

(** The multiplications of ntot by the numbers of cells. *)
Lemma fo_axes_prod3 {D} (ar : arith D) v l n a b c : fo_axes ar 3 v l [n; n; n] = Ok (a, b, c) -> c = n * n * n.
Proof.
  unfold fo_axes, f_do, for_upto. change (Z.to_nat 3) with 3%nat.
  match goal with |- for_from 0 3 ?b0 ?i = _ -> _ => set (B := b0);
    assert (St : forall k s t, (k < 3)%nat -> B (Z.of_nat k) s = Ok t -> snd t = snd s * n) end.
  { intros k [[up de] nt] t Hk E. do 5 (apply bind_ok in E as (? & ? & E)).
    apply bind_ok in E as (? & ? & E). apply bind_ok in E as (nt' & Ent & E). injection E as <-. cbn [snd].
    assert (En : fget [n; n; n] (Z.of_nat k + 1) = Ok n) by (destruct k as [|[|[|k]]]; [reflexivity..|lia]).
    match goal with H : fget [n; n; n] _ = Ok ?y |- _ => rewrite En in H; injection H as <- end.
    unfold int_op in Ent. destruct (int_range _); [|discriminate]. congruence. }
  clearbody B. cbn [for_from]. intros E. apply bind_ok in E as (s1 & E1 & E). apply bind_ok in E as (s2 & E2 & E). apply bind_ok in E as (s3 & E3 & E).
  injection E as ->. apply St in E1; [|lia]. apply St in E2; [|lia]. apply St in E3; [|lia]. cbn [snd] in *. rewrite E3, E2, E1. ring.
Qed.

Lemma cube_args {D} (x : D) n : 1 <= n -> n * n * n < 2 ^ 31 -> up_args [n; n; n] (repeat x 3) (repeat x 3) /\ shorter_axes [n; n; n].
Proof.
  intros H1 H2. assert (Ep : prodZ [n; n; n] = n * n * n) by (rewrite !prodZ_cons; change (prodZ []) with 1; ring). split.
  - repeat split; try discriminate; try reflexivity; [|rewrite Ep; exact H2]. intros [|[|[|j]]] Hj; simpl in *; lia.
  - assert (n < 2 ^ 30) by nia. intros [|[|[|j]]] Hj; simpl in *; lia.
Qed.

Lemma fo_new_cube {D} (ar : arith D) v l n o : fo_new ar v l [n; n; n] = Ok o -> List.length v = 3%nat -> List.length l = 3%nat -> 1 <= n /\ n * n * n < 2 ^ 31.
Proof.
  intros E Lv Ll. destruct (Z_lt_le_dec n 1) as [Hn|Hn].
  - exfalso. unfold fo_new in E. replace (vlen v) with 3 in E by (unfold vlen; rewrite Lv; reflexivity).
    apply bind_ok in E as ([[a b] c] & E1 & E). apply fo_axes_prod3 in E1. apply bind_ok in E as (dp & _ & E).
    apply bind_ok in E as (f & Ef & _). apply vset_inv in Ef as (Hr & _). unfold vlen in Hr. rewrite repeat_length in Hr.
    assert (0 <= n * n) by nia. assert (n * n * n <= 0) by nia. subst c. lia.
  - split; [exact Hn|].
    assert (H : prodZ [n; n; n] < 2 ^ 31).
    { apply (C74_constructor_iff ar [n; n; n] v l); auto; try discriminate; [simpl; lia|intros [|[|[|j]]] Hj; simpl in *; lia|eauto]. }
    rewrite !prodZ_cons in H. change (prodZ []) with 1 in H. lia.
Qed.


(** ** C75: the file *)
Definition axis_coords {D} (ar : arith D) (dims : list Z) (lengths : list D) (j : nat) : Z * list D :=
  (nth j dims 0 + 1, map (fun k => a_add ar (a_dec ar 0 1) (a_mul ar (cell_size ar dims lengths j) (a_ofZ ar k))) (range 0 (nth j dims 0 + 1))).

Section Vtk.
  Context {D : Type} (ar : arith D) (dims : list Z) (v lengths : list D).
  Hypothesis Ha : up_args dims v lengths.
  Hypothesis Hsh : shorter_axes dims.

  Lemma fo_points_eq f j : (j < List.length dims)%nat -> fo_points (fo_of ar dims v lengths f) (Z.of_nat j + 1) = Ok (nth j dims 0 + 1).
  Proof using Ha Hsh.
    intros Hj. unfold fo_points. cbn [fo_of fo_numCells]. rewrite (fget_nat dims j 0) by exact Hj. cbn [bind].
    pose proof (axis_range dims (up_big _ (proj1 Ha)) j Hj). specialize (Hsh j Hj).
    apply int_op_ok. unfold two31. lia.
  Qed.
  Lemma fo_coords_eq f j : (j < List.length dims)%nat -> fo_coords ar (fo_of ar dims v lengths f) (Z.of_nat j + 1) = Ok (axis_coords ar dims lengths j).
  Proof using Ha Hsh.
    intros Hj. pose proof Ha as (Hg & Hv & Hl). pose proof (fo_points_eq f j Hj) as E. unfold fo_points in E. unfold fo_coords.
    destruct (fget (fo_numCells (fo_of ar dims v lengths f)) (Z.of_nat j + 1)) as [n|]; [|discriminate]. cbn [bind] in *. rewrite E. cbn [bind].
    cbn [fo_of fo_deltas]. rewrite (fget_nat _ j (a_zero ar)) by (unfold sizes; rewrite map_length, seq_length; auto). cbn [bind].
    rewrite sizes_nth by auto.
    rewrite (tabulate_ok (fun i => a_add ar (a_dec ar 0 1) (a_mul ar (cell_size ar dims lengths j) (a_ofZ ar (Z.of_nat i))))) by reflexivity.
    cbn [bind]. unfold axis_coords, range. rewrite map_map, Z.sub_0_r. reflexivity.
  Qed.
  Lemma fo_values_eq (f : list D) : vlen f = prodZ dims -> tabulate (prodZ dims) (fun k => fget f (k + 1)) = Ok f.
  Proof using Type.
    clear Ha Hsh. intros L. rewrite <- L. refine (eq_trans _ (tabulate_vget f)). unfold tabulate. generalize O as k. generalize (Z.to_nat (vlen f)) as c.
    induction c as [|c IH]; intros k; [reflexivity|]. cbn [tab_from]. rewrite IH. unfold fget. replace (Z.of_nat k + 1 - 1) with (Z.of_nat k) by lia. reflexivity.
  Qed.

  Lemma fo_saveVTK_eq f : vlen f = prodZ dims -> (List.length dims <= 3)%nat ->
    fo_saveVTK ar (fo_of ar dims v lengths f) = Ok (mkRect
      (map (fun j => if (j <? List.length dims)%nat then nth j dims 0 + 1 else 1) [2; 1; 0]%nat)
      (map (fun j => if (j <? List.length dims)%nat then axis_coords ar dims lengths j else (1, [a_dec ar 0 1])) [0; 1; 2]%nat)
      (prodZ dims) f).
  Proof using Ha Hsh.
    intros L H3. pose proof (fo_points_eq f) as P. pose proof (fo_coords_eq f) as C. pose proof (fo_values_eq f L) as V. pose proof Ha as ((Hn & _) & _).
    unfold fo_saveVTK. change (fo_ndims (fo_of ar dims v lengths f)) with (Z.of_nat (List.length dims)).
    change (fo_ntot (fo_of ar dims v lengths f)) with (prodZ dims). change (fo_f (fo_of ar dims v lengths f)) with f. rewrite V.
    pose proof (P 0%nat) as P0. pose proof (P 1%nat) as P1. pose proof (P 2%nat) as P2. pose proof (C 0%nat) as C0. pose proof (C 1%nat) as C1. pose proof (C 2%nat) as C2.
    change (Z.of_nat 0 + 1) with 1 in *. change (Z.of_nat 1 + 1) with 2 in *. change (Z.of_nat 2 + 1) with 3 in *.
    destruct (List.length dims) as [|[|[|[|k]]]] eqn:El; [destruct dims; [congruence|discriminate]|..|lia].
    - change (2 <? Z.of_nat 1) with false. change (1 <? Z.of_nat 1) with false. cbn [Nat.ltb Nat.leb map].
      rewrite P0 by lia. cbn [bind]. rewrite C0 by lia. reflexivity.
    - change (2 <? Z.of_nat 2) with false. change (1 <? Z.of_nat 2) with true. cbn [Nat.ltb Nat.leb map].
      rewrite P0, P1 by lia. cbn [bind]. rewrite C0, C1 by lia. reflexivity.
    - change (2 <? Z.of_nat 3) with true. change (1 <? Z.of_nat 3) with true. cbn [Nat.ltb Nat.leb map].
      rewrite P0, P1, P2 by lia. cbn [bind]. rewrite C0, C1, C2 by lia. reflexivity.
  Qed.

  Lemma up_saveVTK_eq f old : vlen f = prodZ dims -> (List.length dims <= 3)%nat ->
    up_saveVTK ar (vlen dims) (up_of ar dims v lengths f old) = Ok (mkRect
      (map (fun j => if (j <? List.length dims)%nat then nth j dims 0 + 1 else 1) [2; 1; 0]%nat)
      (map (fun j => if (j <? List.length dims)%nat then axis_coords ar dims lengths j else (1, [a_dec ar 0 1])) [2; 1; 0]%nat)
      (prodZ dims) f).
  Proof using Ha Hsh.
    intros L H3. pose proof Ha as (Hg & Hv & Hl). pose proof Hg as (Hn & _). pose proof (up_big _ Hg) as Hb.
    pose proof (fun j Hj => vtk_axis_eq ar dims v lengths f old j Ha Hj) as C. fold (axis_coords ar dims lengths) in C.
    pose proof (tabulate_vget f) as V. rewrite L in V.
    assert (P : forall j, (j < List.length dims)%nat -> vget dims (Z.of_nat j) = Ok (nth j dims 0) /\ u64 (nth j dims 0 + 1) = nth j dims 0 + 1).
    { intros j Hj. split; [apply vget_nat; exact Hj|]. pose proof (axis_range dims Hb j Hj). specialize (Hsh j Hj). apply u64_id. unfold two64. lia. }
    unfold up_saveVTK, vlen. change (up_ntot (up_of ar dims v lengths f old)) with (prodZ dims). change (up_f (up_of ar dims v lengths f old)) with f.
    change (up_numCells (up_of ar dims v lengths f old)) with dims. rewrite V.
    pose proof (P 0%nat) as P0. pose proof (P 1%nat) as P1. pose proof (P 2%nat) as P2. pose proof (C 0%nat) as C0. pose proof (C 1%nat) as C1. pose proof (C 2%nat) as C2.
    change (Z.of_nat 0) with 0 in *. change (Z.of_nat 1) with 1 in *. change (Z.of_nat 2) with 2 in *.
    destruct (List.length dims) as [|[|[|[|k]]]] eqn:El; [destruct dims; [congruence|discriminate]|..|lia].
    - change (2 <? Z.of_nat 1) with false. change (1 <? Z.of_nat 1) with false. cbn [Nat.ltb Nat.leb map].
      destruct P0 as (P0 & Q0); [lia|]. rewrite P0. cbn [bind]. rewrite Q0, C0 by lia. reflexivity.
    - change (2 <? Z.of_nat 2) with false. change (1 <? Z.of_nat 2) with true. cbn [Nat.ltb Nat.leb map].
      destruct P0 as (P0 & Q0); [lia|]. destruct P1 as (P1 & Q1); [lia|]. rewrite P1, P0. cbn [bind]. rewrite Q1, Q0, C1, C0 by lia. reflexivity.
    - change (2 <? Z.of_nat 3) with true. change (1 <? Z.of_nat 3) with true. cbn [Nat.ltb Nat.leb map].
      destruct P0 as (P0 & Q0); [lia|]. destruct P1 as (P1 & Q1); [lia|]. destruct P2 as (P2 & Q2); [lia|].
      rewrite P2, P1, P0. cbn [bind]. rewrite Q2, Q1, Q0, C2, C1, C0 by lia. reflexivity.
  Qed.
End Vtk.

(** The Fortran file against the C++ file of the same field: same dimensions, same values in the same order; the three
    lists of coordinates come in the opposite order. *)
Theorem C75_against_cxx {D} (ar : arith D) dims v lengths o u :
  up_args dims v lengths -> (List.length dims <= 3)%nat -> shorter_axes dims ->
  fo_object ar dims v lengths o -> up_object ar dims v lengths u -> fo_f o = up_f u ->
  exists r r', fo_saveVTK ar o = Ok r /\ up_saveVTK ar (vlen dims) u = Ok r' /\
    rg_dims r = rg_dims r' /\ rg_count r = rg_count r' /\ rg_values r = rg_values r' /\ rg_coords r = rev (rg_coords r').
Proof.
  intros Ha H3 Hsh Ho Hu E. apply (fo_object_of ar _ _ _ _ Ha) in Ho as (f & L & ->). apply (up_object_of ar _ _ _ _ Ha) in Hu as (f' & old & L' & _ & ->).
  cbn [fo_of up_of fo_f up_f] in E. subst f'. rewrite fo_saveVTK_eq, up_saveVTK_eq by auto.
  eexists _, _. split; [reflexivity|]. split; [reflexivity|]. repeat split.
Qed.
Print Assumptions C75_against_cxx.

(** The file describes a grid exactly when there are three axes and the first has as many cells as the third. *)
Theorem C75_fits_iff {D} (ar : arith D) dims v lengths o :
  up_args dims v lengths -> (List.length dims <= 3)%nat -> shorter_axes dims -> fo_object ar dims v lengths o ->
  exists r, fo_saveVTK ar o = Ok r /\
    (coords_fit (rg_dims r) (rg_coords r) <-> List.length dims = 3%nat /\ nth 0 dims 0 = nth 2 dims 0).
Proof.
  intros Ha H3 Hsh Ho. apply (fo_object_of ar _ _ _ _ Ha) in Ho as (f & L & ->). rewrite fo_saveVTK_eq by auto. eexists. split; [reflexivity|].
  cbn [rg_dims rg_coords]. pose proof Ha as (Hg & _). pose proof Hg as (Hn & _). pose proof (up_big _ Hg) as Hb.
  assert (Lr : forall F n, 0 <= n -> vlen (map F (range 0 n) : list D) = n).
  { intros F n Hn'. unfold vlen. rewrite map_length, range_length. lia. }
  pose proof (axis_range dims Hb) as P. pose proof (P 0%nat) as P0. pose proof (P 1%nat) as P1. pose proof (P 2%nat) as P2.
  unfold coords_fit, axis_coords. destruct (List.length dims) as [|[|[|[|k]]]] eqn:El; [destruct dims; [congruence|discriminate]|..|lia];
    cbn [Nat.ltb Nat.leb map fst].
  - specialize (P0 ltac:(lia)). split; [intros (H & _); injection H; lia|intros (H & _); lia].
  - specialize (P0 ltac:(lia)). split; [intros (H & _); injection H; lia|intros (H & _); lia].
  - specialize (P0 ltac:(lia)). specialize (P1 ltac:(lia)). specialize (P2 ltac:(lia)). split; [intros (H & _); injection H; lia|].
    intros (_ & H). rewrite H. split; [reflexivity|]. repeat constructor; cbn [fst snd]; apply Lr; lia.
Qed.
Print Assumptions C75_fits_iff.

(** With equal first and third axes (the program's own grids) and equal cell sizes it is the C++ file. *)
Theorem C75_cube {D} (ar : arith D) n x l o u :
  1 <= n -> n * n * n < 2 ^ 31 ->
  fo_object ar [n; n; n] (repeat x 3) (repeat l 3) o -> up_object ar [n; n; n] (repeat x 3) (repeat l 3) u -> fo_f o = up_f u ->
  exists r, fo_saveVTK ar o = Ok r /\ up_saveVTK ar 3 u = Ok r /\ coords_fit (rg_dims r) (rg_coords r).
Proof.
  intros H1 H2 Ho Hu E. destruct (cube_args x n H1 H2) as ((Hg & Hv & _) & Hsh). assert (Ha : up_args [n; n; n] (repeat x 3) (repeat l 3)) by (repeat split; auto; apply Hg).
  destruct (C75_against_cxx ar _ _ _ _ _ Ha ltac:(simpl; lia) Hsh Ho Hu E) as (r & r' & Er & Er' & E1 & E2 & E3 & E4).
  destruct (C75_fits_iff ar _ _ _ _ Ha ltac:(simpl; lia) Hsh Ho) as (r0 & Er0 & Hf). rewrite Er in Er0. injection Er0 as <-.
  exists r. split; [exact Er|]. split; [|apply Hf; split; reflexivity]. change 3 with (vlen [n; n; n]). rewrite Er'. f_equal.
  apply (up_object_of ar _ _ _ _ Ha) in Hu as (f' & old & L' & _ & ->). rewrite up_saveVTK_eq in Er' by (auto; simpl; lia).
  injection Er' as <-. destruct r as [d c k w]. cbn [rg_dims rg_coords rg_count rg_values] in *. subst. reflexivity.
Qed.
Print Assumptions C75_cube.

(** ** C74: the program *)

(** With a number of cells and a number of steps that could be read, the program runs exactly when 1 <= n and n^3 < 2^31. *)
Theorem C74_main_iff {D} (ar : arith D) read blank args n steps vtk argc :
  fo_parse read blank 0 args (mkFoOpt (Some (-1)) (Some 100) false 0) = mkFoOpt (Some n) (Some steps) vtk argc -> (2 <= argc)%nat ->
  ((exists r, fo_main ar read blank args = Ok (Some r)) <-> 1 <= n /\ n * n * n < 2 ^ 31) /\
  (fo_main ar read blank args <> Ok None).
Proof.
  intros Ep Hc. unfold fo_main. rewrite Ep. cbn [oo_argc oo_numCells oo_steps oo_vtk]. destruct (Nat.ltb_spec argc 2); [lia|]. cbn [bind].
  destruct (fo_dt_some ar n) as (dt & Edt). unfold fo_dt_body in Edt. rewrite Edt. cbn [bind]. change (repeat n 3) with [n; n; n]. split.
  - split.
    + intros (r & E). apply bind_ok in E as (u & E & _). eapply fo_new_cube; [exact E|reflexivity|reflexivity].
    + intros (H1 & H2). destruct (cube_args (a_ofZ ar 1) n H1 H2) as (Ha & Hsh). pose proof Ha as (Hg & Hv & Hl). rewrite fo_new_eq by auto. cbn [bind].
      rewrite fo_run_eq by auto. cbn [bind]. destruct vtk; [|eexists; reflexivity]. rewrite fo_saveVTK_eq by first [assumption|apply cells_vlen, Hg|simpl; lia].
      eexists. reflexivity.
  - intros E. repeat (apply bind_ok in E as (? & _ & E)). discriminate.
Qed.
Print Assumptions C74_main_iff.

(** In the real numbers: the field and the check sum of the C++ program run with -numCells n -numSteps steps, the check sum
    being one, and with vtk its second file. *)
Lemma fo_dt_driver n : 1 <= n -> n < 2 ^ 31 -> fo_dt arR (repeat 1%R 3) (repeat 1%R 3) (repeat n 3) = Ok (1 / 10 / IZR n)%R.
Proof.
  intros H1 H2. assert (Hn : (1 <= IZR n)%R) by (apply IZR_le; lia).
  assert (Hx : (1 / 10 * (1 / IZR n) / 1 = 1 / 10 / IZR n)%R) by (field; lra).
  assert (Hm : (1 / 10 / IZR n < IZR (2 ^ 1024 - 2 ^ 971))%R).
  { apply Rle_lt_trans with 1%R; [|apply IZR_lt; reflexivity].
    apply Rmult_le_reg_r with (IZR n); [lra|]. unfold Rdiv. rewrite Rmult_assoc, Rinv_l by lra. lra. }
  unfold fo_dt, f_do. change (vlen (repeat 1%R 3)) with 3. unfold for_upto. change (Z.to_nat 3) with 3%nat. cbn [for_from].
  change (Z.of_nat 0 + 1) with 1. change (Z.of_nat 1 + 1) with 2. change (Z.of_nat 2 + 1) with 3.
  repeat (change (fget (repeat 1%R 3) ?k) with (Ok 1%R); change (fget (repeat n 3) ?k) with (Ok n); cbn [bind]).
  replace (a_div arR (a_mul arR (a_dec arR 1 1) (a_div arR 1%R (a_ofZ arR n))) 1%R) with (1 / 10 / IZR n)%R.
  2: { rewrite <- Hx. cbn [arR a_div a_mul a_dec a_ofZ]. simpl. field. lra. }
  set (t := (1 / 10 / IZR n)%R) in *. cbn [arR a_lt a_max].
  destruct (Rlt_dec (IZR (2 ^ 1024 - 2 ^ 971)) t) as [H|_]; [exfalso; lra|].
  destruct (Rlt_dec t t) as [H|H]; [exfalso; lra|]. destruct (Rlt_dec t t) as [H'|_]; [contradiction|]. reflexivity.
Qed.

Theorem C74_driver read blank args n steps vtk argc :
  fo_parse read blank 0 args (mkFoOpt (Some (-1)) (Some 100) false 0) = mkFoOpt (Some n) (Some steps) vtk argc -> (2 <= argc)%nat ->
  1 <= n -> n * n * n < 2 ^ 31 ->
  exists o file r, fo_main arR read blank args = Ok (Some (o, 1%R, file)) /\
    up_body arR sqrt n steps vtk false = Ok r /\ fo_f o = up_f (ur_up r) /\ ur_sum r = 1%R /\ file = ur_vtk1 r.
Proof.
  intros Ep Hc H1 H2. destruct (C54_driver n steps vtk false H1 H2) as (r & dt & Er & _ & _ & _ & Hs & _ & _).
  destruct (cube_args 1%R n H1 H2) as (Ha & Hsh). pose proof Ha as (Hg & Hv & Hl). assert (n < 2 ^ 30) by nia.
  assert (Hnew : exists u, up_new arR 3 (repeat 1%R 3) (repeat 1%R 3) [n; n; n] = Ok u /\ up_object arR [n; n; n] (repeat 1%R 3) (repeat 1%R 3) u /\
     up_f u = map (corner (a_ofZ arR 0) (a_ofZ arR 1) [n; n; n]) (cells [n; n; n])).
  { destruct (C42_constructor arR _ _ _ Ha) as (u & Eu & Hu & HG). exists u. split; [exact Eu|]. split; [exact Hu|]. rewrite HG.
    apply map_ext. intros g. unfold first_cell, corner. destruct (list_eq_dec _ _ _); [reflexivity|]. cbn [arR a_dec a_ofZ]. simpl. lra. }
  destruct Hnew as (u & Eu & Hu & Hf0).
  destruct (C74_constructor arR _ _ _ Ha) as (o & Eo & Ho & Hfo).
  destruct (C74_same_as_cxx arR _ _ _ o u (1 / 10 / IZR n)%R steps C74_reals Ha Hsh Ho Hu (eq_trans Hfo (eq_sym Hf0))) as (o' & u' & Eo' & Eu' & Ef).
  assert (Ho' : fo_object arR [n; n; n] (repeat 1%R 3) (repeat 1%R 3) o').
  { destruct (C74_advect arR _ _ _ o _ (1 / 10 / IZR n)%R steps Ha Hsh Ho Hfo) as (w & Ew & Hw & _). rewrite Eo' in Ew. injection Ew as <-. exact Hw. }
  assert (Hu' : up_object arR [n; n; n] (repeat 1%R 3) (repeat 1%R 3) u').
  { assert (Hsh' : short_axes [n; n; n]) by (intros j Hj; specialize (Hsh j Hj); lia).
    destruct (C42_advect arR _ _ _ u _ (1 / 10 / IZR n)%R steps Ha Hsh' Hu Hf0) as (w & Ew & Hw & _). rewrite Eu' in Ew. injection Ew as <-. exact Hw. }
  destruct (C75_cube arR n 1%R 1%R o' u' H1 H2 Ho' Hu' Ef) as (file & Ev & Ev' & _).
  pose proof (up_dt_driver n H1 ltac:(lia)) as Ed.
  assert (Er2 := Er). unfold up_body in Er2. rewrite u64_id in Er2 by (unfold two64; lia). rewrite dec10R in Er2.
  change (repeat n 3) with [n; n; n] in Er2. change (repeat 1%R 3) with [1%R; 1%R; 1%R] in *. rewrite Ed in Er2. cbn [bind] in Er2.
  rewrite Eu in Er2. cbn [bind] in Er2. apply bind_ok in Er2 as (v0 & _ & Er2). change (vlen [n; n; n]) with 3 in Eu'. rewrite Eu' in Er2. cbn [bind] in Er2.
  apply bind_ok in Er2 as (v1 & Ev1 & Er2). injection Er2 as <-. cbn [ur_up ur_sum ur_vtk1] in *.
  unfold fo_main. rewrite Ep. cbn [oo_argc oo_numCells oo_steps oo_vtk]. destruct (Nat.ltb_spec argc 2); [lia|]. cbn [bind].
  pose proof (fo_dt_driver n H1 ltac:(lia)) as Fd. change (a_ofZ arR 1) with 1%R. rewrite Fd. cbn [bind].
  change (repeat n 3) with [n; n; n]. change (repeat 1%R 3) with [1%R; 1%R; 1%R]. rewrite Eo. cbn [bind]. rewrite Eo'. cbn [bind].
  exists o', v1, (mkUpResult u' (up_checksum arR u') None v0 v1). split; [|repeat split; auto].
  replace (fo_sum arR o') with 1%R.
  - destruct vtk; [|injection Ev1 as <-; reflexivity]. rewrite Ev' in Ev1. injection Ev1 as <-. rewrite Ev. reflexivity.
  - rewrite <- Hs. unfold up_checksum, fo_sum. rewrite Ef. f_equal. cbn [arR a_dec a_ofZ]. simpl. lra.
Qed.
Print Assumptions C74_driver.

(** In doubles the two programs differ: 3 cells along each axis, 3 steps. *)
Definition one_digit (s : string) : option Z := 
  if string_dec s "2" then Some 2 else if string_dec s "3" then Some 3 else None.
Definition is_blank (s : string) : bool := if string_dec s "" then true else false.

Theorem C74_doubles_refuted :
  exists n steps args o s file r, fo_main arD one_digit is_blank args = Ok (Some (o, s, file)) /\
    fo_parse one_digit is_blank 0 args (mkFoOpt (Some (-1)) (Some 100) false 0) = mkFoOpt (Some n) (Some steps) false 3 /\
    up_body arD (fun x => x) n steps false false = Ok r /\ fo_f o <> up_f (ur_up r).
Proof.
  exists 3, 3, ["upwind"; "3"; "3"]%string.
  assert (H : (r <- up_body arD (fun x => x) 3 3 false false ;; m <- fo_main arD one_digit is_blank ["upwind"; "3"; "3"]%string ;;
     Ok (nth 6 (up_f (ur_up r)) S754_nan, match m with Some (o, _, _) => nth 6 (fo_f o) S754_nan | None => S754_nan end)) =
     Ok (S754_finite false 6052837899185947 (-58), S754_finite false 6052837899185946 (-58))) by (vm_compute; reflexivity).
  destruct (up_body arD (fun x => x) 3 3 false false) as [r|e]; [|discriminate]. cbn [bind] in H.
  destruct (fo_main arD one_digit is_blank _) as [[[[o s] file]|]|e]; [|discriminate..]. cbn [bind] in H.
  exists o, s, file, r. repeat split. intros E. rewrite E in H. inversion H as [H']. rewrite H' in H. inversion H.
Qed.
Print Assumptions C74_doubles_refuted.

(** ** Examples *)

Definition arInt : arith Z := mkArith Z 0 1 (fun z => z) (fun m e => m / 10 ^ e) Z.add Z.sub Z.mul Z.div Z.opp Z.ltb (2 ^ 62).

(** A grid of 3 x 2 x 2 cells: the hypotheses of C74_advect and C75 hold; the file does not describe a grid. *)
Example C75_example :
  exists o r, fo_new arInt [1; -1; 1] [3; 2; 2] [3; 2; 2] = Ok o /\ fo_saveVTK arInt o = Ok r /\
    rg_dims r = [3; 3; 4] /\ map fst (rg_coords r) = [4; 3; 3] /\ rg_values r = [1; 0; 0; 0; 0; 0; 0; 0; 0; 0; 0; 0].
Proof. eexists _, _. repeat split; vm_compute; reflexivity. Qed.
Example C75_args : up_args [3; 2; 2] [1; -1; 1] [3; 2; 2] /\ shorter_axes [3; 2; 2].
Proof.
  split.
  - repeat split; try discriminate; try reflexivity. intros [|[|[|j]]] Hj; simpl in *; lia.
  - intros [|[|[|j]]] Hj; simpl in *; lia.
Qed.

(** One step, in whole numbers: the velocity is positive along the first and third axis, negative along the second. *)
Example C74_example :
  match fo_new arInt [1; -1; 1] [3; 2; 2] [3; 2; 2] with
  | Ok o => match fo_run arInt o 1 1 with Ok o' => fo_f o' = [-2; 1; 1; 0; 1; 0; 0; 0; 0; 0; 0; 0] | Undef _ => False end
  | Undef _ => False
  end.
Proof. vm_compute. reflexivity. Qed.

(** Two threads taking the cells in turn meet the hypotheses of C74_every_schedule. *)
Example C74_shares : shares 2 12 (fun t => map (fun k => 2 * Z.of_nat k + Z.of_nat t) (seq 0 6)).
Proof.
  unfold shares. vm_compute. apply NoDup_Permutation.
  - repeat (apply NoDup_cons; [cbn; intuition lia|]). apply NoDup_nil.
  - repeat (apply NoDup_cons; [cbn; intuition lia|]). apply NoDup_nil.
  - intros x. cbn. intuition lia.
Qed.

(** The command line "upwind 3 2 vtk". *)
Example C74_parse : fo_parse one_digit is_blank 0 ["upwind"; "3"; "2"; "vtk"]%string (mkFoOpt (Some (-1)) (Some 100) false 0) =
  mkFoOpt (Some 3) (Some 2) true 4.
Proof. reflexivity. Qed.
Example C74_no_argument : fo_main arInt one_digit is_blank ["upwind"]%string = Ok None.
Proof. reflexivity. Qed.
(** Letters after the name: the numbers are undefined; a negative number of cells: there is no first cell. *)
Example C74_bad_argument : fo_main arInt one_digit is_blank ["upwind"; "x"]%string = Undef UninitRead.
Proof. reflexivity. Qed.
