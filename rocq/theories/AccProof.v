(** * Proofs about the accelerator versions of the upwind benchmark *)
From Coq Require Import Permutation Ring_theory Ring List.
From Verif Require Import Cpp CppProof MaiModel MaiSpec Radix MaiProof CdModel CdSpec CdProof FilterModel FilterSpec FilterProof
  FilterSum LapSpec LapProof UpModel UpSpec UpProof AccModel AccSpec.
From Coq Require Import List.
Import ListNotations.
Local Open Scope Z_scope.
Local Arguments prodZ : simpl never.
Local Arguments Z.of_nat : simpl never.

Lemma sdiv_nn a b : 0 <= a < 2 ^ 31 -> 0 < b -> sdiv a b = Ok (a / b).
Proof.
  intros Ha Hb. unfold sdiv. destruct (Z.eqb_spec b 0); [lia|]. rewrite Z.quot_div_nonneg by lia. apply int_op_ok.
  pose proof (Z.div_pos a b ltac:(lia) ltac:(lia)). assert (a / b <= a) by (apply Z.div_le_upper_bound; nia). unfold two31, int_max; lia.
Qed.
Lemma srem_nn a b : 0 <= a < 2 ^ 31 -> 0 < b -> srem a b = Ok (a mod b).
Proof.
  intros Ha Hb. unfold srem. destruct (Z.eqb_spec b 0); [lia|]. rewrite Z.quot_div_nonneg by lia. rewrite int_op_ok.
  - cbn [bind]. rewrite Z.rem_mod_nonneg by lia. reflexivity.
  - pose proof (Z.div_pos a b ltac:(lia) ltac:(lia)). assert (a / b <= a) by (apply Z.div_le_upper_bound; nia). unfold two31, int_max; lia.
Qed.

Lemma get0 {A} (x y z : A) : vget [x; y; z] 0 = Ok x. Proof. reflexivity. Qed.
Lemma get1 {A} (x y z : A) : vget [x; y; z] 1 = Ok y. Proof. reflexivity. Qed.
Lemma get2 {A} (x y z : A) : vget [x; y; z] 2 = Ok z. Proof. reflexivity. Qed.
Lemma set0 {A} (x y z w : A) : vset [x; y; z] 0 w = Ok [w; y; z]. Proof. reflexivity. Qed.
Lemma set1 {A} (x y z w : A) : vset [x; y; z] 1 w = Ok [x; w; z]. Proof. reflexivity. Qed.
Lemma set2 {A} (x y z w : A) : vset [x; y; z] 2 w = Ok [x; y; w]. Proof. reflexivity. Qed.
Ltac vec3 := repeat (first [rewrite get0|rewrite get1|rewrite get2|rewrite set0|rewrite set1|rewrite set2]; cbn [bind]).

Section Acc.
  Context {D : Type} (ar : arith D).
  Variables (na nb nc : Z) (v0 v1 v2 l0 l1 l2 : D).
  Let dims := [na; nb; nc].
  Let v := [v0; v1; v2].
  Let lengths := [l0; l1; l2].
  Hypothesis Hg : up_grid dims.
  Let zero := a_zero ar.

  Let Hb : big_grid dims := up_big dims Hg.
  Lemma acc_pos : 0 < na /\ 0 < nb /\ 0 < nc /\ na * nb * nc < 2 ^ 31 /\ prodZ dims = na * nb * nc.
  Proof using Hg.
    pose proof Hg as (_ & _ & H & P). assert (Ep : prodZ dims = na * nb * nc) by (unfold dims; rewrite !prodZ_cons; change (prodZ []) with 1; ring).
    rewrite Ep in P. repeat split; auto; [apply (H 0%nat)|apply (H 1%nat)|apply (H 2%nat)]; simpl; lia.
  Qed.

  Definition coeffs : list D := map (fun j => a_div ar (a_mul ar (axis_velocity ar v j) (a_ofZ ar (upwind_side ar (axis_velocity ar v j))))
    (cell_size ar dims lengths j)) [0%nat; 1%nat; 2%nat].
  Definition acc_of (f old : list D) : accel D :=
    mkAcc f old v lengths (sizes ar dims lengths) coeffs (sides ar v) (strd true dims) dims (prodZ dims).

  Lemma strd3 : strd true dims = [nb * nc; nc; 1].
  Proof using Type. unfold strd, dims. cbn [strides]. rewrite !prodZ_cons. change (prodZ []) with 1. rewrite !Z.mul_1_r. reflexivity. Qed.

  Lemma acc_new_eq hasOld : acc_new ar hasOld 3 v lengths dims =
    Ok (acc_of (map (first_cell ar dims) (cells dims)) (if hasOld then repeat (a_zero ar) (Z.to_nat (prodZ dims)) else [])).
  Proof using Hg.
    destruct acc_pos as (Pa & Pb & Pc & Ps & Ep). assert (na * nb < 2 ^ 31) by nia. assert (na < 2 ^ 31) by nia. assert (nb * nc < 2 ^ 31) by nia.
    assert (nc < 2 ^ 31) by nia.
    assert (EA : acc_axes ar 3 v lengths dims = Ok (sides ar v, sizes ar dims lengths, prodZ dims)).
    { unfold acc_axes, for_upto, v, lengths, dims. change (Z.to_nat 3) with 3%nat. cbn [for_from repeat].
      change (Z.of_nat 0) with 0. change (Z.of_nat 1) with 1. change (Z.of_nat 2) with 2.
      fold dims. rewrite Ep. unfold sides, sizes, cell_size, upwind_side. cbn [map seq length nth dims]. unfold dims.
      destruct (a_lt ar v0 (a_dec ar 0 1)) eqn:E0, (a_lt ar v1 (a_dec ar 0 1)) eqn:E1, (a_lt ar v2 (a_dec ar 0 1)) eqn:E2;
        vec3; rewrite E0; vec3; rewrite (int_op_ok (1 * na)) by (unfold two31, int_max; lia); rewrite Z.mul_1_l; cbn [bind];
        vec3; rewrite E1; vec3; rewrite (int_op_ok (na * nb)) by (unfold two31, int_max; nia); cbn [bind];
        vec3; rewrite E2; vec3; rewrite (int_op_ok (na * nb * nc)) by (unfold two31, int_max; nia); reflexivity. }
    assert (ES : acc_strides 3 dims = Ok (strd true dims)).
    { rewrite strd3. unfold acc_strides, dims. change (i32 3 - 2 + 1) with 2. change (i32 3 - 2) with 1.
      change (vset (repeat 0 (Z.to_nat 3)) (u64 (3 - 1)) 1) with (Ok [0; 0; 1]). cbn [bind].
      unfold for_upto. change (Z.to_nat 2) with 2%nat. cbn [for_from]. change (Z.of_nat 0) with 0. change (Z.of_nat 1) with 1. cbv zeta.
      change (1 - 0 + 1) with 2. change (1 - 1 + 1) with 1. change (1 - 0) with 1. change (1 - 1) with 0.
      vec3. rewrite (int_op_ok (1 * nc)) by (unfold two31, int_max; lia). cbn [bind]. vec3.
      rewrite (int_op_ok (1 * nc * nb)) by (unfold two31, int_max; nia). cbn [bind]. vec3.
      f_equal. f_equal; [ring|]. f_equal. ring. }
    unfold acc_new. rewrite EA. cbn [bind]. rewrite ES. cbn [bind]. rewrite Ep, u64_id by (unfold two64; nia). rewrite <- Ep.
    replace (2 ^ 60 <=? prodZ dims) with false by (symmetry; apply Z.leb_gt; lia).
    rewrite vset_ok by (unfold vlen; rewrite repeat_length; nia). cbn [bind]. change (Z.to_nat 0) with O.
    rewrite (first_cell_list ar dims Hb). reflexivity.
  Qed.

  (** *** One cell *)
  Lemma digs_vec i : digit_vec dims (digs true dims i).
  Proof using Hg. apply digs_digit_vec, big_allpos, Hb. Qed.

  Lemma acc_inds_eq f old i : 0 <= i < prodZ dims -> acc_inds 3 (acc_of f old) i = Ok (digs true dims i).
  Proof using Hg.
    intros Hi. destruct acc_pos as (Pa & Pb & Pc & Ps & Ep). unfold acc_inds. change (Z.min 3 3) with (Z.of_nat 3). 
    rewrite (tabulate_ok (fun j => nth j (digs true dims i) 0)).
    - reflexivity.
    - intros j Hj. rewrite Nat2Z.id in Hj. unfold acc_of; cbn [ac_dimProd ac_numCells].
      rewrite (vget_nat _ j 0) by (rewrite strd_length; exact Hj). cbn [bind]. pose proof (strd_nth_pos dims Hb j Hj) as S.
      rewrite sdiv_nn by lia. cbn [bind]. rewrite (vget_nat _ j 0) by exact Hj. cbn [bind].
      rewrite digs_nth by exact Hj. apply srem_nn.
      + pose proof (Z.div_pos i _ ltac:(lia) S). assert (i / nth j (strd true dims) 0 <= i) by (apply Z.div_le_upper_bound; nia). lia.
      + apply (axis_range dims Hb j Hj).
  Qed.

  Lemma acc_upI_eq f old g j : shorter_axes dims -> digit_vec dims g -> (j < 3)%nat ->
    acc_upI (acc_of f old) g (Z.of_nat j) = Ok (dot (strd true dims) (neighbour dims g j (upwind_side ar (axis_velocity ar v j)))).
  Proof using Hg.
    intros Hsh Hd Hj. set (s := upwind_side ar (axis_velocity ar v j)). assert (Hgr : in_grid dims g) by (apply in_grid_digit_vec; exact Hd).
    assert (Hs : s = 1 \/ s = -1) by (unfold s, upwind_side; destruct (a_lt ar _ _); auto).
    unfold neighbour. rewrite wrap_unit by auto. destruct acc_pos as (Pa & Pb & Pc & Ps & Ep).
    pose proof (Hsh j Hj) as Hn. pose proof (axis_range dims Hb j Hj) as Hax.
    assert (Hr : 0 <= nth j g 0 < nth j dims 0) by (apply Hd; exact Hj).
    set (t := (nth j g 0 + s) mod nth j dims 0).
    assert (Ht : 0 <= t < nth j dims 0) by (apply Z.mod_pos_bound; lia).
    assert (Hd' : digit_vec dims (upd g j t)).
    { destruct Hd as [L H]. split; [rewrite upd_length; exact L|]. intros k Hk. rewrite upd_nth by (rewrite L; exact Hj).
      destruct (Nat.eqb_spec k j); [subst; exact Ht|apply H; exact Hk]. }
    assert (Lg : length g = 3%nat) by apply Hd.
    assert (Term : forall l, (l < 3)%nat -> acc_term (acc_of f old) g (Z.of_nat j) (Z.of_nat l) = Ok (nth l (strd true dims) 0 * nth l (upd g j t) 0)).
    { intros l Hl. unfold acc_term, acc_of; cbn [ac_dimProd ac_upDirection ac_numCells].
      rewrite (vget_nat _ l 0) by (rewrite strd_length; exact Hl). cbn [bind]. rewrite (vget_nat g l 0) by lia. cbn [bind].
      rewrite upd_nth by lia.
      assert (R : int_op (nth l (strd true dims) 0 * nth l (upd g j t) 0) = Ok (nth l (strd true dims) 0 * nth l (upd g j t) 0)).
      { apply int_op_ok. pose proof (strd_le true dims l (big_allpos dims Hb) Hl). pose proof (strd_nth_pos dims Hb l Hl).
        destruct Hd' as [_ Hd']. specialize (Hd' l Hl). unfold two31, int_max. nia. }
      rewrite upd_nth in R by lia.
      replace (Z.of_nat l =? Z.of_nat j) with (Nat.eqb l j) by (destruct (Nat.eqb_spec l j), (Z.eqb_spec (Z.of_nat l) (Z.of_nat j)); auto; lia).
      destruct (Nat.eqb_spec l j); [|exact R]. subst l.
      rewrite (vget_nat (sides ar v) j 0) by exact Hl. cbn [bind]. rewrite (vget_nat dims j 0) by exact Hl. cbn [bind].
      rewrite (sides_nth ar dims v eq_refl) by exact Hl. fold s.
      rewrite int_op_ok by (unfold two31, int_max; lia). cbn [bind].
      rewrite int_op_ok by (unfold two31, int_max; lia). cbn [bind]. rewrite srem_nn by lia. cbn [bind].
      replace ((nth j g 0 + s + nth j dims 0) mod nth j dims 0) with t; [exact R|].
      unfold t. rewrite <- (Z.mod_add (nth j g 0 + s) 1) by lia. f_equal. lia. }
    pose proof (dot_strd_range true dims _ Hd') as Rg. rewrite strd3 in Term. rewrite strd3 in Rg |- *.
    destruct Hd' as [L' H']. assert (L3 : length (upd g j t) = 3%nat) by (rewrite upd_length; exact Lg).
    pose proof (H' 0%nat ltac:(simpl; lia)) as H0. pose proof (H' 1%nat ltac:(simpl; lia)) as H1. pose proof (H' 2%nat ltac:(simpl; lia)) as H2.
    pose proof (Term 0%nat ltac:(lia)) as T0. pose proof (Term 1%nat ltac:(lia)) as T1. pose proof (Term 2%nat ltac:(lia)) as T2.
    destruct (upd g j t) as [|x [|y [|z [|]]]]; try discriminate. cbn [nth dims] in *. cbn [dot] in *.
    unfold acc_upI. change 0 with (Z.of_nat 0) at 1. rewrite T0. cbn [bind]. change 1 with (Z.of_nat 1) at 1. rewrite T1. cbn [bind].
    rewrite int_op_ok by (unfold two31, int_max; nia). cbn [bind]. change 2 with (Z.of_nat 2) at 1. rewrite T2. cbn [bind].
    rewrite int_op_ok by (unfold two31, int_max; nia). f_equal. ring.
  Qed.

  Definition acc_value (G : list Z -> D) (dt : D) (g : list Z) (l : list nat) (x : D) : D :=
    fold_left (fun acc j => a_sub ar acc (a_mul ar (acc_courant ar dims v lengths dt j)
      (a_sub ar (G (neighbour dims g j (upwind_side ar (axis_velocity ar v j)))) (G g)))) l x.

  Lemma acc_cell_eq f0 old0 dt G f i : shorter_axes dims -> (i < Z.to_nat (prodZ dims))%nat -> length f = Z.to_nat (prodZ dims) ->
    let g := digs true dims (Z.of_nat i) in
    acc_cell ar 3 (acc_of f0 old0) dt (map G (cells dims)) (Z.of_nat i) f = Ok (upd f i (acc_value G dt g [0%nat; 1%nat; 2%nat] (nth i f zero))).
  Proof using Hg.
    intros Hsh Hi Lf g. unfold acc_cell. rewrite acc_inds_eq by lia. cbn [bind]. fold g. pose proof (digs_vec (Z.of_nat i)) as Hd. fold g in Hd.
    destruct (for_upto_inv (fun k (p : option Z * list D) => snd p = upd f i (acc_value G dt g (seq 0 k) (nth i f zero)))
      (acc_axis ar 3 (acc_of f0 old0) dt (map G (cells dims)) g (Z.of_nat i)) 3 (None, f)) as ([u f'] & -> & E).
    - simpl. rewrite upd_self by lia. reflexivity.
    - intros k [u f'] Hk Ef. cbn [snd] in Ef. subst f'. change (Z.to_nat 3) with 3%nat in Hk. unfold acc_axis.
      replace (Z.of_nat k <? 3) with true by (symmetry; apply Z.ltb_lt; lia). rewrite acc_upI_eq by auto. cbn [bind].
      unfold acc_of; cbn [ac_coeff]. rewrite (vget_nat coeffs k zero) by exact Hk. cbn [bind].
      assert (Hnb : in_grid dims (neighbour dims g k (upwind_side ar (axis_velocity ar v k)))).
      { apply wrap_in_grid; [apply Hg|]. rewrite shift_length; rewrite ?unit_vec_length; [reflexivity|apply Hd]. }
      rewrite (vget_cell dims Hb G _ Hnb). cbn [bind].
      replace (vget (map G (cells dims)) (Z.of_nat i)) with (Ok (G g)).
      2: { rewrite <- (vget_cell dims Hb G g) by (apply in_grid_digit_vec; exact Hd). f_equal. unfold g. rewrite dot_digs by (apply big_allpos; exact Hb).
           apply Z.mod_small. lia. }
      cbn [bind]. rewrite (vget_nat _ i zero) by (rewrite upd_length; lia). cbn [bind]. rewrite vset_nat by (rewrite upd_length; lia). cbn [bind].
      eexists; split; [reflexivity|]. cbn [snd]. rewrite upd_nth, Nat.eqb_refl, upd_upd by lia. rewrite seq_S. unfold acc_value. rewrite fold_left_app.
      cbn [fold_left Nat.add]. unfold acc_courant. do 4 f_equal.
      destruct k as [|[|[|k]]]; try lia; reflexivity.
    - cbn [bind]. cbn [snd] in E. rewrite E. reflexivity.
  Qed.

  Lemma LG (G : list Z -> D) : length (map G (cells dims)) = Z.to_nat (prodZ dims).
  Proof using Hg. rewrite map_length. apply cells_length. exact Hb. Qed.

  Lemma acc_cells_eq f0 old0 dt G : shorter_axes dims ->
    acc_cells ar 3 (acc_of f0 old0) dt (map G (cells dims)) (map G (cells dims)) = Ok (map (acc_formula ar dims v lengths dt G) (cells dims)).
  Proof using Hg.
    intros Hsh. unfold acc_cells. change (ac_ntot (acc_of f0 old0)) with (prodZ dims).
    match goal with |- for_upto ?c ?bd ?s = _ =>
      destruct (for_upto_inv (fun i f => length f = Z.to_nat (prodZ dims) /\ forall k, (k < Z.to_nat (prodZ dims))%nat ->
          nth k f zero = if (k <? i)%nat then acc_formula ar dims v lengths dt G (digs true dims (Z.of_nat k)) else G (digs true dims (Z.of_nat k))) bd c s)
        as (t & -> & L & H) end.
    - split; [apply LG|]. intros k Hk. apply (nth_cells ar dims v lengths Hb eq_refl eq_refl G k Hk).
    - intros i f Hi (L & H). rewrite acc_cell_eq by auto. eexists; split; [reflexivity|]. rewrite upd_length. split; auto.
      intros k Hk. rewrite upd_nth by lia. destruct (Nat.eqb_spec k i).
      + subst k. rewrite H by auto. replace (i <? S i)%nat with true by (symmetry; apply Nat.ltb_lt; lia).
        replace (i <? i)%nat with false by (symmetry; apply Nat.ltb_ge; lia). reflexivity.
      + rewrite H by auto. destruct (Nat.ltb_spec k i), (Nat.ltb_spec k (S i)); auto; lia.
    - f_equal. apply (nth_ext' zero); [rewrite LG; auto|]. intros k Hk. rewrite L in Hk.
      rewrite (nth_cells ar dims v lengths Hb eq_refl eq_refl) by exact Hk. rewrite H by auto.
      replace (k <? Z.to_nat (prodZ dims))%nat with true by (symmetry; apply Nat.ltb_lt; lia). reflexivity.
  Qed.

  Lemma acc_copy_eq (f old : list D) : length f = Z.to_nat (prodZ dims) -> length old = Z.to_nat (prodZ dims) ->
    acc_copy (prodZ dims) f old = Ok f.
  Proof using All.
    intros Lf Lo. rewrite <- (up_copy_eq ar dims v lengths Hb eq_refl eq_refl f old) by (auto; apply Hg).
    unfold up_copy. rewrite i32_id; [reflexivity|]. destruct acc_pos as (Pa & Pb & Pc & Ps & Ep). unfold two31. nia.
  Qed.

  (** *** Any number of steps *)
  Lemma acc1_steps_eq dt G old n : shorter_axes dims ->
    acc1_steps ar 3 (acc_of (map G (cells dims)) old) n dt = Ok (acc_of (map (acc_iter ar (Z.to_nat n) dims v lengths dt G) (cells dims)) old).
  Proof using All.
    intros Hsh. unfold acc1_steps.
    match goal with |- for_upto ?c ?bd ?s = _ =>
      destruct (for_upto_inv (fun i a => a = acc_of (map (acc_iter ar i dims v lengths dt G) (cells dims)) old) bd c s) as (t & -> & ->) end; auto.
    intros i a Hi ->. unfold acc1_advect. change (ac_f (acc_of ?x ?y)) with x. rewrite acc_cells_eq by exact Hsh. cbn [bind].
    eexists; split; [reflexivity|]. reflexivity.
  Qed.

  Lemma acc_steps_eq f0 old0 dt G old n : shorter_axes dims -> length old = Z.to_nat (prodZ dims) ->
    exists old', length old' = Z.to_nat (prodZ dims) /\
    acc_steps ar 3 (acc_of f0 old0) n dt (map G (cells dims)) old = Ok (map (acc_iter ar (Z.to_nat n) dims v lengths dt G) (cells dims), old').
  Proof using All.
    intros Hsh Lo. unfold acc_steps.
    match goal with |- context [for_upto ?c ?bd ?s] =>
      destruct (for_upto_inv (fun i p => fst p = map (acc_iter ar i dims v lengths dt G) (cells dims) /\ length (snd p) = Z.to_nat (prodZ dims)) bd c s)
        as ([f' old'] & -> & H1 & H2) end; auto.
    - intros i [f o] Hi [H1 H2]. cbn [fst snd] in *. subst f. change (ac_ntot (acc_of f0 old0)) with (prodZ dims).
      rewrite acc_copy_eq by (auto; apply LG). cbn [bind]. rewrite acc_cells_eq by exact Hsh. cbn [bind].
      eexists; split; [reflexivity|]. cbn [fst snd]. split; [reflexivity|apply LG].
    - cbn [fst snd] in *. exists old'. split; auto. f_equal. f_equal. exact H1.
  Qed.
End Acc.
