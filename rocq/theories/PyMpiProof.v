(** * Proofs about the MPI version in Python of the upwind benchmark *)
From Coq Require Import List ZArith Bool Lia.
From Verif Require Import Cpp CppProof MaiModel MaiSpec Radix MaiProof CdModel CdSpec CdProof FilterModel FilterSpec FilterProof
  FilterSum LapSpec LapProof UpModel UpSpec UpProof AccModel AccSpec AccProof LangSpec FortProof PyModel PyProof PyMpiSpec PyMpiModel.
From Coq Require Import List.
Import ListNotations.
Local Open Scope Z_scope.
Local Arguments prodZ : simpl never.
Local Arguments Z.of_nat : simpl never.

(** ** C order *)
Lemma mp_inds_eq dims k : mp_inds dims k = digits dims k.
Proof. induction dims as [|n t IH]; [reflexivity|]. cbn [mp_inds digits]. rewrite IH. reflexivity. Qed.
Lemma mp_flat_eq dims inds : mp_flat dims inds = dot (strides dims) inds.
Proof.
  revert inds; induction dims as [|n t IH]; intros [|x i]; try reflexivity. cbn [mp_flat strides dot]. rewrite IH.
  change (fold_right Z.mul 1 t) with (prodZ t). ring.
Qed.
Lemma mp_size_eq dims dec : mp_size dims dec = local_dims dims dec.
Proof. reflexivity. Qed.
Lemma mp_begin_eq dims dec rk : mp_begin dims dec rk = beg_of dims dec rk.
Proof. unfold mp_begin, beg_of, zipmap, coords. rewrite mp_inds_eq. reflexivity. Qed.
Lemma mp_neighbour_eq dec rk dir : length dir = length dec -> mp_neighbour dec rk dir = nb_of dec rk dir.
Proof.
  intros L. unfold mp_neighbour, nb_of, nb_coords, coords. rewrite mp_flat_eq, mp_inds_eq. f_equal. unfold zipmap.
  pose proof (digits_length dec rk) as Ld. revert Ld. generalize (digits dec rk) as x. intros x.
  assert (K : forall (a b c : list Z), length a = length c -> length b = length c ->
    map (fun p => (fst (fst p) + snd (fst p)) mod snd p) (combine (combine a b) c) = map (fun p => fst p mod snd p) (combine (vadd a b) c)).
  { induction a as [|y a IH]; intros [|z b] [|w c] H1 H2; try discriminate; try reflexivity. cbn [combine map vadd]. f_equal. apply IH; simpl in *; lia. }
  intros Ld. apply K; lia.
Qed.
Lemma mp_all_eq ns : mp_all ns = cells ns.
Proof. reflexivity. Qed.

Lemma zip_add_eq a b : map (fun q => fst q + snd q) (combine a b) = vadd a b.
Proof. revert b; induction a as [|x a IH]; intros [|y b]; try reflexivity. cbn [combine map vadd]. rewrite IH. reflexivity. Qed.

(** A box is its lower corner and the cells of the grid of its extents. *)
Lemma row_major_shift lo hi : length lo = length hi -> row_major lo hi = map (vadd lo) (cells (extents lo hi)).
Proof.
  unfold cells. revert hi; induction lo as [|l lo IH]; intros [|h hi] Hl; try discriminate; [reflexivity|]. simpl in Hl.
  rewrite extents_cons. cbn [length repeat row_major]. rewrite IH by lia.
  unfold range. replace (h - l - 0) with (h - l) by ring. rewrite !flat_map_concat_map, !map_map, concat_map, map_map. f_equal. apply map_ext. intros k.
  rewrite !map_map. apply map_ext. intros g. cbn [vadd]. reflexivity.
Qed.

Lemma grid_big ns : allpos ns -> ns <> [] -> (length ns <= 32)%nat -> prodZ ns < 2 ^ 31 -> big_grid ns.
Proof.
  intros H1 H2 H3 H4. apply up_big. split; [exact H2|]. split; [lia|]. split; [|exact H4]. apply allpos_nth. exact H1.
Qed.

(** Reading an element *)
Lemma at_cells {D} (F : list Z -> D) ns i : big_grid ns -> in_grid ns i -> mp_at ns (map F (cells ns)) i = Ok (F i).
Proof.
  intros Hb Hi. unfold mp_at. rewrite mp_flat_eq. pose proof (vget_field F _ _ true i (big_good ns Hb) Hi) as E. rewrite extents0 in E.
  rewrite vsub0 in E by (apply in_grid_nth in Hi; apply Hi). exact E.
Qed.

Lemma upd_in_grid ns i j x : in_grid ns i -> (j < length ns)%nat -> 0 <= x < nth j ns 0 -> in_grid ns (upd i j x).
Proof.
  intros Hi Hj Hx. apply in_grid_nth in Hi as [L H]. apply in_grid_nth. split; [rewrite upd_length; exact L|]. intros k Hk. rewrite upd_nth by lia.
  destruct (Nat.eqb_spec k j) as [->|]; [exact Hx|apply H; exact Hk].
Qed.
Lemma upd_dim_in ns i j : in_grid ns i -> (j < length ns)%nat -> nth j i 0 < 1 -> in_grid (upd ns j 1) i.
Proof.
  intros Hi Hj Hx. apply in_grid_nth in Hi as [L H]. apply in_grid_nth. rewrite upd_length. split; [exact L|]. intros k Hk. rewrite upd_nth by exact Hj.
  pose proof (H k Hk). destruct (Nat.eqb_spec k j) as [->|]; lia.
Qed.

Lemma zip_nth (f : Z * Z -> Z) a b k : length a = length b -> (k < length a)%nat -> nth k (map f (combine a b)) 0 = f (nth k a 0, nth k b 0).
Proof.
  intros L H. rewrite (nth_indep _ 0 (f (0, 0))) by (rewrite map_length, combine_length; lia). rewrite map_nth, combine_nth by exact L. reflexivity.
Qed.

Section Ops.
  Context {D : Type} (ar : arith D).
  Variable ns : list Z.
  Hypothesis Hb : big_grid ns.

  Lemma inner_eq j c O F : (j < length ns)%nat ->
    pm_inner ar ns j c (map O (cells ns)) (map F (cells ns)) =
    Ok (map (fun i => if 1 <=? nth j i 0 then a_sub ar (F i) (a_mul ar c (O (upd i j (nth j i 0 - 1)))) else F i) (cells ns)).
  Proof using Hb.
    intros Hj. unfold pm_inner. apply mapM_ok. intros i Hi. apply (in_cells ns) in Hi. rewrite at_cells by assumption. cbn [bind].
    pose proof (proj2 (proj1 (in_grid_nth _ _) Hi) j Hj). destruct (Z.leb_spec 1 (nth j i 0)); [|reflexivity].
    rewrite at_cells by (auto; apply upd_in_grid; auto; lia). reflexivity.
  Qed.

  Lemma upd_big j : (j < length ns)%nat -> big_grid (upd ns j 1).
  Proof using Hb.
    intros Hj. pose proof (big_allpos ns Hb) as Hp. destruct Hb as (H1 & H2 & H3 & H4).
    assert (Lu : length (upd ns j 1) = length ns) by apply upd_length.
    split; [destruct ns; [exfalso; apply H1; reflexivity|destruct j; discriminate]|]. rewrite Lu. split; [exact H2|]. split.
    - intros k Hk. rewrite upd_nth by exact Hj. destruct (Nat.eqb k j); [lia|apply H3; exact Hk].
    - apply Z.le_lt_trans with (prodZ ns); [|exact H4]. clear - Hj Hp. revert j Hj. induction ns as [|n t IH]; intros j Hj; [simpl in Hj; lia|].
      inversion Hp; subst. destruct j as [|j]; cbn [upd]; rewrite !prodZ_cons; [pose proof (prodZ_pos t H2); nia|].
      simpl in Hj. pose proof (IH H2 j ltac:(lia)). nia.
  Qed.

  Lemma border_eq j c L F : (j < length ns)%nat ->
    pm_border ar ns j c (map L (cells (upd ns j 1))) (map F (cells ns)) =
    Ok (map (fun i => if nth j i 0 <? 1 then a_sub ar (F i) (a_mul ar c (L i)) else F i) (cells ns)).
  Proof using Hb.
    intros Hj. unfold pm_border. apply mapM_ok. intros i Hi. apply (in_cells ns) in Hi. rewrite at_cells by assumption. cbn [bind].
    destruct (Z.ltb_spec (nth j i 0) 1); [|reflexivity]. rewrite at_cells by (auto using upd_big, upd_dim_in). reflexivity.
  Qed.

  (** The layer on the side of [u] *)
  Lemma layer_eq j u (O : list Z -> D) : (j < length ns)%nat -> u = 1 \/ u = -1 ->
    mp_layer ns (unit_vec (length ns) j u) (map O (cells ns)) =
    Ok (map (fun i => O (upd i j (if u =? 1 then nth j ns 0 - 1 else 0))) (cells (upd ns j 1))).
  Proof using Hb.
    intros Hj Hu. unfold mp_layer.
    set (lo := map (fun p => if snd p =? 1 then fst p - 1 else 0) (combine ns (unit_vec (length ns) j u))).
    set (hi := map (fun p => if snd p =? -1 then 1 else fst p) (combine ns (unit_vec (length ns) j u))).
    assert (Lu : length (unit_vec (length ns) j u) = length ns) by apply unit_vec_length.
    assert (Llo : length lo = length ns) by (unfold lo; rewrite map_length, combine_length, Lu; lia).
    assert (Lhi : length hi = length ns) by (unfold hi; rewrite map_length, combine_length, Lu; lia).
    assert (Nlo : forall k, (k < length ns)%nat -> nth k lo 0 = if Nat.eqb k j && (u =? 1) then nth k ns 0 - 1 else 0).
    { intros k Hk. unfold lo. rewrite zip_nth by (rewrite ?Lu; auto). cbn [fst snd]. rewrite unit_vec_nth by exact Hj. destruct (Nat.eqb k j); cbn [andb]; [destruct (u =? 1); reflexivity|reflexivity]. }
    assert (Nhi : forall k, (k < length ns)%nat -> nth k hi 0 = if Nat.eqb k j && (u =? -1) then 1 else nth k ns 0).
    { intros k Hk. unfold hi. rewrite zip_nth by (rewrite ?Lu; auto). cbn [fst snd]. rewrite unit_vec_nth by exact Hj. destruct (Nat.eqb k j); cbn [andb]; [destruct (u =? -1); reflexivity|reflexivity]. }
    assert (Ext : extents lo hi = upd ns j 1).
    { apply (nth_ext' 0); [rewrite extents_length, upd_length by lia; exact Llo|]. intros k Hk. rewrite extents_length in Hk by lia.
      rewrite extents_nth, upd_nth by lia. rewrite Nlo, Nhi by lia. destruct (Nat.eqb_spec k j) as [->|]; cbn [andb]; [|lia].
      destruct Hu as [-> | ->]; cbn; lia. }
    rewrite row_major_shift, Ext by lia. rewrite (mapM_ok _ O).
    - rewrite map_map. f_equal. apply map_ext_in. intros i Hi. f_equal. apply in_cells in Hi. apply in_grid_nth in Hi as [Li Hi]. rewrite upd_length in *.
      apply (nth_ext' 0); [rewrite vadd_length, upd_length by lia; lia|]. intros k Hk. rewrite vadd_length in Hk by lia. rewrite vadd_nth by lia. rewrite Nlo by lia.
      rewrite upd_nth by lia. destruct (Nat.eqb_spec k j) as [->|]; cbn [andb]; [|lia]. specialize (Hi j Hj). rewrite upd_nth, Nat.eqb_refl in Hi by exact Hj. destruct (u =? 1); lia.
    - intros a Ha. apply at_cells; [exact Hb|]. apply in_map_iff in Ha as (i & <- & Hi). apply in_cells in Hi. apply in_grid_nth in Hi as [Li Hi]. rewrite upd_length in *.
      apply in_grid_nth. rewrite vadd_length by lia. split; [exact Llo|]. intros k Hk. rewrite vadd_nth by lia. rewrite Nlo by lia. specialize (Hi k Hk).
      rewrite upd_nth in Hi by exact Hj. pose proof (proj1 (allpos_nth ns) (big_allpos ns Hb) k Hk). destruct (Nat.eqb_spec k j); cbn [andb]; [|lia]. destruct (u =? 1); lia.
  Qed.
End Ops.

(** ** Geometry: global and local index sets *)
Section Geo.
  Variables (sz : Z) (dims dec : list Z).
  Hypothesis Hg : grid_ok dims.
  Hypothesis Hd : is_decomp sz dims dec.
  Let ns := local_dims dims dec.
  Let nd := length dims.

  Lemma ns_length : length ns = nd.
  Proof using Hd. apply local_dims_length. apply Hd. Qed.
  Lemma ns_pos j : (j < nd)%nat -> 0 < nth j ns 0.
  Proof using Hg Hd. intros Hj. apply (proj1 (allpos_nth ns) (local_dims_pos sz dims dec Hg Hd)). rewrite ns_length. exact Hj. Qed.
  Lemma ns_mul j : (j < nd)%nat -> nth j dims 0 = nth j ns 0 * nth j dec 0.
  Proof using Hd. intros Hj. pose proof (local_dims_mul sz dims dec j Hd Hj). unfold ns. lia. Qed.
  Lemma dec_pos j : (j < nd)%nat -> 0 < nth j dec 0.
  Proof using Hd. intros Hj. apply Hd. exact Hj. Qed.
  Lemma ns_big : big_grid ns.
  Proof using Hg Hd.
    pose proof Hg as (H1 & H2 & H3 & H4). apply grid_big.
    - apply (local_dims_pos sz dims dec Hg Hd).
    - intros E. pose proof ns_length as L. rewrite E in L. unfold nd in L. destruct dims; [apply H1; reflexivity|discriminate].
    - rewrite ns_length. exact H2.
    - pose proof (local_dims_prod sz dims dec Hd) as E. fold ns in E. pose proof (prodZ_pos ns (local_dims_pos sz dims dec Hg Hd)).
      pose proof (prodZ_pos dims (grid_allpos dims Hg)). assert (0 < sz) by nia. nia.
  Qed.

  (** Cell [i] of process [rk] *)
  Definition glob (rk : Z) (i : list Z) : list Z := vadd (beg_of dims dec rk) i.

  Lemma glob_length rk i : in_grid ns i -> length (glob rk i) = nd.
  Proof using Hd.
    intros Hi. apply in_grid_nth in Hi as [L _]. rewrite ns_length in L. unfold glob. rewrite vadd_length; rewrite (beg_of_length sz) by exact Hd; [reflexivity|symmetry; exact L].
  Qed.
  Lemma glob_nth rk i j : in_grid ns i -> (j < nd)%nat -> nth j (glob rk i) 0 = nth j (coords dec rk) 0 * nth j ns 0 + nth j i 0.
  Proof using Hd.
    intros Hi Hj. apply in_grid_nth in Hi as [L _]. rewrite ns_length in L. unfold glob.
    rewrite vadd_nth by (rewrite ?(beg_of_length sz) by exact Hd; unfold nd in *; lia). rewrite (beg_of_nth sz) by (auto; exact Hj). reflexivity.
  Qed.
  Lemma glob_mod rk i j : in_grid ns i -> (j < nd)%nat -> nth j (glob rk i) 0 mod nth j ns 0 = nth j i 0.
  Proof using Hg Hd.
    intros Hi Hj. rewrite glob_nth by assumption. pose proof (ns_pos j Hj). apply in_grid_nth in Hi as [L Hi]. rewrite ns_length in Hi. specialize (Hi j Hj).
    rewrite Z.add_comm, Z.mod_add by lia. apply Z.mod_small. exact Hi.
  Qed.
  Lemma glob_in rk i : in_grid ns i -> in_grid dims (glob rk i).
  Proof using Hg Hd.
    intros Hi. apply in_grid_nth. split; [apply glob_length; exact Hi|]. intros j Hj. rewrite glob_nth by assumption.
    pose proof (coords_range sz dims dec rk j Hd Hj). pose proof (ns_mul j Hj) as M. pose proof (ns_pos j Hj).
    apply in_grid_nth in Hi as [L Hi]. rewrite ns_length in Hi. specialize (Hi j Hj). rewrite M. nia.
  Qed.
  Lemma box_glob rk : row_major (beg_of dims dec rk) (end_of dims dec rk) = map (glob rk) (cells ns).
  Proof using Hd.
    rewrite row_major_shift by (rewrite (beg_of_length sz), (end_of_length sz) by exact Hd; reflexivity). f_equal. f_equal.
    apply (nth_ext' 0); [rewrite extents_length by (rewrite (beg_of_length sz), (end_of_length sz) by exact Hd; reflexivity); rewrite ns_length; apply (beg_of_length sz); exact Hd|].
    intros j Hj. rewrite extents_length in Hj by (rewrite (beg_of_length sz), (end_of_length sz) by exact Hd; reflexivity). rewrite (beg_of_length sz) in Hj by exact Hd.
    rewrite extents_nth by (rewrite ?(beg_of_length sz), ?(end_of_length sz) by exact Hd; auto). rewrite (beg_of_nth sz), (end_of_nth sz) by assumption. fold ns. lia.
  Qed.

  Lemma nbr_nth g j d k : in_grid dims g -> (j < nd)%nat -> (k < nd)%nat ->
    nth k (neighbour dims g j d) 0 = if Nat.eqb k j then (nth k g 0 + d) mod nth k dims 0 else nth k g 0.
  Proof using Type.
    clear Hg Hd. intros Hi Hj Hk. apply in_grid_nth in Hi as [L Hi]. unfold neighbour. fold nd.
    rewrite wrap_nth by (rewrite shift_length; rewrite ?unit_vec_length; auto; unfold nd in *; lia). rewrite shift_nth by (rewrite ?unit_vec_length; unfold nd in *; lia).
    rewrite unit_vec_nth by exact Hj. destruct (Nat.eqb_spec k j) as [->|]; [reflexivity|]. rewrite Z.add_0_r. apply Z.mod_small. apply Hi. exact Hk.
  Qed.
  Lemma nbr_length g j d : in_grid dims g -> length (neighbour dims g j d) = nd.
  Proof using Type. clear Hg Hd. intros Hi. apply in_grid_nth in Hi as [L _]. unfold neighbour. apply wrap_length. rewrite shift_length; rewrite ?unit_vec_length; auto. Qed.

  (** One cell down within the process *)
  Lemma glob_inner rk i j : in_grid ns i -> (j < nd)%nat -> 1 <= nth j i 0 ->
    glob rk (upd i j (nth j i 0 - 1)) = neighbour dims (glob rk i) j (-1).
  Proof using Hg Hd.
    intros Hi Hj H1. pose proof (proj1 (in_grid_nth _ _) Hi) as [L HI]. rewrite ns_length in *. pose proof (HI j Hj).
    assert (Hu : in_grid ns (upd i j (nth j i 0 - 1))) by (apply upd_in_grid; [exact Hi|rewrite ns_length; exact Hj|lia]).
    pose proof (glob_in rk i Hi) as Gi. apply (nth_ext' 0); [rewrite glob_length, nbr_length by assumption; reflexivity|]. intros k Hk. rewrite glob_length in Hk by exact Hu.
    rewrite glob_nth, nbr_nth by assumption. rewrite glob_nth by assumption. rewrite upd_nth by (unfold nd in *; lia). destruct (Nat.eqb_spec k j) as [->|]; [|reflexivity].
    pose proof (coords_range sz dims dec rk j Hd Hj). pose proof (ns_mul j Hj) as M. rewrite Z.mod_small; [lia|]. rewrite M. nia.
  Qed.

  (** The layer of the process at distance one *)
  Lemma glob_border rk i j u : in_grid ns i -> (j < nd)%nat -> nth j i 0 < 1 -> u = 1 \/ u = -1 ->
    glob (nb_of dec rk (unit_vec nd j u)) (upd i j (if - u =? 1 then nth j ns 0 - 1 else 0)) = neighbour dims (glob rk i) j (if u =? 1 then nth j ns 0 else -1).
  Proof using Hg Hd.
    intros Hi Hj H1 Hu. pose proof (proj1 (in_grid_nth _ _) Hi) as [L HI]. rewrite ns_length in *. pose proof (HI j Hj) as Hij. pose proof (ns_pos j Hj) as Np.
    set (x := if - u =? 1 then nth j ns 0 - 1 else 0).
    assert (Hu' : in_grid ns (upd i j x)) by (apply upd_in_grid; [exact Hi|rewrite ns_length; exact Hj|unfold x; destruct (- u =? 1); lia]).
    pose proof (glob_in rk i Hi) as Gi. apply (nth_ext' 0); [rewrite glob_length, nbr_length by assumption; reflexivity|]. intros k Hk. rewrite glob_length in Hk by exact Hu'.
    rewrite glob_nth, nbr_nth by assumption. rewrite glob_nth by assumption. rewrite upd_nth by (unfold nd in *; lia).
    rewrite (coords_nb sz dims) by (auto; apply unit_vec_length). rewrite (nb_coords_nth sz dims) by (auto; apply unit_vec_length). rewrite unit_vec_nth by exact Hj.
    destruct (Nat.eqb_spec k j) as [->|].
    - pose proof (coords_range sz dims dec rk j Hd Hj) as C. pose proof (ns_mul j Hj) as M. rewrite M. set (c := nth j (coords dec rk) 0) in *. set (l := nth j ns 0) in *. set (d := nth j dec 0) in *.
      replace (nth j i 0) with 0 by lia. unfold x. destruct Hu as [-> | ->]; cbn [Z.opp Z.eqb Pos.eqb].
      + destruct (Z.eq_dec (c + 1) d) as [E|E].
        * rewrite E, Z_mod_same_full. replace (c * l + 0 + l) with (l * d) by lia. rewrite Z_mod_same_full. lia.
        * rewrite !Z.mod_small by nia. lia.
      + destruct (Z.eq_dec c 0) as [E|E].
        * rewrite E. replace (0 + -1) with (d - 1 + (-1) * d) by lia. rewrite Z.mod_add, Z.mod_small by lia.
          replace (0 * l + 0 + -1) with (l * d - 1 + (-1) * (l * d)) by lia. rewrite Z.mod_add, Z.mod_small by nia. lia.
        * rewrite !Z.mod_small by nia. lia.
    - rewrite Z.add_0_r, Z.mod_small by (apply (coords_range sz dims dec rk k Hd Hk)). reflexivity.
  Qed.
End Geo.

(** ** The processes *)
Section World.
  Context {D : Type} (ar : arith D) (psum : list D -> D).
  Variables (sz : Z) (dims dec : list Z) (v lengths : list D).
  Hypothesis Hg : grid_ok dims.
  Hypothesis Hd : is_decomp sz dims dec.
  Hypothesis H3 : length dims = 3%nat.
  Hypothesis Hv : length v = 3%nat.
  Hypothesis Hl : length lengths = 3%nat.
  Let ns := local_dims dims dec.
  Let u j := upwind_side ar (axis_velocity ar v j).

  Lemma u_cases j : u j = 1 \/ u j = -1.
  Proof using Type. clear. unfold u, upwind_side. destruct (a_lt ar (axis_velocity ar v j) (a_dec ar 0 1)); auto. Qed.

  Definition pm_of (rk : Z) (f fOld : list D) : pm D :=
    mkPm (beg_of dims dec rk) (end_of dims dec rk) ns (sizes ar dims lengths) (map (rate ar dims v lengths) (seq 0 3))
      (map (fun j => nb_of dec rk (unit_vec 3 j (u j))) (seq 0 3)) (map (fun j => unit_vec 3 j (- u j)) (seq 0 3)) f fOld.

  Lemma opp_unit n j d : map Z.opp (unit_vec n j d) = unit_vec n j (- d).
  Proof using Type. clear. unfold unit_vec. rewrite map_map. apply map_ext. intros k. destruct (Nat.eqb k j); reflexivity. Qed.

  Lemma sides_at j : (j < 3)%nat -> nth j (sides ar v) 0 = u j.
  Proof using H3 Hv. clear Hg Hd Hl. intros Hj. rewrite (sides_nth ar dims v) by (rewrite ?H3; auto). reflexivity. Qed.

  Lemma neighbours_eq rk : pm_neighbours 3 dec rk (sides ar v) =
    Ok (map (fun j => nb_of dec rk (unit_vec 3 j (u j))) (seq 0 3), map (fun j => unit_vec 3 j (- u j)) (seq 0 3)).
  Proof using Hd H3 Hv.
    clear Hg Hl. assert (Ld : length dec = 3%nat) by (rewrite <- H3; apply Hd). unfold pm_neighbours.
    assert (Ls : length (sides ar v) = 3%nat) by (unfold sides; rewrite map_length; exact Hv).
    assert (K : forall j, (j < 3)%nat -> map Z.opp (upd (repeat 0 3) j (u j)) = unit_vec 3 j (- u j)).
    { intros j Hj. rewrite unit_vec_upd by exact Hj. apply opp_unit. }
    assert (K2 : forall j, (j < 3)%nat -> mp_neighbour dec rk (upd (repeat 0 3) j (u j)) = nb_of dec rk (unit_vec 3 j (u j))).
    { intros j Hj. rewrite unit_vec_upd by exact Hj. apply mp_neighbour_eq. rewrite unit_vec_length. symmetry. exact Ld. }
    match goal with |- (bind (for_upto ?c ?bd ?s) _) = _ =>
      destruct (for_upto_inv (fun i '(di, rks, sds) => di = repeat 0 3 /\ length rks = 3%nat /\ length sds = 3%nat /\
        forall k, (k < i)%nat -> nth k rks 0 = nb_of dec rk (unit_vec 3 k (u k)) /\ nth k sds [] = unit_vec 3 k (- u k)) bd c s) as ([[di rks] sds] & -> & -> & L1 & L2 & H) end.
    - split; [reflexivity|]. split; [reflexivity|]. split; [reflexivity|]. intros k Hk. lia.
    - intros i [[di rks] sds] Hi (-> & L1 & L2 & H). assert (Hi' : (i < 3)%nat) by lia.
      rewrite (vget_nat _ i 0) by lia. cbn [bind]. rewrite sides_at by exact Hi'. rewrite vset_nat by (rewrite repeat_length; exact Hi'). cbn [bind].
      rewrite vset_nat by lia. cbn [bind]. rewrite vset_nat by lia. cbn [bind]. rewrite vset_nat by (rewrite upd_length, repeat_length; exact Hi'). cbn [bind].
      eexists. split; [reflexivity|]. cbv beta iota. rewrite upd_upd, K, K2 by exact Hi'. split.
      { apply (nth_ext' 0); [rewrite upd_length; reflexivity|]. intros k Hk. rewrite upd_nth by (rewrite repeat_length; exact Hi'). rewrite nth_repeat0. destruct (Nat.eqb k i); reflexivity. }
      rewrite !upd_length. split; [exact L1|]. split; [exact L2|]. intros k Hk. rewrite !upd_nth by lia. destruct (Nat.eqb_spec k i) as [->|]; [split; reflexivity|apply H; lia].
    - cbn [bind]. change (Z.to_nat 3) with 3%nat in H. f_equal. f_equal.
      + apply (nth_ext' 0); [rewrite map_length, seq_length; exact L1|]. intros k Hk. rewrite map_seq_nth by lia. apply H. lia.
      + apply (nth_ext' []); [rewrite map_length, seq_length; exact L2|]. intros k Hk. rewrite map_seq_nth by lia. apply H. lia.
  Qed.

  Lemma end_eq rk : vadd (beg_of dims dec rk) ns = end_of dims dec rk.
  Proof using Hd.
    clear Hg H3 Hv Hl. pose proof (ns_length sz dims dec Hd) as Ln. fold ns in Ln. apply (nth_ext' 0); [rewrite vadd_length; rewrite (beg_of_length sz) by exact Hd; [symmetry; apply (end_of_length sz); exact Hd|symmetry; exact Ln]|].
    intros k Hk. rewrite vadd_length in Hk by (rewrite (beg_of_length sz) by exact Hd; symmetry; exact Ln). rewrite (beg_of_length sz) in Hk by exact Hd.
    rewrite vadd_nth by (rewrite ?(beg_of_length sz) by exact Hd; lia). rewrite (beg_of_nth sz), (end_of_nth sz) by assumption. fold ns. lia.
  Qed.

  Lemma coeffs_eq : py_coeffs ar 3 v (sides ar v) (sizes ar dims lengths) = Ok (map (rate ar dims v lengths) (seq 0 3)).
  Proof using H3 Hv Hl.
    destruct (py_coeffs_eq ar dims v lengths) as (co & E & L & H); [congruence|congruence|]. rewrite H3 in *. change (Z.of_nat 3) with 3 in E. rewrite E. f_equal.
    apply (nth_ext' (a_zero ar)); [rewrite map_length, seq_length; exact L|]. intros k Hk. rewrite L in Hk. rewrite map_seq_nth by exact Hk. apply H. exact Hk.
  Qed.

  Definition zeros : list D := repeat (a_ofZ ar 0) (Z.to_nat (prodZ ns)).
  Definition init (rk : Z) : list D := if rk =? 0 then upd zeros 0 (a_ofZ ar 1) else zeros.

  Lemma pm_new_eq rk : pm_new ar dec rk v lengths dims = Ok (pm_of rk (init rk) zeros).
  Proof using Hg Hd H3 Hv Hl.
    unfold pm_new. unfold vlen. rewrite Hv. change (Z.of_nat 3 =? 3) with true. cbn [negb]. change (Z.of_nat 3) with 3.
    pose proof (py_axes_eq ar dims v lengths ltac:(congruence) ltac:(congruence)) as Ea. rewrite H3 in Ea. change (Z.of_nat 3) with 3 in Ea. rewrite Ea. cbn [bind].
    rewrite coeffs_eq. cbn [bind]. change (mp_size dims dec) with ns. change (fold_right Z.mul 1 ns) with (prodZ ns). fold zeros.
    assert (Ln : length ns = 3%nat) by (unfold ns; rewrite (ns_length sz dims dec Hd); exact H3).
    assert (E0 : mp_flat ns [0; 0; 0] = 0) by (destruct ns as [|a [|b [|c [|? ?]]]]; try discriminate; reflexivity). rewrite E0.
    pose proof (prodZ_pos ns (big_allpos ns (ns_big sz dims dec Hg Hd))) as P.
    replace (if rk =? 0 then vset zeros 0 (a_ofZ ar 1) else Ok zeros) with (Ok (init rk)).
    2: { unfold init. destruct (rk =? 0); [|reflexivity]. symmetry. apply (vset_nat zeros 0). unfold zeros; rewrite repeat_length; lia. }
    cbn [bind]. rewrite neighbours_eq. cbn [bind]. rewrite zip_add_eq, mp_begin_eq, end_eq. reflexivity.
  Qed.

  (** Field [G] of the whole grid on process [rk] *)
  Definition share (G : list Z -> D) (rk : Z) : list D := map (fun i => G (glob dims dec rk i)) (cells ns).
  Definition all_of (F : Z -> list D) (O : Z -> list D) : list (pm D) := map (fun k => pm_of (Z.of_nat k) (F (Z.of_nat k)) (O (Z.of_nat k))) (seq 0 (Z.to_nat sz)).

  Lemma world_eq : pm_world ar sz dec v lengths dims = Ok (all_of init (fun _ => zeros)).
  Proof using Hg Hd H3 Hv Hl. unfold pm_world, all_of. apply tabulate_ok. intros k Hk. apply pm_new_eq. Qed.

  Lemma sz_pos : 0 < sz.
  Proof using Hd. clear - Hd. destruct Hd as (L & H & <-). apply prodZ_pos. apply allpos_nth. intros j Hj. apply H. rewrite <- L. exact Hj. Qed.

  Lemma init_share rk : 0 <= rk < sz -> init rk = share (corner (a_ofZ ar 0) (a_ofZ ar 1) dims) rk.
  Proof using Hg Hd.
    clear H3 Hv Hl. intros Hr. pose proof (ns_big sz dims dec Hg Hd) as Hb. fold ns in Hb. pose proof (ns_length sz dims dec Hd) as Ln. fold ns in Ln.
    unfold share. transitivity (map (fun i => if rk =? 0 then corner (a_ofZ ar 0) (a_ofZ ar 1) ns i else a_ofZ ar 0) (cells ns)).
    - unfold init. destruct (rk =? 0); [apply (corner_list _ _ ns Hb)|]. unfold zeros. rewrite <- (cells_length ns Hb). clear. induction (cells ns) as [|x l IH]; [reflexivity|]. cbn [length repeat map]. f_equal. exact IH.
    - apply map_ext_in. intros i Hi. apply in_cells in Hi. pose proof (proj1 (in_grid_nth _ _) Hi) as [Li HI]. rewrite Ln in *. unfold corner.
      assert (Z0 : rk = 0 <-> coords dec rk = coords dec 0). { split; [intros ->; reflexivity|]. intros E. apply (coords_inj sz dims dec); auto. pose proof sz_pos; lia. }
      assert (C0 : forall j, (j < length dims)%nat -> nth j (coords dec 0) 0 = 0).
      { intros j Hj. unfold coords. assert (Ldec : length dec = length dims) by apply Hd. rewrite digits_nth by lia. rewrite Zdiv_0_l. apply Z.mod_0_l. pose proof (dec_pos sz dims dec Hd j Hj). lia. }
      destruct (list_eq_dec Z.eq_dec (glob dims dec rk i) (repeat 0 (length dims))) as [E|E].
      + assert (EC : forall j, (j < length dims)%nat -> nth j (coords dec rk) 0 = 0 /\ nth j i 0 = 0).
        { intros j Hj. pose proof (glob_nth sz dims dec Hd rk i j Hi Hj) as Gn. rewrite E, nth_repeat0 in Gn. pose proof (coords_range sz dims dec rk j Hd Hj). pose proof (HI j Hj) as B. pose proof (ns_pos sz dims dec Hg Hd j Hj) as Np. fold ns in Gn, Np. nia. }
        assert (Er : rk = 0). { apply Z0. apply (nth_ext' 0); [rewrite !(coords_length sz dims) by exact Hd; reflexivity|]. intros j Hj. rewrite (coords_length sz dims) in Hj by exact Hd. rewrite C0 by exact Hj. apply EC. exact Hj. }
        rewrite Er, Z.eqb_refl. destruct (list_eq_dec Z.eq_dec i (repeat 0 (length ns))) as [_|N]; [reflexivity|]. exfalso. apply N.
        apply (nth_ext' 0); [rewrite repeat_length; congruence|]. intros j Hj. rewrite nth_repeat0. apply EC. lia.
      + destruct (Z.eqb_spec rk 0) as [->|]; [|reflexivity]. destruct (list_eq_dec Z.eq_dec i (repeat 0 (length ns))) as [Ei|]; [|reflexivity]. exfalso. apply E.
        apply (nth_ext' 0); [rewrite repeat_length; apply (glob_length sz); auto|]. intros j Hj. rewrite (glob_length sz) in Hj by auto. rewrite nth_repeat0.
        rewrite (glob_nth sz) by auto. rewrite C0 by exact Hj. rewrite Ei, nth_repeat0. lia.
  Qed.

  (** ** One time step *)
  Lemma share_ext G G' rk : (forall g, in_grid dims g -> G g = G' g) -> share G rk = share G' rk.
  Proof using Hg Hd. clear H3 Hv Hl. intros H. unfold share. apply map_ext_in. intros i Hi. apply in_cells in Hi. apply H. apply (glob_in sz); auto. Qed.

  Lemma coeff_at j : (j < 3)%nat -> vget (map (rate ar dims v lengths) (seq 0 3)) (Z.of_nat j) = Ok (rate ar dims v lengths j).
  Proof using Type. clear. intros Hj. rewrite (vget_nat _ j (a_zero ar)) by (rewrite map_length, seq_length; exact Hj). rewrite map_seq_nth by exact Hj. reflexivity. Qed.

  Let cj dt j := a_mul ar dt (rate ar dims v lengths j).
  Let base dt (G : list Z -> D) g := a_add ar (G g) (a_mul ar (a_mul ar dt (psum (map (rate ar dims v lengths) (seq 0 3)))) (G g)).

  (** The terms of the axes, in order, for which [sel] holds *)
  Definition terms (dt : D) (G : list Z -> D) (g : list Z) (sel : nat -> bool) (l : list nat) (x : D) : D :=
    fold_left (fun acc j => a_sub ar acc (a_mul ar (a_mul ar dt (rate ar dims v lengths j)) (G (neighbour dims g j (reach ar dims dec v g j))))) (filter sel l) x.

  Lemma layer_iff rk i j : in_grid ns i -> (j < 3)%nat -> first_layer dims dec (glob dims dec rk i) j = (nth j i 0 <? 1).
  Proof using Hg Hd H3.
    clear Hv Hl. intros Hi Hj. unfold first_layer, own_cells. rewrite (glob_mod sz dims dec Hg Hd) by (auto; rewrite H3; exact Hj).
    apply in_grid_nth in Hi as [Li HI]. assert (Ln : length ns = 3%nat) by (unfold ns; rewrite (ns_length sz dims dec Hd); exact H3). rewrite Ln in HI. specialize (HI j Hj).
    destruct (Z.eqb_spec (nth j i 0) 0), (Z.ltb_spec (nth j i 0) 1); auto; lia.
  Qed.

  Lemma local_eq dt G rk fOld : pm_local ar psum dt (pm_of rk (share G rk) fOld) =
    Ok (pm_of rk (share (fun g => terms dt G g (fun j => negb (first_layer dims dec g j)) (seq 0 3) (base dt G g)) rk) (share G rk)).
  Proof using Hg Hd H3.
    clear Hv Hl. pose proof (ns_big sz dims dec Hg Hd) as Hb. fold ns in Hb.
    assert (Ln : length ns = 3%nat) by (unfold ns; rewrite (ns_length sz dims dec Hd); exact H3).
    unfold pm_local. cbn [pm_of pm_f pm_coeff pm_ns].
    assert (E0 : map (fun q => a_add ar (fst q) (a_mul ar (a_mul ar dt (psum (map (rate ar dims v lengths) (seq 0 3)))) (snd q))) (combine (share G rk) (share G rk)) = share (base dt G) rk).
    { unfold share. generalize (cells ns). intros l. induction l as [|i l IH]; [reflexivity|]. cbn [map combine fst snd]. rewrite IH. reflexivity. }
    rewrite E0. clear E0.
    assert (K : forall j F, (j < 3)%nat -> pm_inner ar ns j (cj dt j) (share G rk) (share F rk) =
      Ok (share (fun g => if first_layer dims dec g j then F g else a_sub ar (F g) (a_mul ar (cj dt j) (G (neighbour dims g j (reach ar dims dec v g j))))) rk)).
    { intros j F Hj. unfold share at 1 2. rewrite inner_eq by (auto; lia). f_equal. unfold share. apply map_ext_in. intros i Hi. apply in_cells in Hi.
      rewrite layer_iff by assumption. unfold reach. rewrite layer_iff by assumption.
      destruct (Z.ltb_spec (nth j i 0) 1), (Z.leb_spec 1 (nth j i 0)); try lia; [reflexivity|]. cbn [andb].
      rewrite (glob_inner sz dims dec Hg Hd) by (auto; lia). reflexivity. }
    unfold for_upto. change (Z.to_nat 3) with 3%nat. cbn [for_from].
    rewrite !coeff_at by lia. cbn [bind]. rewrite !Nat2Z.id. rewrite (K 0%nat) by lia. cbn [bind]. rewrite (K 1%nat) by lia. cbn [bind]. rewrite (K 2%nat) by lia. cbn [bind].
    unfold pm_setF, pm_of. cbn [pm_iBeg pm_iEnd pm_ns pm_deltas pm_coeff pm_neighbRk pm_neighbSide]. do 2 f_equal. unfold share. apply map_ext. intros i. unfold terms. cbn [seq filter].
    set (g := glob dims dec rk i). destruct (first_layer dims dec g 0), (first_layer dims dec g 1), (first_layer dims dec g 2); reflexivity.
  Qed.

  Lemma fetch_ok dt G H F rk : 0 <= rk < sz ->
    pm_fetch ar dt (all_of H (share G)) (pm_of rk (share F rk) (share G rk)) =
    Ok (pm_of rk (share (fun g => terms dt G g (first_layer dims dec g) (seq 0 3) (F g)) rk) (share G rk)).
  Proof using Hg Hd H3.
    clear Hv Hl. intros Hr. pose proof (ns_big sz dims dec Hg Hd) as Hb. fold ns in Hb.
    assert (Ln : length ns = 3%nat) by (unfold ns; rewrite (ns_length sz dims dec Hd); exact H3).
    unfold pm_fetch. cbn [pm_of pm_f pm_coeff pm_ns pm_neighbRk pm_neighbSide pm_fOld].
    assert (K : forall j F, (j < 3)%nat ->
      (q <- vget (all_of H (share G)) (nb_of dec rk (unit_vec 3 j (u j))) ;;
       layer <- mp_layer (pm_ns q) (unit_vec 3 j (- u j)) (pm_fOld q) ;;
       pm_border ar ns j (cj dt j) layer (share F rk)) =
      Ok (share (fun g => if first_layer dims dec g j then a_sub ar (F g) (a_mul ar (cj dt j) (G (neighbour dims g j (reach ar dims dec v g j)))) else F g) rk)).
    { intros j F' Hj. set (q := nb_of dec rk (unit_vec 3 j (u j))).
      assert (Hq : 0 <= q < sz) by (apply (nb_of_range sz dims); [exact Hd|rewrite unit_vec_length; congruence]).
      assert (Eq : vget (all_of H (share G)) q = Ok (pm_of q (H q) (share G q))).
      { rewrite <- (Z2Nat.id q) at 1 by lia. unfold all_of. rewrite (vget_nat _ _ (pm_of 0 [] [])) by (rewrite map_length, seq_length; lia). rewrite map_seq_nth by lia. rewrite Z2Nat.id by lia. reflexivity. }
      rewrite Eq. cbn [bind pm_of pm_ns pm_fOld]. unfold share at 1. rewrite <- Ln at 1. rewrite layer_eq; [|exact Hb|lia|destruct (u_cases j) as [-> | ->]; auto]. cbn [bind].
      unfold share at 1. rewrite border_eq by (auto; lia). f_equal. unfold share. apply map_ext_in. intros i Hi. apply in_cells in Hi.
      rewrite layer_iff by assumption. destruct (Z.ltb_spec (nth j i 0) 1); [|reflexivity]. f_equal. f_equal. f_equal. unfold q.
      pose proof (glob_border sz dims dec Hg Hd rk i j (u j) Hi ltac:(lia) ltac:(lia) (u_cases j)) as E. rewrite H3 in E. fold ns in E. rewrite E.
      unfold reach. rewrite layer_iff by assumption. replace (nth j i 0 <? 1) with true by (symmetry; apply Z.ltb_lt; lia). cbn [andb]. reflexivity. }
    assert (Vr : forall j, (j < 3)%nat -> vget (map (fun j => nb_of dec rk (unit_vec 3 j (u j))) (seq 0 3)) (Z.of_nat j) = Ok (nb_of dec rk (unit_vec 3 j (u j)))).
    { intros j Hj. rewrite (vget_nat _ j 0) by (rewrite map_length, seq_length; exact Hj). rewrite map_seq_nth by exact Hj. reflexivity. }
    assert (Vs : forall j, (j < 3)%nat -> vget (map (fun j => unit_vec 3 j (- u j)) (seq 0 3)) (Z.of_nat j) = Ok (unit_vec 3 j (- u j))).
    { intros j Hj. rewrite (vget_nat _ j []) by (rewrite map_length, seq_length; exact Hj). rewrite map_seq_nth by exact Hj. reflexivity. }
    unfold for_upto. change (Z.to_nat 3) with 3%nat. cbn [for_from].
    rewrite !coeff_at by lia. cbn [bind]. rewrite !Vr by lia. cbn [bind]. rewrite !Vs by lia. cbn [bind]. rewrite !Nat2Z.id.
    rewrite (K 0%nat) by lia. cbn [bind]. rewrite (K 1%nat) by lia. cbn [bind]. rewrite (K 2%nat) by lia. cbn [bind].
    unfold pm_setF, pm_of. cbn [pm_iBeg pm_iEnd pm_ns pm_deltas pm_coeff pm_neighbRk pm_neighbSide pm_fOld]. do 2 f_equal. unfold share. apply map_ext. intros i. unfold terms. cbn [seq filter].
    set (g := glob dims dec rk i). destruct (first_layer dims dec g 0), (first_layer dims dec g 1), (first_layer dims dec g 2); reflexivity.
  Qed.

  Lemma formula_terms dt G g : mpi_formula ar psum dims dec v lengths dt G g =
    terms dt G g (first_layer dims dec g) (seq 0 3) (terms dt G g (fun j => negb (first_layer dims dec g j)) (seq 0 3) (base dt G g)).
  Proof using H3. clear Hg Hd Hv Hl. unfold mpi_formula, terms. rewrite H3. rewrite fold_left_app. reflexivity. Qed.

  Lemma advect_eq dt G O : pm_advect ar psum dt (all_of (share G) O) = Ok (all_of (share (mpi_formula ar psum dims dec v lengths dt G)) (share G)).
  Proof using Hg Hd H3.
    clear Hv Hl. unfold pm_advect. unfold all_of at 1.
    assert (E1 : mapM (pm_local ar psum dt) (map (fun k => pm_of (Z.of_nat k) (share G (Z.of_nat k)) (O (Z.of_nat k))) (seq 0 (Z.to_nat sz))) =
      Ok (all_of (share (fun g => terms dt G g (fun j => negb (first_layer dims dec g j)) (seq 0 3) (base dt G g))) (share G))).
    { unfold all_of. generalize (seq 0 (Z.to_nat sz)). intros l. induction l as [|k l IH]; [reflexivity|]. cbn [map mapM]. rewrite local_eq. cbn [bind]. rewrite IH. reflexivity. }
    rewrite E1. cbn [bind]. set (W := all_of _ _) at 1. unfold all_of.
    assert (E2 : forall l, (forall k, In k l -> (k < Z.to_nat sz)%nat) ->
      mapM (pm_fetch ar dt W) (map (fun k => pm_of (Z.of_nat k) (share (fun g => terms dt G g (fun j => negb (first_layer dims dec g j)) (seq 0 3) (base dt G g)) (Z.of_nat k)) (share G (Z.of_nat k))) l) =
      Ok (map (fun k => pm_of (Z.of_nat k) (share (mpi_formula ar psum dims dec v lengths dt G) (Z.of_nat k)) (share G (Z.of_nat k))) l)).
    { induction l as [|k l IH]; intros Hk; [reflexivity|]. cbn [map mapM]. unfold W. rewrite fetch_ok by (specialize (Hk k (or_introl eq_refl)); lia). fold W. cbn [bind].
      rewrite IH by (intros x Hx; apply Hk; right; exact Hx). cbn [bind]. do 3 f_equal. unfold share. apply map_ext. intros i. symmetry. apply formula_terms. }
    apply E2. intros k Hk. apply in_seq in Hk. lia.
  Qed.

  Lemma run_eq dt G n O : exists O', pm_run ar psum (all_of (share G) O) n dt = Ok (all_of (share (mpi_iter ar (Z.to_nat n) psum dims dec v lengths dt G)) O').
  Proof using Hg Hd H3.
    clear Hv Hl. unfold pm_run.
    match goal with |- context [for_upto ?c ?bd ?s] =>
      destruct (for_upto_inv (fun i w => exists O', w = all_of (share (mpi_iter ar i psum dims dec v lengths dt G)) O') bd c s) as (w & E & O' & Ew) end.
    - exists O. reflexivity.
    - intros i w Hi (O' & ->). eexists. split; [apply advect_eq|]. eexists. reflexivity.
    - exists O'. rewrite E, Ew. reflexivity.
  Qed.

  (** ** The whole grid *)
  Lemma glob_owner g : in_grid dims g -> exists rk i, 0 <= rk < sz /\ in_grid ns i /\ g = glob dims dec rk i.
  Proof using Hg Hd.
    clear H3 Hv Hl. intros Hin. pose proof (owner_range sz dims dec g Hg Hd Hin) as R. set (o := owner dims dec g) in *.
    pose proof (proj2 (owner_iff sz dims dec g o Hg Hd Hin R) eq_refl) as B.
    apply in_row_major in B; [|rewrite (beg_of_length sz), (end_of_length sz) by exact Hd; reflexivity]. rewrite (box_glob sz) in B by exact Hd.
    apply in_map_iff in B as (i & E & Hi). exists o, i. split; [exact R|]. split; [apply in_cells; exact Hi|symmetry; exact E].
  Qed.

  Lemma tiling_boxes : tiling dims (map (fun k => (beg_of dims dec (Z.of_nat k), end_of dims dec (Z.of_nat k))) (seq 0 (Z.to_nat sz))).
  Proof using Hg Hd.
    clear H3 Hv Hl. split.
    - intros lo hi H. apply in_map_iff in H as (k & E & Hk). inversion E; subst. split; [apply (beg_of_length sz); exact Hd|]. split; [apply (end_of_length sz); exact Hd|].
      intros g B. apply in_row_major in B; [|rewrite (beg_of_length sz), (end_of_length sz) by exact Hd; reflexivity]. rewrite (box_glob sz) in B by exact Hd.
      apply in_map_iff in B as (i & <- & Hi). apply (glob_in sz); auto. apply in_cells. exact Hi.
    - intros g Hgr. pose proof (owner_range sz dims dec g Hg Hd Hgr) as HO. set (o := owner dims dec g) in *. exists (Z.to_nat o).
      assert (K : forall i, (i < Z.to_nat sz)%nat -> nth_error (map (fun k => (beg_of dims dec (Z.of_nat k), end_of dims dec (Z.of_nat k))) (seq 0 (Z.to_nat sz))) i =
        Some (beg_of dims dec (Z.of_nat i), end_of dims dec (Z.of_nat i))).
      { intros i Hi. rewrite nth_error_map. rewrite (nth_error_nth' _ O) by (rewrite seq_length; exact Hi). rewrite seq_nth by exact Hi. reflexivity. }
      split.
      + eexists _, _. split; [apply K; lia|]. rewrite Z2Nat.id by lia. apply (owner_iff sz); auto.
      + intros i (lo & hi & E & Hbox). assert (Hi : (i < Z.to_nat sz)%nat) by (assert (E2 : nth_error (map (fun k => (beg_of dims dec (Z.of_nat k), end_of dims dec (Z.of_nat k))) (seq 0 (Z.to_nat sz))) i <> None) by congruence; apply nth_error_Some in E2; rewrite map_length, seq_length in E2; exact E2).
        rewrite K in E by exact Hi. inversion E; subst. apply (owner_iff sz) in Hbox; auto; [|lia]. fold o in Hbox. lia.
  Qed.

  Lemma flat_range' g : in_grid dims g -> 0 <= mp_flat dims g < prodZ dims.
  Proof using Type. clear. intros H. rewrite mp_flat_eq. apply flat_range. apply in_grid_digit_vec. exact H. Qed.
  Lemma flat_inj g h : in_grid dims g -> in_grid dims h -> mp_flat dims g = mp_flat dims h -> g = h.
  Proof using Type.
    clear. intros H1 H2 E. rewrite !mp_flat_eq in E. rewrite <- (digits_flat dims g) by (apply in_grid_digit_vec; exact H1).
    rewrite E. apply digits_flat. apply in_grid_digit_vec. exact H2.
  Qed.

  Lemma gather_eq G O : pm_gather ar dec dims (all_of (share G) O) = Ok (map G (cells dims)).
  Proof using Hg Hd.
    clear H3 Hv Hl. pose proof (ns_big sz dims dec Hg Hd) as Hb. fold ns in Hb. pose proof sz_pos as Hs.
    assert (Hbd : big_grid dims). { pose proof Hg as (P1 & P2 & P3 & P4). apply grid_big; auto. apply grid_allpos. exact Hg. }
    pose proof (prodZ_pos dims (grid_allpos dims Hg)) as Pp. set (z := a_ofZ ar 0). unfold pm_gather. change (fold_right Z.mul 1 dims) with (prodZ dims).
    assert (Lw : vlen (all_of (share G) O) = sz) by (unfold vlen, all_of; rewrite map_length, seq_length; lia). rewrite Lw.
    match goal with |- for_upto ?c ?bd ?s = _ =>
      destruct (for_upto_inv (fun k r => length r = Z.to_nat (prodZ dims) /\ forall rk i, 0 <= rk < Z.of_nat k -> in_grid ns i ->
        nth (Z.to_nat (mp_flat dims (glob dims dec rk i))) r z = G (glob dims dec rk i)) bd c s) as (r & -> & L & H) end.
    - rewrite repeat_length. split; [reflexivity|]. intros rk i Hr. lia.
    - intros k r Hk (L & H). unfold all_of. rewrite (vget_nat _ _ (pm_of 0 [] [])) by (rewrite map_length, seq_length; lia). rewrite map_seq_nth by lia. cbn [bind pm_of pm_ns pm_f].
      change (mp_all ns) with (cells ns). set (rk := Z.of_nat k) in *.
      match goal with |- context [for_each ?l ?bd ?s] =>
        destruct (for_each_inv (fun pre r => length r = Z.to_nat (prodZ dims) /\
          (forall rk' i, 0 <= rk' < rk -> in_grid ns i -> nth (Z.to_nat (mp_flat dims (glob dims dec rk' i))) r z = G (glob dims dec rk' i)) /\
          (forall i, In i pre -> nth (Z.to_nat (mp_flat dims (glob dims dec rk i))) r z = G (glob dims dec rk i))) bd l s) as (r' & E & L' & H1 & H2) end.
      + split; [exact L|]. split; [exact H|]. intros i [].
      + intros pre i r0 (L0 & H1 & H2) _ (suf & Epre). assert (Hi : in_grid ns i) by (apply in_cells; rewrite Epre; apply in_or_app; right; left; reflexivity).
        assert (Hpre : forall j, In j pre -> in_grid ns j) by (intros j Hj; apply in_cells; rewrite Epre; apply in_or_app; left; exact Hj).
        unfold share at 1. rewrite at_cells by assumption. cbn [bind]. rewrite zip_add_eq, mp_begin_eq. fold (glob dims dec rk i). set (g := glob dims dec rk i).
        assert (Gg : in_grid dims g) by (apply (glob_in sz); auto). pose proof (flat_range' g Gg) as FR.
        replace (mp_flat dims g) with (Z.of_nat (Z.to_nat (mp_flat dims g))) by lia. rewrite vset_nat by lia. eexists. split; [reflexivity|]. rewrite upd_length. split; [exact L0|].
        assert (W : forall h, in_grid dims h -> (nth (Z.to_nat (mp_flat dims h)) r0 z = G h \/ h = g) -> nth (Z.to_nat (mp_flat dims h)) (upd r0 (Z.to_nat (mp_flat dims g)) (G g)) z = G h).
        { intros h Hh C. pose proof (flat_range' h Hh). rewrite upd_nth by lia. destruct (Nat.eqb_spec (Z.to_nat (mp_flat dims h)) (Z.to_nat (mp_flat dims g))) as [E|E].
          - f_equal. symmetry. apply flat_inj; auto. lia.
          - destruct C as [C | ->]; [exact C|exfalso; apply E; reflexivity]. }
        split.
        * intros rk' j Hr Hj. apply W; [apply (glob_in sz); auto|]. left. apply H1; auto.
        * intros j Hj. apply in_app_or in Hj. apply W; [apply (glob_in sz); auto; destruct Hj as [Hj|[<-|[]]]; auto|]. destruct Hj as [Hj|[<-|[]]]; [left; apply H2; exact Hj|right; reflexivity].
      + exists r'. split; [exact E|]. split; [exact L'|]. intros rk' i Hr Hi. destruct (Z.eq_dec rk' rk) as [->|]; [apply H2, in_cells; exact Hi|apply H1; auto; lia].
    - rewrite Z2Nat.id in H by lia. f_equal. apply (nth_ext' z); [rewrite map_length, cells_length by exact Hbd; exact L|]. intros k Hk. rewrite L in Hk.
      pose proof (cell_at dims k Hbd Hk) as Ec. rewrite (nth_indep (map G (cells dims)) z (G [])) by (rewrite map_length, cells_length by exact Hbd; exact Hk). rewrite map_nth.
      rewrite (nth_error_nth _ _ [] Ec). set (g := digs true dims (Z.of_nat k)) in *. assert (Gg : in_grid dims g) by (apply digs_in_grid, grid_allpos; exact Hg).
      destruct (glob_owner g Gg) as (rk & i & Hr & Hi & Eg). pose proof (H rk i Hr Hi) as HH. rewrite <- Eg in HH. rewrite <- HH. f_equal.
      rewrite mp_flat_eq. unfold g. rewrite (dot_digs true) by (apply grid_allpos; exact Hg). rewrite Z.mod_small by lia. lia.
  Qed.
End World.
