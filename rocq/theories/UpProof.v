(** * Proofs about the upwind benchmark *)
From Coq Require Import Permutation Ring_theory Ring List.
From Verif Require Import Cpp CppProof MaiModel MaiSpec Radix MaiProof CdModel CdSpec CdProof FilterModel FilterSpec FilterProof
  FilterSum LapSpec LapProof UpModel UpSpec.
Import ListNotations.
Local Open Scope Z_scope.
Local Arguments prodZ : simpl never.
Local Arguments Z.of_nat : simpl never.

(** ** The grid as a box *)

Lemma extents0 dims : extents (repeat 0 (length dims)) dims = dims.
Proof.
  apply (nth_ext' 0); rewrite extents_length; rewrite ?repeat_length; auto.
  intros j Hj. rewrite extents_nth; rewrite ?repeat_length; auto. rewrite nth_repeat0. lia.
Qed.

Lemma vsub0 n g : length g = n -> vsub g (repeat 0 n) = g.
Proof.
  intros H. apply (nth_ext' 0); rewrite vsub_length; rewrite ?repeat_length; auto.
  intros j Hj. rewrite vsub_nth; rewrite ?repeat_length; try lia. rewrite nth_repeat0. lia.
Qed.
Lemma vadd0 n g : length g = n -> vadd (repeat 0 n) g = g.
Proof.
  intros H. apply (nth_ext' 0); rewrite vadd_length; rewrite ?repeat_length; auto.
  intros j Hj. rewrite vadd_nth; rewrite ?repeat_length; try lia. rewrite nth_repeat0. lia.
Qed.

(** Grids whose cells can be stored. *)
Definition big_grid (dims : list Z) : Prop :=
  dims <> [] /\ Z.of_nat (length dims) < 2 ^ 31 /\
  (forall j, (j < length dims)%nat -> 0 < nth j dims 0) /\
  prodZ dims < 2 ^ 60.

Lemma up_big dims : up_grid dims -> big_grid dims.
Proof. intros (H1 & H2 & H3 & H4). repeat split; auto. lia. Qed.

Lemma big_allpos dims : big_grid dims -> allpos dims.
Proof. intros (_ & _ & H & _). apply allpos_nth. exact H. Qed.

Lemma axis_le_prod dims j : allpos dims -> (j < length dims)%nat -> nth j dims 0 <= prodZ dims.
Proof.
  intros Hp Hj. pose proof (strd_le true dims j Hp Hj) as H. pose proof (strd_pos true dims Hp) as S.
  rewrite allpos_nth in S. specialize (S j). rewrite strd_length in S. specialize (S Hj).
  rewrite allpos_nth in Hp. specialize (Hp j Hj). nia.
Qed.

Lemma big_good dims : big_grid dims -> good_box (repeat 0 (length dims)) dims.
Proof.
  intros H. pose proof (big_allpos dims H) as Hp. destruct H as (H1 & H2 & H3 & H4). split; [|split].
  - unfold wf_box. rewrite repeat_length. repeat split; auto.
    + destruct dims; simpl; congruence.
    + rewrite nth_repeat0. lia.
    + rewrite nth_repeat0. specialize (H3 j H). lia.
    + pose proof (axis_le_prod dims j Hp H). change (2 ^ 64) with (2 ^ 60 * 16). lia.
  - intros j Hj. rewrite repeat_length in Hj. rewrite nth_repeat0. auto.
  - rewrite extents0. change (2 ^ 64) with (2 ^ 60 * 16). lia.
Qed.

Lemma cells_length dims : big_grid dims -> length (cells dims) = Z.to_nat (prodZ dims).
Proof. intros H. pose proof (loops_length _ _ true (big_good dims H)) as E. rewrite extents0 in E. exact E. Qed.

Lemma in_cells dims g : In g (cells dims) <-> in_grid dims g.
Proof. apply in_row_major. apply repeat_length. Qed.

Lemma cell_at dims i : big_grid dims -> (i < Z.to_nat (prodZ dims))%nat ->
  nth_error (cells dims) i = Some (digs true dims (Z.of_nat i)).
Proof.
  intros H Hi. pose proof (nth_nested_loops true _ _ (Z.of_nat i) (big_good dims H)) as E.
  rewrite extents0, Nat2Z.id in E. unfold cells. cbn [nested_loops] in E. rewrite E by lia.
  f_equal. apply vadd0. apply digs_length.
Qed.

Lemma digs_in_grid dims i : allpos dims -> in_grid dims (digs true dims i).
Proof.
  intros H. apply in_grid_nth. destruct (digs_digit_vec true dims i H) as [H1 H2]. auto.
Qed.

Lemma in_grid_digit_vec dims g : in_grid dims g <-> digit_vec dims g.
Proof. rewrite in_grid_nth. unfold digit_vec. intuition auto; match goal with H : forall _, _ |- _ => apply H; lia end. Qed.

(** ** int conversions *)
Lemma i32_u64 z : i32 (u64 z) = i32 z.
Proof.
  unfold i32, u64. f_equal. rewrite <- (Zplus_mod_idemp_l (z mod two64)).
  replace ((z mod two64) mod two32) with (z mod two32); [apply Zplus_mod_idemp_l|].
  change two64 with (two32 * two32). rewrite Z.rem_mul_r by (unfold two32; lia).
  rewrite Z.mul_comm, Z.mod_add by (unfold two32; lia). rewrite Z.mod_mod by (unfold two32; lia). reflexivity.
Qed.
Lemma i32_add_l a b : i32 (i32 a + b) = i32 (a + b).
Proof.
  unfold i32. f_equal. replace ((a + two31) mod two32 - two31 + b + two31) with ((a + two31) mod two32 + b) by ring.
  rewrite Zplus_mod_idemp_l. f_equal. ring.
Qed.

Definition code_index (o d n : Z) : Z := u64 (i32 (o + d + n)) mod n.
Lemma code_index_ok o d n : 0 <= o < n -> d = 1 \/ d = -1 -> n <= 2 ^ 30 -> code_index o d n = (o + d) mod n.
Proof.
  intros Ho Hd Hn. unfold code_index. destruct (Z.eq_dec (o + d + n) (2 ^ 31)) as [E|E].
  { assert (n = 2 ^ 30 /\ o + d = 2 ^ 30) as [-> ->] by lia. reflexivity. }
  rewrite i32_id by (unfold two31; lia). rewrite u64_id by (unfold two64; lia).
  rewrite <- (Z.mod_add (o + d) 1 n) by lia. f_equal. lia.
Qed.
Lemma upd_self {A} (l : list A) i d : (i < length l)%nat -> upd l i (nth i l d) = l.
Proof.
  intros H. apply (nth_ext' d); [apply upd_length|]. intros k Hk. rewrite upd_nth by auto. destruct (Nat.eqb_spec k i); congruence.
Qed.
Lemma upd_upd {A} (l : list A) i x y : upd (upd l i x) i y = upd l i y.
Proof. revert i; induction l as [|a l IH]; intros [|i]; simpl; auto. f_equal. apply IH. Qed.

Section Up.
  Context {D : Type} (ar : arith D).
  Variables (dims : list Z) (v lengths : list D).
  Let nd := length dims.
  Hypothesis Hb : big_grid dims.
  Hypothesis Hv : length v = nd.
  Hypothesis Hl : length lengths = nd.
  Let N := Z.of_nat nd.
  Let zero := a_zero ar.

  Lemma nd_pos : (0 < nd)%nat.
  Proof using Hb. clear - Hb. destruct Hb as (H & _). unfold nd. destruct dims; [congruence|simpl; lia]. Qed.
  Lemma N31 : N < 2147483648.
  Proof using Hb. destruct Hb as (_ & H & _). exact H. Qed.
  Let Hp : allpos dims := big_allpos dims Hb.
  Lemma prod_range : 0 < prodZ dims < 2 ^ 60.
  Proof using Hb. split; [apply prodZ_pos; exact Hp|apply Hb]. Qed.
  Lemma axis_range j : (j < nd)%nat -> 0 < nth j dims 0 <= prodZ dims.
  Proof using Hb. intros Hj. split; [apply Hb; exact Hj|apply axis_le_prod; [exact Hp|exact Hj]]. Qed.

  (** Closed form of the object built by the constructor, with any fields. *)
  Definition sides : list Z := map (upwind_side ar) v.
  Definition sizes : list D := map (fun j => cell_size ar dims lengths j) (seq 0 nd).
  Definition up_of (f old : list D) : upwind D :=
    mkUp v lengths sizes f old sides (strd true dims) dims (prodZ dims).

  Lemma sides_nth j : (j < nd)%nat -> nth j sides 0 = upwind_side ar (axis_velocity ar v j).
  Proof using Hv. clear Hl.
    intros Hj. unfold sides. rewrite (nth_indep _ 0 (upwind_side ar zero)) by (rewrite map_length; lia).
    rewrite map_nth. reflexivity.
  Qed.
  Lemma sizes_nth j : (j < nd)%nat -> nth j sizes zero = cell_size ar dims lengths j.
  Proof using Type. clear Hv Hl. intros Hj. unfold sizes. apply map_seq_nth. exact Hj. Qed.

  Lemma up_axes_eq : up_axes ar N v lengths dims = Ok (sides, sizes, prodZ dims).
  Proof using Hb Hv Hl.
    unfold up_axes. replace (Z.to_nat N) with nd by (unfold N; lia).
    match goal with |- for_upto ?c ?bd ?i = _ => set (body := bd); set (s0 := i) end.
    destruct (for_upto_inv (fun i (p : list Z * list D * Z) => let '(up, de, nt) := p in
        length up = nd /\ length de = nd /\ nt = u64 (prodZ (firstn i dims)) /\
        forall k, (k < i)%nat -> nth k up 0 = nth k sides 0 /\ nth k de zero = nth k sizes zero) body N s0)
      as ([[up de] nt] & E & H).
    - unfold s0. rewrite !repeat_length. repeat split; try lia.
    - intros i [[up de] nt] Hi (L1 & L2 & Ent & IH). assert (Hi' : (i < nd)%nat) by (unfold N in Hi; lia). clear Hi.
      unfold body. rewrite vset_nat by lia. cbn [bind]. rewrite (vget_nat v i zero) by lia. cbn [bind].
      replace (if a_lt ar (nth i v zero) (a_dec ar 0 1) then vset (upd up i (-1)) (Z.of_nat i) 1 else Ok (upd up i (-1)))
        with (Ok (upd up i (upwind_side ar (nth i v zero)))).
      2: { unfold upwind_side. destruct (a_lt ar (nth i v zero) (a_dec ar 0 1)); [|reflexivity].
           rewrite vset_nat by (rewrite upd_length; lia). apply (f_equal (@Ok _)). apply (nth_ext' 0); [rewrite !upd_length; auto|].
           intros k Hk. rewrite !upd_nth by (rewrite ?upd_length; lia). destruct (Nat.eqb k i); reflexivity. }
      cbn [bind]. rewrite (vget_nat lengths i zero) by lia. cbn [bind]. rewrite (vget_nat dims i 0) by exact Hi'. cbn [bind].
      rewrite vset_nat by lia. cbn [bind]. eexists; split; [reflexivity|]. cbn beta iota. rewrite !upd_length. repeat split; auto.
      + rewrite Ent, u64_mul_l, (firstn_S_nth dims 0) by exact Hi'. rewrite prodZ_app, prodZ_cons. change (prodZ []) with 1. f_equal. ring.
      + rewrite upd_nth by lia. destruct (Nat.eqb_spec k i); [subst; rewrite sides_nth by auto; reflexivity|apply IH; lia].
      + rewrite upd_nth by lia. destruct (Nat.eqb_spec k i); [subst; rewrite sizes_nth by auto; reflexivity|apply IH; lia].
    - rewrite E. destruct H as (L1 & L2 & Ent & H). replace (Z.to_nat N) with nd in * by (unfold N; lia).
      unfold nd in Ent. rewrite firstn_all in Ent. rewrite Ent. pose proof prod_range as P.
      rewrite u64_id by (unfold two64; lia). f_equal. f_equal. f_equal.
      + apply (nth_ext' 0); [unfold sides; rewrite map_length; lia|]. intros k Hk. apply H. lia.
      + apply (nth_ext' zero); [unfold sizes; rewrite map_length, seq_length; lia|]. intros k Hk. apply H. lia.
  Qed.

  Lemma up_strides_eq : up_strides N dims = Ok (strd true dims).
  Proof using Hb. clear Hv Hl.
    change (up_strides N dims) with (mai_dimProd N dims true). rewrite mai_dimProd_eq; [|reflexivity|apply Hb|apply Hb].
    f_equal. apply map_u64_id. intros j Hj. rewrite strd_length in Hj. pose proof (strd_le true dims j Hp Hj) as H.
    pose proof (strd_pos true dims Hp) as S. rewrite allpos_nth in S. specialize (S j). rewrite strd_length in S. specialize (S Hj).
    pose proof prod_range. pose proof (axis_range j Hj). unfold two64. nia.
  Qed.

  Lemma first_cell_list : upd (repeat (a_dec ar 0 1) (Z.to_nat (prodZ dims))) 0 (a_ofZ ar 1) = map (first_cell ar dims) (cells dims).
  Proof using Hb. clear Hv Hl.
    pose proof prod_range as P. apply (nth_ext' (a_dec ar 0 1)); [rewrite upd_length, repeat_length, map_length, cells_length; auto|].
    intros i Hi. rewrite upd_length, repeat_length in Hi. rewrite upd_nth by (rewrite repeat_length; lia).
    erewrite (nth_error_nth (map _ _)); [|apply map_nth_error; apply cell_at; auto].
    unfold first_cell. destruct (list_eq_dec Z.eq_dec (digs true dims (Z.of_nat i)) (repeat 0 (length dims))) as [E|E].
    - assert (Z.of_nat i = 0); [|replace i with O by lia; reflexivity].
      pose proof (dot_digs true dims (Z.of_nat i) Hp) as Dd. rewrite Z.mod_small in Dd by lia.
      rewrite <- Dd, E. clear. generalize (strd true dims) (length dims). intros l n.
      revert n; induction l as [|x l IH]; intros [|n]; simpl; auto. rewrite IH. lia.
    - destruct (Nat.eqb_spec i 0); [|rewrite nth_repeat; reflexivity]. subst i. exfalso. apply E.
      apply (nth_ext' 0); [rewrite digs_length, repeat_length; auto|]. intros j Hj. rewrite nth_repeat0, digs_length in *.
      rewrite digs_nth by auto. change (Z.of_nat 0) with 0.
      pose proof (strd_pos true dims Hp) as S. rewrite allpos_nth in S. specialize (S j). rewrite strd_length in S. specialize (S Hj).
      rewrite Z.div_0_l by lia. apply Z.mod_0_l. pose proof (axis_range j Hj). lia.
  Qed.

  Lemma up_new_eq : up_new ar N v lengths dims =
    Ok (up_of (map (first_cell ar dims) (cells dims)) (repeat (a_dec ar 0 1) (Z.to_nat (prodZ dims)))).
  Proof using Hb Hv Hl.
    unfold up_new. rewrite up_axes_eq. cbn [bind]. rewrite up_strides_eq. cbn [bind].
    pose proof prod_range as P. replace (2 ^ 60 <=? prodZ dims) with false by (symmetry; apply Z.leb_gt; lia).
    rewrite vset_ok by (unfold vlen; rewrite repeat_length; lia). cbn [bind]. change (Z.to_nat 0) with O.
    rewrite first_cell_list. reflexivity.
  Qed.

  (** *** Index sets and flat indices *)
  Lemma strd_nth_pos j : (j < nd)%nat -> 0 < nth j (strd true dims) 0.
  Proof using Hb. clear Hv Hl.
    intros Hj. pose proof (strd_pos true dims Hp) as S. rewrite allpos_nth in S. apply S. rewrite strd_length. exact Hj.
  Qed.

  Lemma up_getIndexSet_eq f old i : prodZ dims < 2 ^ 31 -> up_getIndexSet N (up_of f old) i = Ok (digs true dims i).
  Proof using Hb. clear Hv Hl.
    intros Hs. unfold up_getIndexSet, up_of; cbn [up_dimProd up_numCells].
    rewrite (tabulate_ok (fun j => nth j (digs true dims i) 0)).
    - f_equal. replace (Z.to_nat N) with (length (digs true dims i)) by (rewrite digs_length; unfold N, nd; lia).
      symmetry. apply list_as_map_seq.
    - intros j Hj. assert (Hj' : (j < nd)%nat) by (unfold N in Hj; lia).
      rewrite (vget_nat _ j 0) by (rewrite strd_length; exact Hj'). cbn [bind].
      pose proof (strd_nth_pos j Hj'). rewrite udiv_ok by lia. cbn [bind].
      rewrite (vget_nat _ j 0) by exact Hj'. cbn [bind]. pose proof (axis_range j Hj').
      rewrite umod_ok by lia. cbn [bind]. rewrite digs_nth by exact Hj'. f_equal. apply i32_id.
      pose proof (Z.mod_pos_bound (i / nth j (strd true dims) 0) (nth j dims 0) ltac:(lia)). unfold two31. lia.
  Qed.

  Lemma up_getFlatIndex_eq f old g : prodZ dims < 2 ^ 31 -> digit_vec dims g ->
    up_getFlatIndex (up_of f old) g = Ok (dot (strd true dims) g).
  Proof using Hb. clear Hv Hl.
    intros Hs Hg. assert (Lg : length g = nd) by apply Hg. pose proof (dot_strd_range true dims g Hg) as R.
    unfold up_getFlatIndex, up_of; cbn [up_dimProd]. set (S' := strd true dims) in *.
    assert (LS : length S' = nd) by apply strd_length.
    match goal with |- context [for_upto ?c ?bd ?s] =>
      destruct (for_upto_inv (fun i acc => acc = i32 (dot (firstn i S') (firstn i g))) bd c s) as (t & -> & Ht) end.
    - reflexivity.
    - intros i s Hi ->. unfold vlen in Hi. rewrite Nat2Z.id in Hi.
      rewrite (vget_nat S' i 0) by lia. cbn [bind]. rewrite (vget_nat g i 0) by lia. cbn [bind]. eexists; split; [reflexivity|].
      rewrite u64_mul_r, u64_add_l, u64_add_r, i32_u64, i32_add_l, dot_firstn_S by lia. reflexivity.
    - unfold vlen in Ht. rewrite Nat2Z.id in Ht. rewrite !firstn_all2 in Ht by lia. subst t. cbn [bind].
      f_equal. rewrite i32_id by (unfold two31; lia). apply u64_id. unfold two64. lia.
  Qed.

  (** *** One cell *)
  Definition side j := upwind_side ar (axis_velocity ar v j).
  Lemma side_range j : side j = 1 \/ side j = -1.
  Proof using Type. clear Hv Hl. unfold side, upwind_side. destruct (a_lt ar _ _); auto. Qed.

  (** The neighbour the code reads. *)
  Definition code_neighbour (g : list Z) (j : nat) : list Z := upd g j (code_index (nth j g 0) (side j) (nth j dims 0)).

  Lemma code_neighbour_in g j : digit_vec dims g -> (j < nd)%nat -> digit_vec dims (code_neighbour g j).
  Proof using Hb. clear Hv Hl.
    intros Hg Hj. destruct Hg as [L H]. unfold code_neighbour. split; [rewrite upd_length; exact L|].
    intros k Hk. rewrite upd_nth by (rewrite L; exact Hj). destruct (Nat.eqb_spec k j); [|apply H; exact Hk].
    subst. apply Z.mod_pos_bound. pose proof (axis_range j Hj). lia.
  Qed.


  Lemma code_neighbour_ok g j : short_axes dims -> in_grid dims g -> (j < nd)%nat ->
    code_neighbour g j = neighbour dims g j (side j).
  Proof using Type. clear Hv Hl.
    intros Hsh Hg Hj. unfold neighbour. rewrite wrap_unit by auto. apply in_grid_nth in Hg as [L Hg].
    unfold code_neighbour. f_equal. apply code_index_ok; auto. apply side_range.
  Qed.

  Definition cell_value (G : list Z -> D) (dt : D) (g : list Z) (x : D) : D :=
    fold_left (fun acc j => a_sub ar acc (a_mul ar (courant ar dims v lengths dt j) (a_sub ar (G (code_neighbour g j)) (G g))))
      (seq 0 nd) x.

  Lemma vget_cell (G : list Z -> D) g : in_grid dims g -> vget (map G (cells dims)) (dot (strd true dims) g) = Ok (G g).
  Proof using Hb. clear Hv Hl.
    intros Hg. pose proof (vget_field G _ _ true g (big_good dims Hb) Hg) as E. rewrite extents0, vsub0 in E by apply (proj1 (in_grid_nth dims g) Hg).
    exact E.
  Qed.


  Lemma up_axis_eq f0 old0 dt G f i j :
    prodZ dims < 2 ^ 31 -> (i < Z.to_nat (prodZ dims))%nat -> length f = Z.to_nat (prodZ dims) -> (j < nd)%nat ->
    let g := digs true dims (Z.of_nat i) in
    up_axis ar (up_of f0 old0) dt (map G (cells dims)) (Z.of_nat i) (Z.of_nat j) (g, f) =
    Ok (g, upd f i (a_sub ar (nth i f zero) (a_mul ar (courant ar dims v lengths dt j) (a_sub ar (G (code_neighbour g j)) (G g))))).
  Proof using Hb Hv Hl.
    intros Hs Hi Lf Hj g. assert (Hg : digit_vec dims g) by (apply digs_digit_vec; exact Hp).
    assert (Lg : length g = nd) by apply Hg. assert (Hgj : 0 <= nth j g 0 < nth j dims 0) by (apply Hg; exact Hj).
    pose proof (axis_range j Hj) as Hn. pose proof (side_range j) as Hsd.
    unfold up_axis, up_of; cbn [up_v up_upDirection up_deltas up_numCells].
    rewrite (vget_nat g j 0) by lia. cbn [bind]. rewrite (vget_nat v j zero) by lia. cbn [bind].
    rewrite (vget_nat sides j 0) by (unfold sides; rewrite map_length; lia). cbn [bind].
    rewrite (vget_nat sizes j zero) by (unfold sizes; rewrite map_length, seq_length; lia). cbn [bind].
    rewrite (vget_nat dims j 0) by exact Hj. cbn [bind].
    rewrite sides_nth, sizes_nth by exact Hj. fold (side j). rewrite vset_nat by lia. cbn [bind].
    rewrite (vget_nat (upd g j _) j 0) by (rewrite upd_length; lia). cbn [bind]. rewrite upd_nth by lia. rewrite Nat.eqb_refl.
    rewrite umod_ok by lia. cbn [bind]. rewrite vset_nat by (rewrite upd_length; lia). cbn [bind]. rewrite upd_upd.
    rewrite u64_add_l, u64_add_r, i32_u64.
    replace (i32 (nth j g 0 + (u64 (side j) + nth j dims 0))) with (i32 (nth j g 0 + side j + nth j dims 0)).
    2: { rewrite <- (i32_u64 (_ + (u64 _ + _))), <- i32_u64. f_equal.
         rewrite <- (u64_add_r (nth j g 0) (u64 _ + _)), u64_add_l, u64_add_r. f_equal. ring. }
    fold (code_index (nth j g 0) (side j) (nth j dims 0)).
    assert (Hci : 0 <= code_index (nth j g 0) (side j) (nth j dims 0) < nth j dims 0) by (apply Z.mod_pos_bound; lia).
    rewrite (i32_id (code_index _ _ _)) by (unfold two31; lia). fold (code_neighbour g j).
    pose proof (code_neighbour_in g j Hg Hj) as Hcn.
    change (mkUp v lengths sizes f0 old0 sides (strd true dims) dims (prodZ dims)) with (up_of f0 old0).
    rewrite up_getFlatIndex_eq by auto. cbn [bind]. rewrite (vget_nat f i zero) by lia. cbn [bind].
    rewrite vget_cell by (apply in_grid_digit_vec; exact Hcn). cbn [bind].
    replace (vget (map G (cells dims)) (Z.of_nat i)) with (Ok (G g)).
    2: { rewrite <- (vget_cell G g) by (apply in_grid_digit_vec; exact Hg). f_equal. unfold g. rewrite dot_digs by exact Hp.
         apply Z.mod_small. lia. }
    cbn [bind]. rewrite vset_nat by lia. cbn [bind].
    rewrite vset_nat by (unfold code_neighbour; rewrite upd_length; lia). cbn [bind].
    unfold code_neighbour at 1. rewrite upd_upd, upd_self by lia. reflexivity.
  Qed.

  Lemma up_cell_eq f0 old0 dt G f i :
    prodZ dims < 2 ^ 31 -> (i < Z.to_nat (prodZ dims))%nat -> length f = Z.to_nat (prodZ dims) ->
    up_cell ar N (up_of f0 old0) dt (map G (cells dims)) (Z.of_nat i) f =
    Ok (upd f i (cell_value G dt (digs true dims (Z.of_nat i)) (nth i f zero))).
  Proof using Hb Hv Hl.
    intros Hs Hi Lf. unfold up_cell. rewrite up_getIndexSet_eq by exact Hs. cbn [bind]. set (g := digs true dims (Z.of_nat i)).
    destruct (for_upto_inv (fun k p => p = (g, upd f i (fold_left (fun acc j =>
        a_sub ar acc (a_mul ar (courant ar dims v lengths dt j) (a_sub ar (G (code_neighbour g j)) (G g)))) (seq 0 k) (nth i f zero))))
      (up_axis ar (up_of f0 old0) dt (map G (cells dims)) (Z.of_nat i)) N (g, f)) as (p & -> & E).
    - simpl. rewrite upd_self by lia. reflexivity.
    - intros k s Hk ->. assert (Hk' : (k < nd)%nat) by (unfold N in Hk; lia).
      unfold g. rewrite up_axis_eq by (rewrite ?upd_length; auto). eexists; split; [reflexivity|].
      rewrite upd_nth, Nat.eqb_refl, upd_upd by lia. rewrite seq_S, fold_left_app. reflexivity.
    - rewrite E. cbn [bind]. unfold cell_value. replace (Z.to_nat N) with nd by (unfold N; lia). reflexivity.
  Qed.

  (** *** One step, any number of steps *)
  Lemma up_copy_eq (f old : list D) : prodZ dims < 2 ^ 31 -> length f = Z.to_nat (prodZ dims) -> length old = Z.to_nat (prodZ dims) ->
    up_copy (prodZ dims) f old = Ok f.
  Proof using All.
    intros Hs Lf Lo. pose proof prod_range as P. unfold up_copy. rewrite i32_id by (unfold two31; lia).
    match goal with |- for_upto ?c ?bd ?s = _ =>
      destruct (for_upto_inv (fun i o => length o = Z.to_nat (prodZ dims) /\ forall k, (k < i)%nat -> nth k o zero = nth k f zero) bd c s)
        as (t & -> & L & H) end.
    - split; auto. lia.
    - intros i s Hi (L & H). rewrite (vget_nat f i zero) by lia. cbn [bind]. rewrite vset_nat by lia. eexists; split; [reflexivity|].
      rewrite upd_length. split; auto. intros k Hk. rewrite upd_nth by lia. destruct (Nat.eqb_spec k i); [congruence|apply H; lia].
    - f_equal. apply (nth_ext' zero); [congruence|]. intros k Hk. apply H. lia.
  Qed.

  Lemma nth_cells (G : list Z -> D) i : (i < Z.to_nat (prodZ dims))%nat -> nth i (map G (cells dims)) zero = G (digs true dims (Z.of_nat i)).
  Proof using Hb Hv Hl. intros Hi. erewrite (nth_error_nth (map _ _)); [reflexivity|]. apply map_nth_error. apply cell_at; auto. Qed.

  Definition code_step (dt : D) (G : list Z -> D) (g : list Z) : D := cell_value G dt g (G g).

  Lemma up_step_eq dt G old : prodZ dims < 2 ^ 31 -> length old = Z.to_nat (prodZ dims) ->
    up_step ar N (up_of (map G (cells dims)) old) dt = Ok (up_of (map (code_step dt G) (cells dims)) (map G (cells dims))).
  Proof using Hb Hv Hl.
    intros Hs Lo. pose proof prod_range as P. unfold up_step.
    change (up_ntot (up_of (map G (cells dims)) old)) with (prodZ dims). change (up_oldF (up_of (map G (cells dims)) old)) with old.
    change (up_f (up_of (map G (cells dims)) old)) with (map G (cells dims)).
    assert (LG : forall G : list Z -> D, length (map G (cells dims)) = Z.to_nat (prodZ dims))
      by (intros; rewrite map_length; apply cells_length; auto).
    rewrite up_copy_eq by auto. cbn [bind]. rewrite i32_id by (unfold two31; lia).
    match goal with |- context [for_upto ?c ?bd ?s] =>
      destruct (for_upto_inv (fun i f => length f = Z.to_nat (prodZ dims) /\ forall k, (k < Z.to_nat (prodZ dims))%nat ->
          nth k f zero = if (k <? i)%nat then code_step dt G (digs true dims (Z.of_nat k)) else G (digs true dims (Z.of_nat k))) bd c s)
        as (t & -> & L & H) end.
    - split; [apply LG|]. intros k Hk. apply nth_cells; auto.
    - intros i f Hi (L & H). rewrite up_cell_eq by auto. eexists; split; [reflexivity|]. rewrite upd_length. split; auto.
      intros k Hk. rewrite upd_nth by lia. destruct (Nat.eqb_spec k i).
      + subst k. rewrite H by auto. replace (i <? S i)%nat with true by (symmetry; apply Nat.ltb_lt; lia).
        replace (i <? i)%nat with false by (symmetry; apply Nat.ltb_ge; lia). reflexivity.
      + rewrite H by auto. destruct (Nat.ltb_spec k i), (Nat.ltb_spec k (S i)); auto; lia.
    - cbn [bind]. unfold up_setFields, up_of; cbn [up_v up_lengths up_deltas up_upDirection up_dimProd up_numCells up_ntot].
      f_equal. f_equal. apply (nth_ext' zero); [rewrite LG; auto|]. intros k Hk. rewrite L in Hk. rewrite nth_cells, H by auto.
      replace (k <? Z.to_nat (prodZ dims))%nat with true by (symmetry; apply Nat.ltb_lt; lia). reflexivity.
  Qed.

  Lemma code_step_formula dt G g : short_axes dims -> in_grid dims g -> code_step dt G g = upwind_formula ar dims v lengths dt G g.
  Proof using Type. clear Hv Hl.
    intros Hsh Hg. unfold code_step, cell_value, upwind_formula. fold nd.
    assert (E : forall l x, (forall j, In j l -> (j < nd)%nat) ->
      fold_left (fun acc j => a_sub ar acc (a_mul ar (courant ar dims v lengths dt j) (a_sub ar (G (code_neighbour g j)) (G g)))) l x =
      fold_left (fun acc j => a_sub ar acc (a_mul ar (courant ar dims v lengths dt j)
        (a_sub ar (G (neighbour dims g j (upwind_side ar (axis_velocity ar v j)))) (G g)))) l x).
    { induction l as [|j l IH]; intros x H; [reflexivity|]. cbn [fold_left].
      rewrite (code_neighbour_ok g j Hsh Hg) by (apply H; left; auto). apply IH. intros k Hk. apply H. right; auto. }
    apply E. intros j Hj. apply in_seq in Hj. lia.
  Qed.
End Up.
