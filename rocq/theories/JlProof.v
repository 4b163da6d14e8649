(** * Proofs about the Julia versions of the upwind benchmark *)
From Coq Require Import List Permutation.
From Verif Require Import Cpp CppProof MaiModel MaiSpec Radix MaiProof CdModel CdSpec CdProof FilterModel FilterSpec FilterProof
  FilterSum LapSpec LapProof UpModel UpSpec UpProof LangSpec FortModel FortProof PyProof JlModel.
From Coq Require Import List.
Import ListNotations.
Local Open Scope Z_scope.
Local Arguments prodZ : simpl never.
Local Arguments Z.of_nat : simpl never.

Lemma i64_id z : - 2 ^ 63 <= z < 2 ^ 63 -> i64 z = z.
Proof. intros H. unfold i64. rewrite Z.mod_small by lia. lia. Qed.

(** ** The cells, first index varying fastest *)
Lemma firsts_length dims : big_grid dims -> length (cells_first dims) = Z.to_nat (prodZ dims).
Proof. intros H. pose proof (loops_length _ _ false (big_good dims H)) as E. rewrite extents0 in E. exact E. Qed.

Lemma in_firsts dims g : In g (cells_first dims) <-> in_grid dims g.
Proof. apply (in_nested_loops false). apply repeat_length. Qed.

Lemma first_at dims i : big_grid dims -> (i < Z.to_nat (prodZ dims))%nat -> nth_error (cells_first dims) i = Some (digs false dims (Z.of_nat i)).
Proof.
  intros H Hi. pose proof (nth_nested_loops false _ _ (Z.of_nat i) (big_good dims H)) as E.
  rewrite extents0, Nat2Z.id in E. unfold cells_first. cbn [nested_loops] in E. rewrite E by lia. f_equal. apply vadd0. apply digs_length.
Qed.

Lemma vget_first {D} dims (G : list Z -> D) g : big_grid dims -> in_grid dims g -> vget (map G (cells_first dims)) (dot (strd false dims) g) = Ok (G g).
Proof.
  intros Hb Hg. pose proof (vget_field G _ _ false g (big_good dims Hb) Hg) as E. rewrite extents0, vsub0 in E by apply (proj1 (in_grid_nth dims g) Hg).
  exact E.
Qed.

(** Each cell occurs once in either order. *)
Lemma firsts_perm dims : Permutation (cells_first dims) (cells dims).
Proof.
  apply NoDup_Permutation; [apply (NoDup_nested_loops false)|apply (NoDup_nested_loops true)|]. intros g. rewrite in_firsts, in_cells. reflexivity.
Qed.

Lemma firsts_nth {D} (d : D) dims (G : list Z -> D) i : big_grid dims -> (i < Z.to_nat (prodZ dims))%nat ->
  nth i (map G (cells_first dims)) d = G (digs false dims (Z.of_nat i)).
Proof. intros Hb Hi. erewrite (nth_error_nth (map _ _)); [reflexivity|]. apply map_nth_error. apply first_at; auto. Qed.
Lemma firsts_map_length {D} dims (G : list Z -> D) : big_grid dims -> length (map G (cells_first dims)) = Z.to_nat (prodZ dims).
Proof. intros Hb. rewrite map_length. apply firsts_length, Hb. Qed.

Lemma sweep_first {D} (d : D) dims (G V : list Z -> D) body : big_grid dims ->
  (forall i f, (i < Z.to_nat (prodZ dims))%nat -> length f = Z.to_nat (prodZ dims) -> nth i f d = G (digs false dims (Z.of_nat i)) ->
     body (Z.of_nat i) f = Ok (upd f i (V (digs false dims (Z.of_nat i))))) ->
  for_upto (prodZ dims) body (map G (cells_first dims)) = Ok (map V (cells_first dims)).
Proof.
  intros Hb H.
  destruct (for_upto_inv (fun i f => length f = Z.to_nat (prodZ dims) /\ forall k, (k < Z.to_nat (prodZ dims))%nat ->
      nth k f d = if (k <? i)%nat then V (digs false dims (Z.of_nat k)) else G (digs false dims (Z.of_nat k))) body (prodZ dims) (map G (cells_first dims)))
    as (t & -> & L & Ht).
  - split; [apply firsts_map_length, Hb|]. intros k Hk. apply firsts_nth; auto.
  - intros i f Hi (L & Hf). rewrite H; auto.
    2: { rewrite Hf by auto. replace (i <? i)%nat with false by (symmetry; apply Nat.ltb_ge; lia). reflexivity. }
    eexists; split; [reflexivity|]. rewrite upd_length. split; auto.
    intros k Hk. rewrite upd_nth by lia. destruct (Nat.eqb_spec k i).
    + subst k. replace (i <? S i)%nat with true by (symmetry; apply Nat.ltb_lt; lia). reflexivity.
    + rewrite Hf by auto. destruct (Nat.ltb_spec k i), (Nat.ltb_spec k (S i)); auto; lia.
  - f_equal. apply (nth_ext' d); [rewrite firsts_map_length by exact Hb; auto|]. intros k Hk. rewrite L in Hk. rewrite firsts_nth, Ht by auto.
    replace (k <? Z.to_nat (prodZ dims))%nat with true by (symmetry; apply Nat.ltb_lt; lia). reflexivity.
Qed.

Lemma corner_first {D} (z o : D) dims : big_grid dims -> upd (repeat z (Z.to_nat (prodZ dims))) 0 o = map (corner z o dims) (cells_first dims).
Proof.
  intros Hb. pose proof (big_allpos dims Hb) as Hp. pose proof (prod_range dims Hb) as P.
  apply (nth_ext' z); [rewrite upd_length, repeat_length, firsts_map_length; auto|].
  intros i Hi. rewrite upd_length, repeat_length in Hi. rewrite upd_nth by (rewrite repeat_length; lia). rewrite firsts_nth by auto.
  unfold corner. destruct (list_eq_dec Z.eq_dec (digs false dims (Z.of_nat i)) (repeat 0 (length dims))) as [E|E].
  - assert (Z.of_nat i = 0); [|replace i with O by lia; reflexivity].
    pose proof (dot_digs false dims (Z.of_nat i) Hp) as Dd. rewrite Z.mod_small in Dd by lia.
    rewrite <- Dd, E. clear. generalize (strd false dims) (length dims). intros l n.
    revert n; induction l as [|x l IH]; intros [|n]; simpl; auto. rewrite IH. lia.
  - destruct (Nat.eqb_spec i 0); [|rewrite nth_repeat; reflexivity]. subst i. exfalso. apply E.
    apply (nth_ext' 0); [rewrite digs_length, repeat_length; auto|]. intros j Hj. rewrite nth_repeat0, digs_length in *.
    rewrite digs_nth by auto. change (Z.of_nat 0) with 0.
    pose proof (strd_pos false dims Hp) as S. rewrite allpos_nth in S. specialize (S j). rewrite strd_length in S. specialize (S Hj).
    rewrite Z.div_0_l by lia. apply Z.mod_0_l. pose proof (axis_range dims Hb j Hj). lia.
Qed.

(** ** dot() of arrays without negative elements *)
Lemma dot_firstn_le a b i : Forall (fun x => 0 <= x) a -> Forall (fun x => 0 <= x) b -> 0 <= dot (firstn i a) (firstn i b) <= dot a b.
Proof.
  revert b i; induction a as [|x a IH]; intros [|y b] i Ha Hb'; destruct i; cbn [firstn dot]; try lia.
  - inversion Ha; inversion Hb'; subst. specialize (IH b O ltac:(auto) ltac:(auto)). cbn [firstn dot] in IH. nia.
  - inversion Ha; inversion Hb'; subst. specialize (IH b i ltac:(auto) ltac:(auto)). nia.
Qed.

Lemma jl_dot_eq a b : length a = length b -> Forall (fun x => 0 <= x) a -> Forall (fun x => 0 <= x) b -> dot a b < 2 ^ 63 -> jl_dot a b = Ok (dot a b).
Proof.
  intros L Ha Hb Hd. unfold jl_dot. replace (vlen a =? vlen b) with true by (symmetry; apply Z.eqb_eq; unfold vlen; lia). unfold f_do.
  match goal with |- for_upto ?c ?bd ?s = _ => destruct (for_upto_inv (fun i acc => acc = dot (firstn i a) (firstn i b)) bd c s) as (t & -> & Ht) end.
  - reflexivity.
  - intros i s Hi ->. unfold vlen in Hi. rewrite Nat2Z.id in Hi. rewrite (fget_nat a i 0) by lia. cbn [bind]. rewrite (fget_nat b i 0) by lia. cbn [bind].
    pose proof (dot_firstn_le a b i Ha Hb) as P0. pose proof (dot_firstn_le a b (S i) Ha Hb) as P1. rewrite dot_firstn_S in P1 by lia.
    assert (0 <= nth i a 0 * nth i b 0).
    { apply Z.mul_nonneg_nonneg; [apply (proj1 (Forall_nth _ a) Ha); exact Hi|apply (proj1 (Forall_nth _ b) Hb); lia]. }
    rewrite (i64_id (nth i a 0 * nth i b 0)) by lia. rewrite i64_id by lia. eexists; split; [reflexivity|]. rewrite dot_firstn_S by lia. reflexivity.
  - unfold vlen in Ht. rewrite Nat2Z.id in Ht. rewrite firstn_all in Ht. rewrite L, firstn_all in Ht. subst. reflexivity.
Qed.

Lemma dot_comm a b : dot a b = dot b a.
Proof. revert b; induction a as [|x a IH]; intros [|y b]; cbn [dot]; auto. rewrite IH. lia. Qed.

Lemma nonneg_digits dims g : digit_vec dims g -> Forall (fun x => 0 <= x) g.
Proof. intros [L H]. apply Forall_nth. intros i d Hi. rewrite (nth_indep _ d 0) by exact Hi. rewrite L in Hi. specialize (H i Hi). lia. Qed.
Lemma nonneg_strides rm dims : allpos dims -> Forall (fun x => 0 <= x) (strd rm dims).
Proof. intros H. pose proof (strd_pos rm dims H) as P. unfold allpos in P. eapply Forall_impl; [|exact P]. cbv beta. lia. Qed.

Section Jl.
  Context {D : Type} (ar : arith D).
  Variables (dims : list Z) (v lengths : list D).
  Let nd := length dims.
  Hypothesis Hv : length v = nd.
  Hypothesis Hl : length lengths = nd.
  Hypothesis Hb : big_grid dims.
  Let Hp : allpos dims := big_allpos dims Hb.
  Let N := Z.of_nat nd.
  Let zero := a_zero ar.
  Let T := Z.to_nat (prodZ dims).
  Let S' := strd false dims.

  Lemma jl_axes_gen : (forall i, - 2 ^ 63 <= prodZ (firstn i dims) < 2 ^ 63) -> jl_axes ar N v lengths dims = Ok (sides ar v, sizes ar dims lengths, prodZ dims).
  Proof using Hv Hl.
    clear Hb Hp. intros HP. unfold jl_axes, f_do. replace (Z.to_nat N) with nd by (unfold N; lia).
    match goal with |- for_upto ?c ?bd ?s = _ =>
      destruct (for_upto_inv (fun i '(up, de, nt) => length up = nd /\ length de = nd /\ nt = prodZ (firstn i dims) /\
        forall k, (k < i)%nat -> nth k up 0 = nth k (sides ar v) 0 /\ nth k de zero = nth k (sizes ar dims lengths) zero) bd c s) as ([[up de] nt] & -> & L1 & L2 & E & H) end.
    - rewrite !repeat_length. split; [reflexivity|]. split; [reflexivity|]. split; [reflexivity|]. intros k Hk. lia.
    - intros i [[up de] nt] Hi (L1 & L2 & -> & H). assert (Hi' : (i < nd)%nat) by (unfold N in Hi; lia).
      rewrite fset_nat by lia. cbn [bind]. rewrite (fget_nat v i zero) by lia. cbn [bind].
      replace (if a_lt ar (nth i v zero) (a_dec ar 0 1) then fset (upd up i (-1)) (Z.of_nat i + 1) 1 else Ok (upd up i (-1)))
        with (Ok (upd up i (upwind_side ar (nth i v zero)))).
      2: { unfold upwind_side. destruct (a_lt ar (nth i v zero) (a_dec ar 0 1)); [|reflexivity]. rewrite fset_nat by (rewrite upd_length; lia). rewrite upd_upd. reflexivity. }
      cbn [bind]. rewrite (fget_nat lengths i zero) by lia. cbn [bind]. rewrite (fget_nat dims i 0) by exact Hi'. cbn [bind]. rewrite fset_nat by lia. cbn [bind].
      eexists. split; [reflexivity|]. cbv beta iota. rewrite !upd_length. split; [exact L1|]. split; [exact L2|].
      assert (Es : prodZ (firstn (S i) dims) = prodZ (firstn i dims) * nth i dims 0).
      { rewrite (firstn_S_nth dims 0) by exact Hi'. rewrite prodZ_app, prodZ_cons. change (prodZ []) with 1. ring. }
      split. { rewrite <- Es. apply i64_id. apply HP. }
      intros k Hk. rewrite !upd_nth by lia. destruct (Nat.eqb_spec k i) as [->|]; [|apply H; lia].
      rewrite (sides_nth ar dims v Hv) by exact Hi'. rewrite (sizes_nth ar dims lengths) by exact Hi'. split; reflexivity.
    - replace (Z.to_nat N) with nd in * by (unfold N; lia). unfold nd in E. rewrite firstn_all in E. subst nt. f_equal. f_equal. f_equal.
      + apply (nth_ext' 0); [unfold sides; rewrite map_length; lia|]. intros k Hk. apply H. lia.
      + apply (nth_ext' zero); [unfold sizes; rewrite map_length, seq_length; exact L2|]. intros k Hk. apply H. lia.
  Qed.

  Lemma jl_axes_eq : jl_axes ar N v lengths dims = Ok (sides ar v, sizes ar dims lengths, prodZ dims).
  Proof using Hv Hl Hb. apply jl_axes_gen. intros i. pose proof (prod_firstn_le dims i Hp). pose proof (prod_range dims Hb). lia. Qed.

  Lemma jl_strides_eq : jl_strides N dims = Ok S'.
  Proof using Hb. clear Hv Hl.
    pose proof (nd_pos dims Hb) as Hn. fold nd in Hn. unfold jl_strides. replace (Z.to_nat N) with nd by (unfold N; lia).
    match goal with |- for_upto ?c ?bd ?s = _ =>
      destruct (for_upto_inv (fun k dp => length dp = nd /\ forall j, (j <= k)%nat -> (j < nd)%nat -> nth j dp 0 = nth j S' 0) bd c s) as (t & -> & L & H) end.
    - rewrite repeat_length. split; auto. intros j Hj _. replace j with 0%nat by lia. rewrite (nth_indep _ 0 1) by (rewrite repeat_length; lia).
      unfold S'. rewrite strd_col_nth by exact Hn. rewrite nth_repeat. reflexivity.
    - intros k dp Hk (L & H). assert (Hk' : (S k < nd)%nat) by (unfold N in Hk; lia). cbv zeta.
      replace (Z.of_nat k + 2 - 1) with (Z.of_nat k + 1) by ring. replace (Z.of_nat k + 2) with (Z.of_nat (S k) + 1) by lia.
      rewrite (fget_nat dp k 0) by lia. cbn [bind]. rewrite (fget_nat dims k 0) by (unfold nd in *; lia). cbn [bind]. rewrite H by lia.
      unfold S'. rewrite strd_col_nth by (unfold nd in *; lia).
      assert (Es : prodZ (firstn k dims) * nth k dims 0 = prodZ (firstn (S k) dims)).
      { rewrite (firstn_S_nth dims 0) by (unfold nd in *; lia). rewrite prodZ_app, prodZ_cons. change (prodZ []) with 1. ring. }
      rewrite Es. pose proof (prod_firstn_le dims (S k) Hp). pose proof (prod_range dims Hb). rewrite i64_id by lia.
      rewrite fset_nat by lia. eexists; split; [reflexivity|]. rewrite upd_length. split; auto. intros i Hi Hi'. rewrite upd_nth by lia.
      destruct (Nat.eqb_spec i (S k)) as [->|]; [symmetry; apply strd_col_nth; exact Hk'|]. apply H; lia.
    - f_equal. apply (nth_ext' 0); [unfold S'; rewrite strd_length; exact L|]. intros j Hj. apply H; [|lia]. replace (Z.to_nat (N - 1)) with (nd - 1)%nat by (unfold N; lia). lia.
  Qed.

  Definition jl_of (f : list D) : jl D := mkJl N v lengths dims (sizes ar dims lengths) (sides ar v) (prodZ dims) S' f.

  Lemma jl_new_eq : jl_new ar N v lengths dims = Ok (jl_of (map (corner (a_ofZ ar 0) (a_dec ar 10 1) dims) (cells_first dims))).
  Proof using Hv Hl Hb.
    unfold jl_new. destruct (Z.ltb_spec N 0); [unfold N in *; lia|]. rewrite jl_axes_eq. cbn [bind]. rewrite jl_strides_eq. cbn [bind].
    pose proof (prod_range dims Hb) as P. destruct (Z.ltb_spec (prodZ dims) 0); [lia|].
    change 1 with (Z.of_nat 0 + 1) at 1. rewrite fset_nat by (rewrite repeat_length; lia). cbn [bind]. rewrite (corner_first _ _ dims Hb). reflexivity.
  Qed.

  Lemma S_nth_pos j : (j < nd)%nat -> 0 < nth j S' 0.
  Proof using Hb. clear Hv Hl. intros Hj. pose proof (strd_pos false dims Hp) as Q. rewrite allpos_nth in Q. apply Q. rewrite strd_length. exact Hj. Qed.

  Lemma div_ok i j : (j < nd)%nat -> 0 <= i -> jl_div i (nth j S' 0) = Ok (i / nth j S' 0).
  Proof using Hb.
    clear Hv Hl. intros Hj Hi. pose proof (S_nth_pos j Hj). unfold jl_div. destruct (Z.eqb_spec (nth j S' 0) 0); [lia|]. destruct (Z.eqb_spec (nth j S' 0) (-1)); [lia|].
    cbn [andb]. rewrite Z.quot_div_nonneg by lia. reflexivity.
  Qed.
  Lemma mod_ok i j : (j < nd)%nat -> jl_mod i (nth j dims 0) = Ok (i mod nth j dims 0).
  Proof using Hb. clear Hv Hl. intros Hj. pose proof (axis_range dims Hb j Hj). unfold jl_mod. destruct (Z.eqb_spec (nth j dims 0) 0); [lia|reflexivity]. Qed.

  (** ** Index functions: only the grid matters *)
  Lemma jl_getIndexSet_eq v' l' de ud f i : 0 <= i < prodZ dims ->
    jl_getIndexSet (mkJl (D := D) N v' l' dims de ud (prodZ dims) S' f) (i + 1) = Ok (plus1 (digs false dims i)).
  Proof using Hb. clear Hv Hl.
    intros Hi. unfold jl_getIndexSet; cbn [jl_ndims jl_dimProd jl_numCells]. pose proof (prod_range dims Hb) as P.
    rewrite (tabulate_ok (fun j => nth j (plus1 (digs false dims i)) 0)).
    - f_equal. replace (Z.to_nat N) with (length (plus1 (digs false dims i))) by (rewrite plus1_length, digs_length; unfold N, nd; lia).
      symmetry. apply list_as_map_seq.
    - intros j Hj. assert (Hj' : (j < nd)%nat) by (unfold N in Hj; lia). cbv zeta.
      rewrite (fget_nat _ j 0) by (unfold S'; rewrite strd_length; exact Hj'). cbn [bind].
      replace (i + 1 - 1) with i by ring. rewrite (i64_id i) by lia. rewrite div_ok by (auto; lia). cbn [bind].
      rewrite (fget_nat dims j 0) by exact Hj'. cbn [bind]. rewrite mod_ok by exact Hj'. cbn [bind].
      pose proof (axis_range dims Hb j Hj'). pose proof (Z.mod_pos_bound (i / nth j S' 0) (nth j dims 0) ltac:(lia)).
      rewrite i64_id by lia. rewrite plus1_nth by (rewrite digs_length; exact Hj'). rewrite digs_nth by exact Hj'. reflexivity.
  Qed.

  Lemma jl_getFlatIndex_eq v' l' de ud f g : digit_vec dims g ->
    jl_getFlatIndex (mkJl (D := D) N v' l' dims de ud (prodZ dims) S' f) (plus1 g) = Ok (dot S' g + 1).
  Proof using Hb. clear Hv Hl.
    intros Hd. unfold jl_getFlatIndex; cbn [jl_dimProd]. pose proof (prod_range dims Hb) as P. pose proof (dot_strd_range false dims g Hd) as R.
    replace (map (fun x => i64 (x - 1)) (plus1 g)) with g.
    - rewrite jl_dot_eq; [cbn [bind]; unfold S' in *; rewrite i64_id by lia; reflexivity|unfold S'; rewrite strd_length; symmetry; apply Hd|apply nonneg_strides, Hp|
        apply (nonneg_digits dims), Hd|unfold S'; lia].
    - unfold plus1. rewrite map_map. rewrite <- (map_id g) at 1. apply map_ext_in. intros x Hx. apply In_nth with (d := 0) in Hx as (j & Hj & <-).
      destruct Hd as [L Hd]. rewrite L in Hj. specialize (Hd j Hj). pose proof (axis_range dims Hb j Hj). rewrite i64_id by lia. lia.
  Qed.

  (** ** One cell *)
  Let sd j := upwind_side ar (axis_velocity ar v j).
  Lemma jl_sd j : sd j = 1 \/ sd j = -1.
  Proof using Type. clear. unfold sd, upwind_side. destruct (a_lt ar _ _); auto. Qed.

  Lemma jl_nb g j : digit_vec dims g -> (j < nd)%nat -> neighbour dims g j (sd j) = upd g j ((nth j g 0 + sd j) mod nth j dims 0) /\ digit_vec dims (neighbour dims g j (sd j)).
  Proof using Hb. clear Hv Hl.
    intros Hd Hj. assert (E : neighbour dims g j (sd j) = upd g j ((nth j g 0 + sd j) mod nth j dims 0)).
    { unfold neighbour. apply wrap_unit; auto. apply in_grid_digit_vec. exact Hd. }
    split; [exact E|]. rewrite E. destruct Hd as [L H]. split; [rewrite upd_length; exact L|].
    intros k Hk. rewrite upd_nth by (rewrite L; exact Hj). destruct (Nat.eqb_spec k j); [|apply H; exact Hk].
    subst. apply Z.mod_pos_bound. pose proof (axis_range dims Hb j Hj). lia.
  Qed.

  Definition jl_value (G : list Z -> D) (dt : D) (l : list nat) (g : list Z) : D :=
    fold_left (fun acc j => a_sub ar acc (cxx_term ar dims v lengths dt j (G (neighbour dims g j (sd j))) (G g))) l (G g).

  Lemma mod1_ok x n : 0 < n -> jl_mod1 (x + 1) n = Ok (x mod n + 1).
  Proof using Type.
    clear. intros Hn. unfold jl_mod1, jl_mod. destruct (Z.eqb_spec n 0); [lia|]. cbn [bind]. f_equal. pose proof (Z.mod_pos_bound x n Hn).
    rewrite Z.add_mod by lia. destruct (Z.eq_dec n 1) as [->|]; [rewrite !Z.mod_1_r; reflexivity|]. rewrite (Z.mod_small 1 n) by lia.
    destruct (Z.eq_dec (x mod n + 1) n) as [E|E]; [rewrite E, Z.mod_same by lia; destruct (Z.eqb_spec 0 0); lia|].
    rewrite Z.mod_small by lia. destruct (Z.eqb_spec (x mod n + 1) 0); lia.
  Qed.

  Lemma jl_axis_eq v' l' de ud fu f0 dt G j : (j < nd)%nat ->
    jl_axis ar (mkJl N v' l' dims de ud (prodZ dims) S' fu) (jl_of f0) dt (map G (cells_first dims)) (Z.of_nat j + 1) (map (jl_value G dt (seq 0 j)) (cells_first dims)) =
    Ok (map (jl_value G dt (seq 0 (S j))) (cells_first dims)).
  Proof using Hv Hl Hb.
    intros Hj. unfold jl_axis. cbn [jl_of jl_velocity jl_upDirection jl_deltas jl_ntot]. rewrite (fget_nat v j zero) by lia. cbn [bind].
    rewrite (fget_nat (sides ar v) j 0) by (unfold sides; rewrite map_length; lia). cbn [bind].
    rewrite (fget_nat (sizes ar dims lengths) j zero) by (unfold sizes; rewrite map_length, seq_length; lia). cbn [bind].
    rewrite (sides_nth ar dims v Hv), (sizes_nth ar dims lengths) by exact Hj. fold (sd j). cbv zeta. unfold f_do. apply (sweep_first zero dims); [exact Hb|].
    intros i f Hi Lf Ef. pose proof (prod_range dims Hb) as P. set (g := digs false dims (Z.of_nat i)) in *.
    assert (Hd : digit_vec dims g) by (apply digs_digit_vec; exact Hp). assert (Lg : length g = nd) by apply Hd.
    unfold jl_cell. rewrite jl_getIndexSet_eq by lia. cbn [bind]. fold g. cbn [jl_of jl_upDirection jl_numCells].
    rewrite (fget_nat _ j 0) by (rewrite plus1_length; lia). cbn [bind]. rewrite plus1_nth by lia.
    rewrite (fget_nat (sides ar v) j 0) by (unfold sides; rewrite map_length; lia). cbn [bind]. rewrite (sides_nth ar dims v Hv) by exact Hj. fold (sd j).
    pose proof (axis_range dims Hb j Hj) as A. assert (Hr : 0 <= nth j g 0 < nth j dims 0) by (apply Hd; exact Hj). pose proof (jl_sd j) as Hs.
    rewrite i64_id by lia. replace (nth j g 0 + 1 + sd j) with (nth j g 0 + sd j + 1) by ring. rewrite fset_nat by (rewrite plus1_length; lia). cbn [bind].
    rewrite plus1_upd. rewrite (fget_nat _ j 0) by (rewrite plus1_length, upd_length; lia). cbn [bind]. rewrite plus1_nth by (rewrite upd_length; lia).
    rewrite upd_nth, Nat.eqb_refl by lia. rewrite (fget_nat dims j 0) by exact Hj. cbn [bind]. rewrite mod1_ok by lia. cbn [bind].
    rewrite fset_nat by (rewrite plus1_length, upd_length; lia). cbn [bind]. rewrite plus1_upd, upd_upd. destruct (jl_nb g j Hd Hj) as [En Hn]. rewrite <- En.
    rewrite jl_getFlatIndex_eq by exact Hn. cbn [bind]. rewrite (fget_nat f i zero) by lia. cbn [bind]. rewrite Ef.
    unfold fget at 1. replace (dot S' (neighbour dims g j (sd j)) + 1 - 1) with (dot S' (neighbour dims g j (sd j))) by ring.
    unfold S' at 1. rewrite vget_first by (auto; apply in_grid_digit_vec; exact Hn). cbn [bind].
    rewrite (fget_nat _ i zero) by (rewrite firsts_map_length by exact Hb; exact Hi). cbn [bind]. rewrite firsts_nth by auto. fold g.
    rewrite fset_nat by lia. f_equal. f_equal. unfold jl_value. rewrite seq_S, fold_left_app. reflexivity.
  Qed.

  Lemma jl_advect_eq v' l' de ud fu dt G :
    jl_advect ar (mkJl N v' l' dims de ud (prodZ dims) S' fu) (jl_of (map G (cells_first dims))) dt =
    Ok (jl_of (map (scheme ar (cxx_term ar dims v lengths dt) dims v G) (cells_first dims))).
  Proof using Hv Hl Hb.
    unfold jl_advect. cbn [jl_of jl_f jl_ndims]. fold (jl_of (map G (cells_first dims))). unfold f_do.
    match goal with |- context [for_upto ?c ?bd ?s] =>
      destruct (for_upto_inv (fun k f => f = map (jl_value G dt (seq 0 k)) (cells_first dims)) bd c s) as (f & -> & E) end.
    - reflexivity.
    - intros j f Hj ->. rewrite jl_axis_eq by (unfold N in Hj; lia). eexists. split; reflexivity.
    - cbn [bind]. rewrite E. replace (Z.to_nat N) with nd by (unfold N; lia). reflexivity.
  Qed.

  Lemma jl_run_eq dt G n :
    jl_run ar (jl_of (map G (cells_first dims))) n dt = Ok (jl_of (map (scheme_iter ar (Z.to_nat n) (cxx_term ar dims v lengths dt) dims v G) (cells_first dims))).
  Proof using Hv Hl Hb.
    unfold jl_run, f_do.
    match goal with |- for_upto ?c ?bd ?s = _ =>
      destruct (for_upto_inv (fun k o => o = jl_of (map (scheme_iter ar k (cxx_term ar dims v lengths dt) dims v G) (cells_first dims))) bd c s) as (t & -> & ->) end; auto.
    intros k o Hk ->. eexists; split; [apply jl_advect_eq|reflexivity].
  Qed.

  (** ** upwind3.jl *)
  Let cell (i : nat) : list Z := digs false dims (Z.of_nat i).
  Lemma jl_cell_digit i : digit_vec dims (cell i).
  Proof using Hb. clear Hv Hl. apply digs_digit_vec. exact Hp. Qed.

  Lemma j3_row h k : (k < T)%nat -> length (h k) = nd -> mapM (fun column => vget column (Z.of_nat k)) (py_table dims h) = Ok (h k).
  Proof using Type.
    clear. intros Hk L. unfold py_table. rewrite (mapM_ok _ (fun column => nth k column 0)).
    - rewrite map_map. f_equal. transitivity (map (fun j => nth j (h k) 0) (seq 0 (length (h k)))); [|symmetry; exact (list_as_map_seq (h k) 0)]. rewrite L. apply map_ext. intros j. exact (map_seq_nth (fun i => nth j (h i) 0) T k 0 Hk).
    - intros a Ha. apply in_map_iff in Ha as (j & <- & Hj). apply vget_nat. rewrite map_length, seq_length. exact Hk.
  Qed.

  Definition j3_of (f : list D) : jl3 D := mkJl3 (jl_of f) (py_table dims cell).

  Lemma j3_new_eq : j3_new ar N v lengths dims = Ok (j3_of (map (corner (a_ofZ ar 0) (a_dec ar 10 1) dims) (cells_first dims))).
  Proof using Hv Hl Hb.
    unfold j3_new. rewrite jl_new_eq. cbn [bind]. cbn [jl_of jl_dimProd jl_ntot].
    match goal with |- context [tabulate N ?b] => rewrite (tabulate_ok (fun j => map (fun i => nth j (cell i) 0) (seq 0 T)) b N) end.
    - cbn [bind]. replace (Z.to_nat N) with nd by (unfold N; lia). reflexivity.
    - intros j Hj. assert (Hj' : (j < nd)%nat) by (unfold N in Hj; lia). rewrite (fget_nat _ j 0) by (unfold S'; rewrite strd_length; exact Hj'). cbn [bind].
      rewrite (fget_nat dims j 0) by exact Hj'. cbn [bind]. apply (tabulate_ok (fun i => nth j (cell i) 0)). intros i Hi. rewrite div_ok by (auto; lia). cbn [bind].
      rewrite mod_ok by exact Hj'. f_equal. unfold cell. rewrite digs_nth by exact Hj'. reflexivity.
  Qed.

  Lemma j3_flat_eq f h : (forall i, (i < T)%nat -> digit_vec dims (h i)) -> j3_flat (jl_of f) (py_table dims h) = Ok (map (fun i => dot S' (h i) + 1) (seq 0 T)).
  Proof using Hb.
    clear Hv Hl. intros Hh. unfold j3_flat. cbn [jl_of jl_ntot jl_dimProd]. apply (tabulate_ok (fun i => dot S' (h i) + 1)). fold T. intros k Hk.
    specialize (Hh k Hk). pose proof (dot_strd_range false dims (h k) Hh) as R. pose proof (prod_range dims Hb) as P. rewrite j3_row by (auto; apply Hh). cbn [bind].
    unfold S' in *. rewrite jl_dot_eq; [|rewrite strd_length; apply Hh|apply (nonneg_digits dims), Hh|apply nonneg_strides, Hp|rewrite dot_comm; lia].
    cbn [bind]. rewrite dot_comm, i64_id by lia. reflexivity.
  Qed.

  Lemma j3_coeffs_eq f dt : exists c, j3_coeffs ar (jl_of f) dt = Ok c /\ length c = nd /\
    forall j, (j < nd)%nat -> nth j c zero = a_div ar (a_mul ar (a_mul ar dt (axis_velocity ar v j)) (a_ofZ ar (sd j))) (cell_size ar dims lengths j).
  Proof using Hv Hl.
    unfold j3_coeffs. cbn [jl_of jl_velocity jl_upDirection jl_deltas].
    replace (vlen v =? vlen (sides ar v)) with true by (symmetry; apply Z.eqb_eq; unfold vlen, sides; rewrite map_length; reflexivity).
    replace (vlen (sides ar v) =? vlen (sizes ar dims lengths)) with true by (symmetry; apply Z.eqb_eq; unfold vlen, sides, sizes; rewrite !map_length, seq_length; unfold nd in Hv; lia).
    cbn [andb].
    match goal with |- context [tabulate ?n ?b] =>
      rewrite (tabulate_ok (fun j => a_div ar (a_mul ar (a_mul ar dt (axis_velocity ar v j)) (a_ofZ ar (sd j))) (cell_size ar dims lengths j)) b n) end.
    - eexists. split; [reflexivity|]. unfold vlen. rewrite Nat2Z.id, Hv, map_length, seq_length. split; [reflexivity|]. intros j Hj. rewrite map_seq_nth by exact Hj. reflexivity.
    - unfold vlen. rewrite Nat2Z.id, Hv. intros j Hj. rewrite (vget_nat v j zero) by lia. cbn [bind].
      rewrite (vget_nat (sides ar v) j 0) by (unfold sides; rewrite map_length; lia). cbn [bind].
      rewrite (vget_nat (sizes ar dims lengths) j zero) by (unfold sizes; rewrite map_length, seq_length; lia). cbn [bind].
      rewrite (sides_nth ar dims v Hv), (sizes_nth ar dims lengths) by exact Hj. reflexivity.
  Qed.

  (** Axes whose indices are represented exactly as Float64. *)
  Hypothesis Hf : Forall (fun n => n <= 2 ^ 53) dims.

  Lemma j3_axis_eq f0 c dt G j : (j < nd)%nat -> length c = nd ->
    nth j c zero = a_div ar (a_mul ar (a_mul ar dt (axis_velocity ar v j)) (a_ofZ ar (sd j))) (cell_size ar dims lengths j) ->
    j3_axis ar (j3_of f0) c (map G (cells_first dims)) (Z.of_nat j + 1) (py_table dims cell, map (jl_value G dt (seq 0 j)) (cells_first dims)) =
    Ok (py_table dims cell, map (jl_value G dt (seq 0 (S j))) (cells_first dims)).
  Proof using Hv Hl Hb Hf.
    intros Hj Lc Ec. unfold j3_axis. cbn [j3_of j3_inds j3_obj].
    assert (Row : fget (py_table dims cell) (Z.of_nat j + 1) = Ok (map (fun i => nth j (cell i) 0) (seq 0 T))).
    { unfold fget. replace (Z.of_nat j + 1 - 1) with (Z.of_nat j) by ring. apply table_row. exact Hj. }
    rewrite Row. cbn [bind]. cbn [jl_of jl_upDirection jl_numCells].
    rewrite (fget_nat (sides ar v) j 0) by (unfold sides; rewrite map_length; lia). cbn [bind]. rewrite (sides_nth ar dims v Hv) by exact Hj. fold (sd j).
    rewrite (fget_nat dims j 0) by exact Hj. cbn [bind]. pose proof (axis_range dims Hb j Hj) as A.
    assert (Hj53 : nth j dims 0 <= 2 ^ 53) by (apply (proj1 (Forall_nth _ dims) Hf); exact Hj). pose proof (jl_sd j) as Hs.
    unfold jl_float at 1. destruct (Z.leb_spec (Z.abs (nth j dims 0)) (2 ^ 53)); [|lia]. cbn [bind].
    rewrite (mapM_ok _ (fun x => (x + sd j) mod nth j dims 0)).
    2: { intros x Hx. apply in_map_iff in Hx as (i & <- & _). pose proof (proj2 (jl_cell_digit i) j Hj) as C. unfold jl_float.
         destruct (Z.leb_spec (Z.abs (nth j (cell i) 0)) (2 ^ 53)); [|lia]. cbn [bind].
         destruct (Z.leb_spec (Z.abs (nth j (cell i) 0 + sd j)) (2 ^ 53)); [|lia]. cbn [bind]. apply mod_ok. exact Hj. }
    cbn [bind]. rewrite fset_nat by (unfold py_table; rewrite map_length, seq_length; exact Hj). cbn [bind]. rewrite map_map.
    assert (Lcell : forall i, length (cell i) = nd) by (intros i; apply jl_cell_digit). unfold T. rewrite table_upd by auto.
    rewrite (table_ext dims _ (fun i => neighbour dims (cell i) j (sd j))) by (intros i _; symmetry; apply jl_nb; [apply jl_cell_digit|exact Hj]).
    assert (Hnb : forall i, digit_vec dims (neighbour dims (cell i) j (sd j))) by (intros i; apply jl_nb; [apply jl_cell_digit|exact Hj]).
    fold (jl_of f0). rewrite j3_flat_eq by (intros i _; apply Hnb). cbn [bind].
    rewrite (fget_nat c j zero) by lia. cbn [bind]. rewrite Ec.
    match goal with |- context [tabulate ?n ?b] => rewrite (tabulate_ok (fun i => jl_value G dt (seq 0 (S j)) (cell i)) b n) end.
    2: { unfold vlen. rewrite Nat2Z.id, firsts_map_length by exact Hb. fold T. intros i Hi. rewrite (vget_nat _ i zero) by (rewrite firsts_map_length by exact Hb; exact Hi).
         cbn [bind]. rewrite firsts_nth by (auto; exact Hi). rewrite (vget_nat _ i 0) by (rewrite map_length, seq_length; exact Hi). cbn [bind]. rewrite map_seq_nth by exact Hi.
         unfold fget. replace (dot S' (neighbour dims (cell i) j (sd j)) + 1 - 1) with (dot S' (neighbour dims (cell i) j (sd j))) by ring.
         unfold S' at 1. rewrite vget_first by (auto; apply in_grid_digit_vec, Hnb). cbn [bind].
         rewrite (vget_nat _ i zero) by (rewrite firsts_map_length by exact Hb; exact Hi). cbn [bind]. rewrite firsts_nth by (auto; exact Hi).
         f_equal. unfold jl_value. rewrite seq_S, fold_left_app. reflexivity. }
    cbn [bind]. rewrite fset_nat by (unfold py_table; rewrite map_length, seq_length; exact Hj). cbn [bind].
    unfold T. rewrite table_upd by (auto; intros i _; apply Hnb). f_equal. f_equal.
    - apply table_ext. intros i Hi. rewrite (proj1 (jl_nb _ j (jl_cell_digit i) Hj)). rewrite upd_upd. apply upd_self. rewrite Lcell. exact Hj.
    - unfold vlen. rewrite Nat2Z.id, firsts_map_length by exact Hb. apply (nth_ext' zero); [rewrite map_length, seq_length, firsts_map_length by exact Hb; reflexivity|].
      rewrite map_length, seq_length. intros i Hi. rewrite map_seq_nth, firsts_nth by auto. reflexivity.
  Qed.

  Lemma j3_advect_eq dt G :
    j3_advect ar (j3_of (map G (cells_first dims))) dt = Ok (j3_of (map (scheme ar (cxx_term ar dims v lengths dt) dims v G) (cells_first dims))).
  Proof using Hv Hl Hb Hf.
    unfold j3_advect. destruct (j3_coeffs_eq (map G (cells_first dims)) dt) as (c & Ec & Lc & Hc). cbn [j3_of j3_obj j3_inds]. rewrite Ec. cbn [bind]. cbn [jl_of jl_f jl_ndims].
    fold (jl_of (map G (cells_first dims))). fold (j3_of (map G (cells_first dims))). unfold f_do.
    match goal with |- context [for_upto ?c ?bd ?s] =>
      destruct (for_upto_inv (fun k st => st = (py_table dims cell, map (jl_value G dt (seq 0 k)) (cells_first dims))) bd c s) as (st & -> & E) end.
    - reflexivity.
    - intros j st Hj ->. assert (Hj' : (j < nd)%nat) by (unfold N in Hj; lia). eexists. split; [apply j3_axis_eq; auto|reflexivity].
    - rewrite E. cbn [bind]. replace (Z.to_nat N) with nd by (unfold N; lia). reflexivity.
  Qed.

  Lemma j3_run_eq dt G n :
    j3_run ar (j3_of (map G (cells_first dims))) n dt = Ok (j3_of (map (scheme_iter ar (Z.to_nat n) (cxx_term ar dims v lengths dt) dims v G) (cells_first dims))).
  Proof using Hv Hl Hb Hf.
    unfold j3_run, f_do.
    match goal with |- for_upto ?c ?bd ?s = _ =>
      destruct (for_upto_inv (fun k o => o = j3_of (map (scheme_iter ar k (cxx_term ar dims v lengths dt) dims v G) (cells_first dims))) bd c s) as (t & -> & ->) end; auto.
    intros k o Hk ->. eexists; split; [apply j3_advect_eq|reflexivity].
  Qed.
End Jl.
