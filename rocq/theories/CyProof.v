(** * Proofs about the Cython version of the upwind benchmark *)
From Coq Require Import List.
From Verif Require Import Cpp CppProof MaiModel MaiSpec Radix MaiProof CdModel CdSpec CdProof FilterModel FilterSpec FilterProof
  FilterSum LapSpec LapProof UpModel UpSpec UpProof AccModel AccSpec AccProof LangSpec FortProof PyModel PyProof CyModel.
From Coq Require Import List.
Import ListNotations.
Local Open Scope Z_scope.
Local Arguments prodZ : simpl never.
Local Arguments Z.of_nat : simpl never.

Lemma i64_id z : - 2 ^ 63 <= z < 2 ^ 63 -> i64 z = z.
Proof. intros H. unfold i64. rewrite Z.mod_small; lia. Qed.

Section Cy.
  Context {D : Type} (ar : arith D) (env : cyenv).
  Variables (dims : list Z) (v lengths : list D).
  Let nd := length dims.
  Hypothesis Hv : length v = nd.
  Hypothesis Hl : length lengths = nd.
  Let N := Z.of_nat nd.
  Let zero := a_zero ar.

  Hypothesis Hg : up_grid dims.
  Let Hb : big_grid dims := up_big dims Hg.
  Let Hp : allpos dims := big_allpos dims Hb.
  Let small : prodZ dims < 2 ^ 31 := small dims Hg.

  (** The loop over the axes *)
  Lemma prod_step i : (i < nd)%nat -> np_int (i64 (prodZ (firstn i dims) * nth i dims 0)) = Ok (prodZ (firstn (S i) dims)).
  Proof using Hg.
    clear Hv Hl. intros Hi. rewrite (firstn_S_nth dims 0) by exact Hi. rewrite prodZ_app, prodZ_cons. change (prodZ []) with 1. rewrite Z.mul_1_r.
    assert (E : prodZ dims = prodZ (firstn i dims) * nth i dims 0 * prodZ (skipn (S i) dims)).
    { rewrite <- (firstn_skipn (S i) dims) at 1. rewrite prodZ_app, (firstn_S_nth dims 0) by exact Hi. rewrite prodZ_app, prodZ_cons. change (prodZ []) with 1. ring. }
    pose proof (FortProof.small dims Hg) as Hs. assert (P1 : 0 < prodZ (firstn i dims)) by (apply prodZ_pos; unfold allpos; rewrite Forall_forall; intros x Hx; apply (proj1 (Forall_forall _ _) Hp); rewrite <- (firstn_skipn i dims); apply in_or_app; left; exact Hx).
    assert (P2 : 0 < prodZ (skipn (S i) dims)) by (apply prodZ_pos; unfold allpos; rewrite Forall_forall; intros x Hx; apply (proj1 (Forall_forall _ _) Hp); rewrite <- (firstn_skipn (S i) dims); apply in_or_app; right; exact Hx).
    pose proof (axis_range dims Hb i Hi) as A. assert (0 < prodZ (firstn i dims) * nth i dims 0 < 2 ^ 31) by nia.
    rewrite i64_id by lia. unfold np_int. replace (int_range _) with true; [reflexivity|]. symmetry. apply int_range_spec. unfold two31. lia.
  Qed.

  Lemma cy_axes_eq : cy_axes ar N v lengths dims = Ok (sides ar v, sizes ar dims lengths, prodZ dims).
  Proof using Hv Hl Hg.
    unfold cy_axes. replace (Z.to_nat N) with nd by (unfold N; lia).
    match goal with |- for_upto ?c ?bd ?s = _ =>
      destruct (for_upto_inv (fun i '(up, de, nt) => length up = nd /\ length de = nd /\ nt = prodZ (firstn i dims) /\
        forall k, (k < i)%nat -> nth k up 0 = nth k (sides ar v) 0 /\ nth k de zero = nth k (sizes ar dims lengths) zero) bd c s) as ([[up de] nt] & -> & L1 & L2 & E & H) end.
    - rewrite !repeat_length. split; [reflexivity|]. split; [reflexivity|]. split; [reflexivity|]. intros k Hk. lia.
    - intros i [[up de] nt] Hi (L1 & L2 & -> & H). assert (Hi' : (i < nd)%nat) by (unfold N in Hi; lia).
      rewrite vset_nat by lia. cbn [bind]. rewrite (vget_nat v i zero) by lia. cbn [bind].
      replace (if a_lt ar (nth i v zero) (a_dec ar 0 1) then vset (upd up i (-1)) (Z.of_nat i) 1 else Ok (upd up i (-1)))
        with (Ok (upd up i (upwind_side ar (nth i v zero)))).
      2: { unfold upwind_side. destruct (a_lt ar (nth i v zero) (a_dec ar 0 1)); [|reflexivity]. rewrite vset_nat by (rewrite upd_length; lia). rewrite upd_upd. reflexivity. }
      cbn [bind]. rewrite (vget_nat lengths i zero) by lia. cbn [bind]. rewrite (vget_nat dims i 0) by exact Hi'. cbn [bind]. rewrite vset_nat by lia. cbn [bind].
      rewrite prod_step by exact Hi'. cbn [bind]. eexists. split; [reflexivity|]. cbv beta iota. rewrite !upd_length. split; [exact L1|]. split; [exact L2|]. split.
      { reflexivity. }
      intros k Hk. rewrite !upd_nth by lia. destruct (Nat.eqb_spec k i) as [->|]; [|apply H; lia].
      rewrite (sides_nth ar dims v Hv) by exact Hi'. rewrite (sizes_nth ar dims lengths) by exact Hi'. split; reflexivity.
    - replace (Z.to_nat N) with nd in * by (unfold N; lia). unfold nd in E. rewrite firstn_all in E. subst nt. f_equal. f_equal. f_equal.
      + apply (nth_ext' 0); [unfold sides; rewrite map_length; lia|]. intros k Hk. apply H. lia.
      + apply (nth_ext' zero); [unfold sizes; rewrite map_length, seq_length; exact L2|]. intros k Hk. apply H. lia.
  Qed.

  Lemma cy_coeffs_eq : exists co, cy_coeffs ar N v (sides ar v) (sizes ar dims lengths) = Ok co /\ length co = nd /\
    forall j, (j < nd)%nat -> nth j co zero = a_div ar (a_mul ar (axis_velocity ar v j) (a_ofZ ar (upwind_side ar (axis_velocity ar v j)))) (cell_size ar dims lengths j).
  Proof using Hv Hl.
    eexists. split; [unfold cy_coeffs; apply tabulate_ok|].
    - intros j Hj. assert (Hj' : (j < nd)%nat) by (unfold N in Hj; lia). rewrite (vget_nat v j zero) by lia. cbn [bind].
      rewrite (vget_nat (sides ar v) j 0) by (unfold sides; rewrite map_length; lia). cbn [bind].
      rewrite (vget_nat (sizes ar dims lengths) j zero) by (unfold sizes; rewrite map_length, seq_length; lia). cbn [bind].
      rewrite (sides_nth ar dims v Hv), (sizes_nth ar dims lengths) by exact Hj'. reflexivity.
    - replace (Z.to_nat N) with nd by (unfold N; lia). rewrite map_length, seq_length. split; [reflexivity|]. intros j Hj. rewrite map_seq_nth by exact Hj. reflexivity.
  Qed.

  Lemma cy_strides_eq : cy_strides N dims = Ok (strd true dims).
  Proof using Hg. clear Hv Hl.
    pose proof (nd_pos dims Hb) as Hn. fold nd in Hn. unfold cy_strides. replace (Z.to_nat N) with nd by (unfold N; lia).
    match goal with |- for_upto ?c ?bd ?s = _ =>
      destruct (for_upto_inv (fun k dp => length dp = nd /\ forall j, (nd - 1 - k <= j < nd)%nat -> nth j dp 0 = nth j (strd true dims) 0) bd c s)
        as (t & -> & L & H) end.
    - rewrite repeat_length. split; auto. intros j Hj. replace j with (nd - 1)%nat by lia. rewrite (nth_indep _ 0 1) by (rewrite repeat_length; lia).
      unfold nd. rewrite (strd_last dims Hg). apply nth_repeat.
    - intros k dp Hk (L & H). assert (Hk' : (k < nd - 1)%nat) by (unfold N in Hk; lia). cbv zeta.
      set (j := (nd - 2 - k)%nat). replace (N - 2 - Z.of_nat k) with (Z.of_nat j) by (unfold N, j; lia). replace (Z.of_nat j + 1) with (Z.of_nat (S j)) by lia.
      rewrite (vget_nat dp (S j) 0) by (unfold j; lia). cbn [bind]. rewrite (vget_nat dims (S j) 0) by (unfold j, nd in *; lia). cbn [bind].
      rewrite H by (unfold j; lia). rewrite <- (strd_S dims) by (unfold j, nd in *; lia).
      assert (Hj : (j < length dims)%nat) by (unfold j, nd in *; lia).
      pose proof (strd_nth_pos dims Hb j Hj). pose proof (strd_le true dims j Hp Hj). pose proof (axis_range dims Hb j Hj). pose proof (FortProof.small dims Hg).
      rewrite i64_id by nia. rewrite vset_nat by (unfold nd in L; lia). eexists; split; [reflexivity|].
      rewrite upd_length. split; auto. intros i Hi. rewrite upd_nth by (unfold nd in L; lia). destruct (Nat.eqb_spec i j); [subst; reflexivity|]. apply H. unfold j in *. lia.
    - f_equal. apply (nth_ext' 0); [rewrite strd_length; exact L|]. intros j Hj. apply H. replace (Z.to_nat (N - 1)) with (nd - 1)%nat by (unfold N; lia). lia.
  Qed.

  (** ** Tables of index sets: row j has the j-th indices of all the cells *)
  Let T := Z.to_nat (prodZ dims).
  Definition cy_table (h : nat -> list Z) : list (list Z) := map (fun j => map (fun i => nth j (h i) 0) (seq 0 T)) (seq 0 nd).
  Let cell (i : nat) : list Z := digs true dims (Z.of_nat i).

  Lemma table_row h j : (j < nd)%nat -> vget (cy_table h) (Z.of_nat j) = Ok (map (fun i => nth j (h i) 0) (seq 0 T)).
  Proof using Type.
    clear. intros Hj. unfold cy_table. rewrite (vget_nat _ j []) by (rewrite map_length, seq_length; exact Hj). rewrite map_seq_nth by exact Hj. reflexivity.
  Qed.
  Lemma table_upd h j w : (forall i, (i < T)%nat -> length (h i) = nd) -> (j < nd)%nat ->
    upd (cy_table h) j (map w (seq 0 T)) = cy_table (fun i => upd (h i) j (w i)).
  Proof using Type.
    clear. intros Lh Hj. unfold cy_table. rewrite upd_map_seq. apply map_ext_in. intros k Hk. apply in_seq in Hk. destruct (Nat.eqb_spec k j) as [->|Hne].
    - apply map_ext_in. intros i Hi. apply in_seq in Hi. rewrite upd_nth, Nat.eqb_refl by (rewrite Lh; [exact Hj|lia]). reflexivity.
    - apply map_ext_in. intros i Hi. apply in_seq in Hi. rewrite upd_nth by (rewrite Lh; [exact Hj|lia]). destruct (Nat.eqb_spec k j); [lia|reflexivity].
  Qed.
  Lemma table_ext h h' : (forall i, (i < T)%nat -> h i = h' i) -> cy_table h = cy_table h'.
  Proof using Type. clear. intros H. unfold cy_table. apply map_ext. intros j. apply map_ext_in. intros i Hi. apply in_seq in Hi. rewrite H by lia. reflexivity. Qed.

  Lemma cell_digit i : digit_vec dims (cell i).
  Proof using Hg. clear Hv Hl. apply digs_digit_vec. exact Hp. Qed.

  Hypothesis He : cy_python2 env = true.
  Lemma cy_rows_eq : cy_rows env N (prodZ dims) (strd true dims) dims = Ok (cy_table cell).
  Proof using Hg He.
    clear Hv Hl. unfold cy_rows, cy_table. rewrite (tabulate_ok (fun j => map (fun i => nth j (cell i) 0) (seq 0 T))); [replace (Z.to_nat N) with nd by (unfold N; lia); reflexivity|].
    intros j Hj. assert (Hj' : (j < nd)%nat) by (unfold N in Hj; lia). rewrite (vget_nat _ j 0) by (rewrite strd_length; exact Hj'). cbn [bind]. rewrite He.
    rewrite (vget_nat dims j 0) by exact Hj'. cbn [bind]. f_equal. unfold cy_row. fold T. apply map_ext_in. intros i Hi. apply in_seq in Hi.
    pose proof (prod_range dims Hb) as P. pose proof (FortProof.small dims Hg) as Hs. assert (Hi' : 0 <= Z.of_nat i < prodZ dims) by (unfold T in Hi; lia).
    pose proof (strd_nth_pos dims Hb j Hj') as S. unfold cy_div. destruct (Z.eqb_spec (nth j (strd true dims) 0) 0); [lia|].
    pose proof (Z.div_pos (Z.of_nat i) _ ltac:(lia) S). assert (Z.of_nat i / nth j (strd true dims) 0 <= Z.of_nat i) by (apply Z.div_le_upper_bound; nia).
    rewrite i64_id by lia. unfold np_mod. pose proof (axis_range dims Hb j Hj'). destruct (Z.eqb_spec (nth j dims 0) 0); [lia|].
    unfold cell. rewrite digs_nth by exact Hj'. reflexivity.
  Qed.

  (** ** Closed form of the objects *)
  Definition cy_co : list D := match cy_coeffs ar N v (sides ar v) (sizes ar dims lengths) with Ok co => co | Undef _ => [] end.
  Definition cy_of (f old : list D) : cy D := mkCy dims N (sizes ar dims lengths) (sides ar v) v (prodZ dims) (strd true dims) cy_co f old (cy_table cell) (cy_table cell).

  Lemma cy_co_eq : cy_coeffs ar N v (sides ar v) (sizes ar dims lengths) = Ok cy_co /\ length cy_co = nd /\
    forall j, (j < nd)%nat -> nth j cy_co zero = a_div ar (a_mul ar (axis_velocity ar v j) (a_ofZ ar (upwind_side ar (axis_velocity ar v j)))) (cell_size ar dims lengths j).
  Proof using Hv Hl. destruct cy_coeffs_eq as (co & E & H). unfold cy_co. rewrite E. auto. Qed.

  Lemma cy_new_eq : cy_new ar env v lengths dims = Ok (cy_of (map (corner (a_ofZ ar 0) (a_ofZ ar 1) dims) (cells dims)) (repeat (a_ofZ ar 0) T)).
  Proof using Hv Hl Hg He.
    unfold cy_new. replace (vlen v) with N by (unfold vlen, N; congruence). rewrite cy_axes_eq. cbn [bind]. rewrite cy_strides_eq. cbn [bind].
    rewrite (proj1 cy_co_eq). cbn [bind]. pose proof (prod_range dims Hb) as P. destruct (Z.ltb_spec (prodZ dims) 0); [lia|].
    change (vset ?l 0 ?x) with (vset l (Z.of_nat 0) x). rewrite vset_nat by (rewrite repeat_length; lia). cbn [bind]. rewrite cy_rows_eq. cbn [bind]. rewrite (corner_list _ _ dims Hb). reflexivity.
  Qed.

  (** ** One axis *)
  Let sd j := upwind_side ar (axis_velocity ar v j).

  Lemma cy_flat_eq f old h : (forall i, (i < T)%nat -> digit_vec dims (h i)) -> cy_flat (cy_of f old) (cy_table h) = Ok (map (fun i => dot (strd true dims) (h i)) (seq 0 T)).
  Proof using Hg.
    clear Hv Hl. intros Hh. unfold cy_flat. cbn [cy_of cy_ntot cy_ndims cy_dimProd]. apply (tabulate_ok (fun i => dot (strd true dims) (h i))). fold T. intros k Hk.
    specialize (Hh k Hk). assert (Lg : length (h k) = nd) by apply Hh. pose proof (dot_strd_range true dims (h k) Hh) as R. pose proof (FortProof.small dims Hg) as Hs.
    set (S' := strd true dims) in *. assert (LS : length S' = nd) by apply strd_length.
    assert (Pos : forall i, 0 <= dot (firstn i S') (firstn i (h k)) <= dot S' (h k)).
    { assert (A : forall a b, Forall (fun x => 0 <= x) a -> Forall (fun x => 0 <= x) b -> forall i, 0 <= dot (firstn i a) (firstn i b) <= dot a b).
      { clear. induction a as [|x a IH]; intros [|y b] Ha Hb' i; destruct i; cbn [firstn dot]; try lia.
        - inversion Ha; inversion Hb'; subst. specialize (IH b ltac:(auto) ltac:(auto) O). cbn [firstn dot] in IH. nia.
        - inversion Ha; inversion Hb'; subst. specialize (IH b ltac:(auto) ltac:(auto) i). nia. }
      apply A.
      - apply Forall_nth. intros j d0 Hj. rewrite (nth_indep _ d0 0) by exact Hj. rewrite LS in Hj. pose proof (strd_nth_pos dims Hb j Hj). unfold S'. lia.
      - apply Forall_nth. intros j d0 Hj. rewrite (nth_indep _ d0 0) by exact Hj. rewrite Lg in Hj. destruct Hh as [_ Hd]. specialize (Hd j Hj). lia. }
    match goal with |- for_upto ?c ?bd ?s = _ => destruct (for_upto_inv (fun i acc => acc = dot (firstn i S') (firstn i (h k))) bd c s) as (t & -> & Ht) end.
    - reflexivity.
    - intros i s Hi ->. assert (Hi' : (i < nd)%nat) by (unfold N in Hi; lia). rewrite (vget_nat S' i 0) by lia. cbn [bind]. rewrite table_row by exact Hi'. cbn [bind].
      rewrite (vget_nat _ k 0) by (rewrite map_length, seq_length; exact Hk). cbn [bind]. rewrite map_seq_nth by exact Hk.
      pose proof (Pos i). pose proof (Pos (S i)) as PS. rewrite dot_firstn_S in PS by lia. pose proof (strd_nth_pos dims Hb i Hi') as SP. fold S' in SP.
      assert (Hgi : 0 <= nth i (h k) 0 < nth i dims 0) by (apply Hh; exact Hi'). assert (0 <= nth i S' 0 * nth i (h k) 0) by nia.
      rewrite (i64_id (nth i S' 0 * nth i (h k) 0)) by lia. rewrite i64_id by lia. eexists; split; [reflexivity|]. rewrite dot_firstn_S by lia. reflexivity.
    - replace (Z.to_nat N) with nd in Ht by (unfold N; lia). rewrite !firstn_all2 in Ht by lia. subst t. reflexivity.
  Qed.

  Definition cy_value (G : list Z -> D) (dt : D) (l : list nat) (g : list Z) : D :=
    fold_left (fun acc j => a_sub ar acc (py_term ar dims v lengths dt j (G (neighbour dims g j (sd j))) (G g))) l (G g).

  Lemma field_nth (G : list Z -> D) i : (i < T)%nat -> nth i (map G (cells dims)) zero = G (cell i).
  Proof using Hg. clear Hv Hl. intros Hi. erewrite (nth_error_nth (map _ _)); [reflexivity|]. apply map_nth_error. apply cell_at; auto. Qed.
  Lemma field_length (G : list Z -> D) : length (map G (cells dims)) = T.
  Proof using Hg. clear Hv Hl. rewrite map_length. apply cells_length; auto. Qed.

  Hypothesis Hu : cy_numpy_unsafe env = true.
  Lemma cy_axis_eq f0 old dt G j : (j < nd)%nat ->
    cy_axis ar env (cy_of f0 old) dt (map G (cells dims)) (Z.of_nat j) (cy_table cell, map (cy_value G dt (seq 0 j)) (cells dims)) =
    Ok (cy_table cell, map (cy_value G dt (seq 0 (S j))) (cells dims)).
  Proof using Hv Hl Hg Hu.
    intros Hj. unfold cy_axis. rewrite table_row by exact Hj. cbn [bind]. cbn [cy_of cy_upDirection cy_numCells cy_coeff cy_inds].
    rewrite (vget_nat (sides ar v) j 0) by (unfold sides; rewrite map_length; lia). cbn [bind]. rewrite (sides_nth ar dims v Hv) by exact Hj. fold (sd j). rewrite Hu. cbn [negb].
    rewrite (vget_nat dims j 0) by exact Hj. cbn [bind]. 
    rewrite vset_nat by (unfold cy_table; rewrite map_length, seq_length; exact Hj). cbn [bind]. rewrite map_map.
    assert (Lc : forall i, length (cell i) = nd) by (intros i; apply cell_digit).
    rewrite table_upd by auto. assert (Hs : sd j = 1 \/ sd j = -1) by (apply sd_range).
    assert (En : forall i, (i < T)%nat -> upd (cell i) j (np_mod (i64 (nth j (cell i) 0 + sd j)) (nth j dims 0)) = neighbour dims (cell i) j (sd j)).
    { intros i Hi. unfold neighbour. rewrite wrap_unit by (auto; apply in_grid_digit_vec, cell_digit). f_equal.
      pose proof (axis_range dims Hb j Hj) as A. pose proof (proj2 (cell_digit i) j Hj) as C. pose proof (FortProof.small dims Hg) as Hsm. rewrite i64_id by lia.
      unfold np_mod. destruct (Z.eqb_spec (nth j dims 0) 0); [lia|reflexivity]. }
    rewrite (table_ext _ (fun i => neighbour dims (cell i) j (sd j)) En).
    change (mkCy dims N (sizes ar dims lengths) (sides ar v) v (prodZ dims) (strd true dims) cy_co f0 old (cy_table cell) (cy_table cell)) with (cy_of f0 old).
    assert (Hnb : forall i, digit_vec dims (neighbour dims (cell i) j (sd j))) by (intros i; apply nb_digit; [exact Hg|apply cell_digit|exact Hj]).
    rewrite cy_flat_eq by (intros i _; apply Hnb). cbn [bind].
    destruct cy_co_eq as (_ & Lco & Hco). rewrite (vget_nat cy_co j zero) by lia. cbn [bind]. rewrite Hco by exact Hj.
    match goal with |- context [tabulate ?n ?b] => rewrite (tabulate_ok (fun i => cy_value G dt (seq 0 (S j)) (cell i)) b n) end.
    2: { unfold vlen. rewrite Nat2Z.id, field_length. intros i Hi. rewrite (vget_nat _ i zero) by (rewrite field_length; exact Hi). cbn [bind]. rewrite field_nth by exact Hi.
         rewrite (vget_nat _ i 0) by (rewrite map_length, seq_length; exact Hi). cbn [bind]. rewrite map_seq_nth by exact Hi.
         unfold np_at. pose proof (dot_strd_range true dims _ (Hnb i)) as R. destruct (Z.ltb_spec (dot (strd true dims) (neighbour dims (cell i) j (sd j))) 0); [lia|].
         rewrite (vget_cell dims Hb G) by (apply in_grid_digit_vec, Hnb). cbn [bind]. rewrite (vget_nat _ i zero) by (rewrite field_length; exact Hi). cbn [bind]. rewrite field_nth by exact Hi.
         f_equal. unfold cy_value. rewrite seq_S, fold_left_app. reflexivity. }
    cbn [bind]. rewrite table_row by exact Hj. cbn [bind]. rewrite vset_nat by (unfold cy_table; rewrite map_length, seq_length; exact Hj). cbn [bind].
    rewrite table_upd by (auto; intros i _; apply Hnb). f_equal. f_equal.
    - apply table_ext. intros i Hi. unfold neighbour. rewrite wrap_unit by (auto; apply in_grid_digit_vec, cell_digit). rewrite upd_upd. apply upd_self. rewrite Lc. exact Hj.
    - unfold vlen. rewrite Nat2Z.id, field_length. apply (nth_ext' zero); [rewrite map_length, seq_length, field_length; reflexivity|]. rewrite map_length, seq_length. intros i Hi.
      rewrite map_seq_nth, field_nth by exact Hi. reflexivity.
  Qed.

  Lemma cy_advect_eq dt G old :
    cy_advect ar env (cy_of (map G (cells dims)) old) dt =
    Ok (cy_of (map (scheme ar (py_term ar dims v lengths dt) dims v G) (cells dims)) (map G (cells dims))).
  Proof using Hv Hl Hg Hu.
    unfold cy_advect. set (p := cy_of (map G (cells dims)) old). change (cy_f p) with (map G (cells dims)). change (cy_ndims p) with N. change (cy_indsUp p) with (cy_table cell).
    match goal with |- context [for_upto ?c ?bd ?s] =>
      destruct (for_upto_inv (fun k st => st = (cy_table cell, map (cy_value G dt (seq 0 k)) (cells dims))) bd c s) as (st & -> & E) end.
    - f_equal.
    - intros j st Hj ->. unfold p. rewrite cy_axis_eq by (unfold N in Hj; lia). eexists. split; reflexivity.
    - rewrite E. cbn [bind]. replace (Z.to_nat N) with nd by (unfold N; lia). reflexivity.
  Qed.

  Lemma cy_run_eq dt G old n : length old = T ->
    exists old', length old' = T /\
    cy_run ar env (cy_of (map G (cells dims)) old) n dt = Ok (cy_of (map (scheme_iter ar (Z.to_nat n) (py_term ar dims v lengths dt) dims v G) (cells dims)) old').
  Proof using Hv Hl Hg Hu.
    intros Hold. unfold cy_run.
    match goal with |- context [for_upto ?c ?bd ?s] =>
      destruct (for_upto_inv (fun k o => exists old', length old' = T /\ o = cy_of (map (scheme_iter ar k (py_term ar dims v lengths dt) dims v G) (cells dims)) old') bd c s)
        as (t & -> & old' & L & ->) end.
    - exists old. split; [exact Hold|reflexivity].
    - intros k o Hk (old' & L & ->). rewrite cy_advect_eq. eexists; split; [reflexivity|]. eexists. split; [|reflexivity]. apply field_length.
    - exists old'. split; [exact L|reflexivity].
  Qed.
End Cy.
