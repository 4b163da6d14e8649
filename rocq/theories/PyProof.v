(** * Proofs about the Python version of the upwind benchmark *)
From Coq Require Import List.
From Verif Require Import Cpp CppProof MaiModel MaiSpec Radix MaiProof CdModel CdSpec CdProof FilterModel FilterSpec FilterProof
  FilterSum LapSpec LapProof UpModel UpSpec UpProof AccModel AccSpec AccProof LangSpec FortProof PyModel.
From Coq Require Import List.
Import ListNotations.
Local Open Scope Z_scope.
Local Arguments prodZ : simpl never.
Local Arguments Z.of_nat : simpl never.

Lemma upd_map_seq {A} (g : nat -> A) n j x : upd (map g (seq 0 n)) j x = map (fun i => if Nat.eqb i j then x else g i) (seq 0 n).
Proof.
  apply (nth_ext' x); [rewrite upd_length, !map_length; reflexivity|]. rewrite upd_length, map_length, seq_length. intros i Hi.
  destruct (Nat.lt_ge_cases j n) as [Hj|Hj].
  - rewrite upd_nth by (rewrite map_length, seq_length; exact Hj). rewrite !map_seq_nth by exact Hi. reflexivity.
  - assert (E : upd (map g (seq 0 n)) j x = map g (seq 0 n)).
    { assert (K : forall (l : list A) k, (length l <= k)%nat -> upd l k x = l) by (clear; induction l as [|y l IH]; intros [|k] H; simpl in *; auto; [lia|f_equal; apply IH; lia]).
      apply K. rewrite map_length, seq_length. exact Hj. }
    rewrite E, !map_seq_nth by exact Hi. destruct (Nat.eqb_spec i j); [lia|reflexivity].
Qed.

Section Py.
  Context {D : Type} (ar : arith D).
  Variables (dims : list Z) (v lengths : list D).
  Let nd := length dims.
  Hypothesis Hv : length v = nd.
  Hypothesis Hl : length lengths = nd.
  Let N := Z.of_nat nd.
  Let zero := a_zero ar.

  (** The loop over the axes: no number of cells is too large. *)
  Lemma py_axes_eq : py_axes ar N v lengths dims = Ok (sides ar v, sizes ar dims lengths, prodZ dims).
  Proof using Hv Hl.
    unfold py_axes. replace (Z.to_nat N) with nd by (unfold N; lia).
    match goal with |- for_upto ?c ?bd ?s = _ =>
      destruct (for_upto_inv (fun i '(up, de, nt) => length up = nd /\ length de = nd /\ nt = prodZ (firstn i dims) /\
        forall k, (k < i)%nat -> nth k up 0 = nth k (sides ar v) 0 /\ nth k de zero = nth k (sizes ar dims lengths) zero) bd c s) as ([[up de] nt] & -> & L1 & L2 & E & H) end.
    - rewrite !repeat_length. split; [reflexivity|]. split; [reflexivity|]. split; [reflexivity|]. intros k Hk. lia.
    - intros i [[up de] nt] Hi (L1 & L2 & -> & H). assert (Hi' : (i < nd)%nat) by (unfold N in Hi; lia).
      rewrite vset_nat by lia. cbn [bind]. rewrite (vget_nat v i zero) by lia. cbn [bind].
      replace (if a_lt ar (nth i v zero) (a_dec ar 0 1) then vset (upd up i (-1)) (Z.of_nat i) 1 else Ok (upd up i (-1)))
        with (Ok (upd up i (upwind_side ar (nth i v zero)))).
      2: { unfold upwind_side. destruct (a_lt ar (nth i v zero) (a_dec ar 0 1)); [|reflexivity]. rewrite vset_nat by (rewrite upd_length; lia). rewrite upd_upd. reflexivity. }
      cbn [bind]. rewrite (vget_nat lengths i zero) by lia. cbn [bind]. rewrite (vget_nat dims i 0) by exact Hi'. cbn [bind]. rewrite vset_nat by lia. cbn [bind].
      eexists. split; [reflexivity|]. cbv beta iota. rewrite !upd_length. split; [exact L1|]. split; [exact L2|]. split.
      { rewrite (firstn_S_nth dims 0) by exact Hi'. rewrite prodZ_app, prodZ_cons. change (prodZ []) with 1. ring. }
      intros k Hk. rewrite !upd_nth by lia. destruct (Nat.eqb_spec k i) as [->|]; [|apply H; lia].
      rewrite (sides_nth ar dims v Hv) by exact Hi'. rewrite (sizes_nth ar dims lengths) by exact Hi'. split; reflexivity.
    - replace (Z.to_nat N) with nd in * by (unfold N; lia). unfold nd in E. rewrite firstn_all in E. subst nt. f_equal. f_equal. f_equal.
      + apply (nth_ext' 0); [unfold sides; rewrite map_length; lia|]. intros k Hk. apply H. lia.
      + apply (nth_ext' zero); [unfold sizes; rewrite map_length, seq_length; exact L2|]. intros k Hk. apply H. lia.
  Qed.

  Lemma py_coeffs_eq : exists co, py_coeffs ar N v (sides ar v) (sizes ar dims lengths) = Ok co /\ length co = nd /\
    forall j, (j < nd)%nat -> nth j co zero = a_div ar (a_mul ar (axis_velocity ar v j) (a_ofZ ar (upwind_side ar (axis_velocity ar v j)))) (cell_size ar dims lengths j).
  Proof using Hv Hl.
    eexists. split; [unfold py_coeffs; apply tabulate_ok|].
    - intros j Hj. assert (Hj' : (j < nd)%nat) by (unfold N in Hj; lia). rewrite (vget_nat v j zero) by lia. cbn [bind].
      rewrite (vget_nat (sides ar v) j 0) by (unfold sides; rewrite map_length; lia). cbn [bind].
      rewrite (vget_nat (sizes ar dims lengths) j zero) by (unfold sizes; rewrite map_length, seq_length; lia). cbn [bind].
      rewrite (sides_nth ar dims v Hv), (sizes_nth ar dims lengths) by exact Hj'. reflexivity.
    - replace (Z.to_nat N) with nd by (unfold N; lia). rewrite map_length, seq_length. split; [reflexivity|]. intros j Hj. rewrite map_seq_nth by exact Hj. reflexivity.
  Qed.

  Hypothesis Hg : up_grid dims.
  Let Hb : big_grid dims := up_big dims Hg.
  Let Hp : allpos dims := big_allpos dims Hb.
  Let small : prodZ dims < 2 ^ 31 := small dims Hg.

  Lemma np_dim j : (j < nd)%nat -> np_int (nth j dims 0) = Ok (nth j dims 0).
  Proof using Hg.
    clear Hv Hl. intros Hj. pose proof (axis_range dims Hb j Hj) as A. pose proof (FortProof.small dims Hg) as Hs. unfold np_int.
    replace (int_range (nth j dims 0)) with true; [reflexivity|]. symmetry. unfold int_range, int_max, two31. apply andb_true_iff. split; apply Z.leb_le; lia.
  Qed.

  Lemma py_strides_eq : py_strides N dims = Ok (strd true dims).
  Proof using Hg. clear Hv Hl.
    pose proof (nd_pos dims Hb) as Hn. fold nd in Hn. unfold py_strides. replace (Z.to_nat N) with nd by (unfold N; lia).
    match goal with |- for_upto ?c ?bd ?s = _ =>
      destruct (for_upto_inv (fun k dp => length dp = nd /\ forall j, (nd - 1 - k <= j < nd)%nat -> nth j dp 0 = nth j (strd true dims) 0) bd c s)
        as (t & -> & L & H) end.
    - rewrite repeat_length. split; auto. intros j Hj. replace j with (nd - 1)%nat by lia. rewrite (nth_indep _ 0 1) by (rewrite repeat_length; lia).
      unfold nd. rewrite (strd_last dims Hg). apply nth_repeat.
    - intros k dp Hk (L & H). assert (Hk' : (k < nd - 1)%nat) by (unfold N in Hk; lia). cbv zeta.
      set (j := (nd - 2 - k)%nat). replace (N - 2 - Z.of_nat k) with (Z.of_nat j) by (unfold N, j; lia). replace (Z.of_nat j + 1) with (Z.of_nat (S j)) by lia.
      rewrite (vget_nat dp (S j) 0) by (unfold j; lia). cbn [bind]. rewrite (vget_nat dims (S j) 0) by (unfold j, nd in *; lia). cbn [bind].
      rewrite np_dim by (unfold j; lia). cbn [bind]. rewrite H by (unfold j; lia). rewrite <- (strd_S dims) by (unfold j, nd in *; lia).
      assert (Hj : (j < length dims)%nat) by (unfold j, nd in *; lia).
      pose proof (strd_nth_pos dims Hb j Hj). pose proof (strd_le true dims j Hp Hj). pose proof (axis_range dims Hb j Hj). pose proof (FortProof.small dims Hg).
      rewrite i32_id by (unfold two31; nia). rewrite vset_nat by (unfold nd in L; lia). eexists; split; [reflexivity|].
      rewrite upd_length. split; auto. intros i Hi. rewrite upd_nth by (unfold nd in L; lia). destruct (Nat.eqb_spec i j); [subst; reflexivity|]. apply H. unfold j in *. lia.
    - f_equal. apply (nth_ext' 0); [rewrite strd_length; exact L|]. intros j Hj. apply H. replace (Z.to_nat (N - 1)) with (nd - 1)%nat by (unfold N; lia). lia.
  Qed.

  (** ** Tables of index sets: row j has the j-th indices of all the cells *)
  Let T := Z.to_nat (prodZ dims).
  Definition py_table (h : nat -> list Z) : list (list Z) := map (fun j => map (fun i => nth j (h i) 0) (seq 0 T)) (seq 0 nd).
  Let cell (i : nat) : list Z := digs true dims (Z.of_nat i).

  Lemma table_row h j : (j < nd)%nat -> vget (py_table h) (Z.of_nat j) = Ok (map (fun i => nth j (h i) 0) (seq 0 T)).
  Proof using Type.
    clear. intros Hj. unfold py_table. rewrite (vget_nat _ j []) by (rewrite map_length, seq_length; exact Hj). rewrite map_seq_nth by exact Hj. reflexivity.
  Qed.
  Lemma table_upd h j w : (forall i, (i < T)%nat -> length (h i) = nd) -> (j < nd)%nat ->
    upd (py_table h) j (map w (seq 0 T)) = py_table (fun i => upd (h i) j (w i)).
  Proof using Type.
    clear. intros Lh Hj. unfold py_table. rewrite upd_map_seq. apply map_ext_in. intros k Hk. apply in_seq in Hk. destruct (Nat.eqb_spec k j) as [->|Hne].
    - apply map_ext_in. intros i Hi. apply in_seq in Hi. rewrite upd_nth, Nat.eqb_refl by (rewrite Lh; [exact Hj|lia]). reflexivity.
    - apply map_ext_in. intros i Hi. apply in_seq in Hi. rewrite upd_nth by (rewrite Lh; [exact Hj|lia]). destruct (Nat.eqb_spec k j); [lia|reflexivity].
  Qed.
  Lemma table_ext h h' : (forall i, (i < T)%nat -> h i = h' i) -> py_table h = py_table h'.
  Proof using Type. clear. intros H. unfold py_table. apply map_ext. intros j. apply map_ext_in. intros i Hi. apply in_seq in Hi. rewrite H by lia. reflexivity. Qed.

  Lemma cell_digit i : digit_vec dims (cell i).
  Proof using Hg. clear Hv Hl. apply digs_digit_vec. exact Hp. Qed.

  Lemma py_rows_eq : py_rows N (prodZ dims) (strd true dims) dims = Ok (py_table cell).
  Proof using Hg.
    clear Hv Hl. unfold py_rows, py_table. rewrite (tabulate_ok (fun j => map (fun i => nth j (cell i) 0) (seq 0 T))); [replace (Z.to_nat N) with nd by (unfold N; lia); reflexivity|].
    intros j Hj. assert (Hj' : (j < nd)%nat) by (unfold N in Hj; lia). rewrite (vget_nat _ j 0) by (rewrite strd_length; exact Hj'). cbn [bind].
    rewrite (vget_nat dims j 0) by exact Hj'. cbn [bind]. rewrite np_dim by exact Hj'. cbn [bind]. f_equal. unfold py_row. fold T. apply map_ext_in. intros i Hi. apply in_seq in Hi.
    pose proof (prod_range dims Hb) as P. pose proof (FortProof.small dims Hg) as Hs. assert (Hi' : 0 <= Z.of_nat i < prodZ dims) by (unfold T in Hi; lia).
    rewrite (i32_id (Z.of_nat i)) by (unfold two31; lia). pose proof (strd_nth_pos dims Hb j Hj') as S. unfold np_div. destruct (Z.eqb_spec (nth j (strd true dims) 0) 0); [lia|].
    pose proof (Z.div_pos (Z.of_nat i) _ ltac:(lia) S). assert (Z.of_nat i / nth j (strd true dims) 0 <= Z.of_nat i) by (apply Z.div_le_upper_bound; nia).
    rewrite i32_id by (unfold two31; lia). unfold np_mod. pose proof (axis_range dims Hb j Hj'). destruct (Z.eqb_spec (nth j dims 0) 0); [lia|].
    unfold cell. rewrite digs_nth by exact Hj'. reflexivity.
  Qed.

  (** ** Closed form of the objects *)
  Definition py_co : list D := match py_coeffs ar N v (sides ar v) (sizes ar dims lengths) with Ok co => co | Undef _ => [] end.
  Definition py_of (f : list D) : py D := mkPy dims N (sizes ar dims lengths) (sides ar v) v lengths (prodZ dims) (strd true dims) py_co f (py_table cell).

  Lemma py_co_eq : py_coeffs ar N v (sides ar v) (sizes ar dims lengths) = Ok py_co /\ length py_co = nd /\
    forall j, (j < nd)%nat -> nth j py_co zero = a_div ar (a_mul ar (axis_velocity ar v j) (a_ofZ ar (upwind_side ar (axis_velocity ar v j)))) (cell_size ar dims lengths j).
  Proof using Hv Hl. destruct py_coeffs_eq as (co & E & H). unfold py_co. rewrite E. auto. Qed.

  Lemma py_new_eq : py_new ar v lengths dims = Ok (py_of (map (corner (a_ofZ ar 0) (a_ofZ ar 1) dims) (cells dims))).
  Proof using Hv Hl Hg.
    unfold py_new. replace (vlen v) with N by (unfold vlen, N; congruence). rewrite py_axes_eq. cbn [bind]. rewrite py_strides_eq. cbn [bind].
    rewrite (proj1 py_co_eq). cbn [bind]. pose proof (prod_range dims Hb) as P. destruct (Z.ltb_spec (prodZ dims) 0); [lia|].
    change 0 with (Z.of_nat 0) at 2. rewrite vset_nat by (rewrite repeat_length; lia). cbn [bind]. rewrite py_rows_eq. cbn [bind]. rewrite (corner_list _ _ dims Hb). reflexivity.
  Qed.

  (** ** One axis *)
  Let sd j := upwind_side ar (axis_velocity ar v j).

  Lemma py_flat_eq f h : (forall i, (i < T)%nat -> digit_vec dims (h i)) -> py_flat (py_of f) (py_table h) = Ok (map (fun i => dot (strd true dims) (h i)) (seq 0 T)).
  Proof using Hg.
    clear Hv Hl. intros Hh. unfold py_flat. cbn [py_of py_ntot py_ndims py_dimProd]. apply (tabulate_ok (fun i => dot (strd true dims) (h i))). fold T. intros k Hk.
    specialize (Hh k Hk). assert (Lg : length (h k) = nd) by apply Hh. pose proof (dot_strd_range true dims (h k) Hh) as R. pose proof (FortProof.small dims Hg) as Hs.
    set (S' := strd true dims) in *. assert (LS : length S' = nd) by apply strd_length.
    assert (Pos : forall i, 0 <= dot (firstn i S') (firstn i (h k)) <= dot S' (h k)).
    { assert (A : forall a b, Forall (fun x => 0 <= x) a -> Forall (fun x => 0 <= x) b -> forall i, 0 <= dot (firstn i a) (firstn i b) <= dot a b).
      { clear. induction a as [|x a IH]; intros [|y b] Ha Hb' i; destruct i; cbn [firstn dot]; try lia.
        - inversion Ha; inversion Hb'; subst. specialize (IH b ltac:(auto) ltac:(auto) O). cbn [firstn dot] in IH. nia.
        - inversion Ha; inversion Hb'; subst. specialize (IH b ltac:(auto) ltac:(auto) i). nia. }
      apply A.
      - apply Forall_nth. intros j d0 Hj. rewrite (nth_indep _ d0 0) by exact Hj. rewrite LS in Hj. pose proof (strd_nth_pos dims Hb j Hj). unfold S'. lia.
      - apply Forall_nth. intros j d0 Hj. rewrite (nth_indep _ d0 0) by exact Hj. rewrite Lg in Hj. destruct Hh as [_ Hd]. specialize (Hd j Hj). lia. }
    match goal with |- for_upto ?c ?bd ?s = _ => destruct (for_upto_inv (fun i acc => acc = dot (firstn i S') (firstn i (h k))) bd c s) as (t & -> & Ht) end.
    - reflexivity.
    - intros i s Hi ->. assert (Hi' : (i < nd)%nat) by (unfold N in Hi; lia). rewrite (vget_nat S' i 0) by lia. cbn [bind]. rewrite table_row by exact Hi'. cbn [bind].
      rewrite (vget_nat _ k 0) by (rewrite map_length, seq_length; exact Hk). cbn [bind]. rewrite map_seq_nth by exact Hk.
      pose proof (Pos i). pose proof (Pos (S i)) as PS. rewrite dot_firstn_S in PS by lia. pose proof (strd_nth_pos dims Hb i Hi') as SP. fold S' in SP.
      assert (Hgi : 0 <= nth i (h k) 0 < nth i dims 0) by (apply Hh; exact Hi'). assert (0 <= nth i S' 0 * nth i (h k) 0) by nia.
      rewrite (i32_id (nth i S' 0 * nth i (h k) 0)) by (unfold two31; lia). rewrite i32_id by (unfold two31; lia). eexists; split; [reflexivity|]. rewrite dot_firstn_S by lia. reflexivity.
    - replace (Z.to_nat N) with nd in Ht by (unfold N; lia). rewrite !firstn_all2 in Ht by lia. subst t. reflexivity.
  Qed.

  Definition py_value (G : list Z -> D) (dt : D) (l : list nat) (g : list Z) : D :=
    fold_left (fun acc j => a_sub ar acc (py_term ar dims v lengths dt j (G (neighbour dims g j (sd j))) (G g))) l (G g).

  Lemma field_nth (G : list Z -> D) i : (i < T)%nat -> nth i (map G (cells dims)) zero = G (cell i).
  Proof using Hg. clear Hv Hl. intros Hi. erewrite (nth_error_nth (map _ _)); [reflexivity|]. apply map_nth_error. apply cell_at; auto. Qed.
  Lemma field_length (G : list Z -> D) : length (map G (cells dims)) = T.
  Proof using Hg. clear Hv Hl. rewrite map_length. apply cells_length; auto. Qed.

  Lemma py_axis_eq f0 dt G j : (j < nd)%nat ->
    py_axis ar (py_of f0) dt (map G (cells dims)) (Z.of_nat j) (py_table cell, map (py_value G dt (seq 0 j)) (cells dims)) =
    Ok (py_table cell, map (py_value G dt (seq 0 (S j))) (cells dims)).
  Proof using Hv Hl Hg.
    intros Hj. unfold py_axis. rewrite table_row by exact Hj. cbn [bind]. cbn [py_of py_upDirection py_numCells py_coeff py_inds].
    rewrite (vget_nat (sides ar v) j 0) by (unfold sides; rewrite map_length; lia). cbn [bind]. rewrite (sides_nth ar dims v Hv) by exact Hj. fold (sd j).
    rewrite (vget_nat dims j 0) by exact Hj. cbn [bind]. rewrite np_dim by exact Hj. cbn [bind].
    rewrite vset_nat by (unfold py_table; rewrite map_length, seq_length; exact Hj). cbn [bind]. rewrite map_map.
    assert (Lc : forall i, length (cell i) = nd) by (intros i; apply cell_digit).
    rewrite table_upd by auto. assert (Hs : sd j = 1 \/ sd j = -1) by (apply sd_range).
    assert (En : forall i, (i < T)%nat -> upd (cell i) j (np_mod (i32 (nth j (cell i) 0 + sd j)) (nth j dims 0)) = neighbour dims (cell i) j (sd j)).
    { intros i Hi. unfold neighbour. rewrite wrap_unit by (auto; apply in_grid_digit_vec, cell_digit). f_equal.
      pose proof (axis_range dims Hb j Hj) as A. pose proof (proj2 (cell_digit i) j Hj) as C. pose proof (FortProof.small dims Hg) as Hsm. rewrite i32_id by (unfold two31; lia).
      unfold np_mod. destruct (Z.eqb_spec (nth j dims 0) 0); [lia|reflexivity]. }
    rewrite (table_ext _ (fun i => neighbour dims (cell i) j (sd j)) En).
    change (mkPy dims N (sizes ar dims lengths) (sides ar v) v lengths (prodZ dims) (strd true dims) py_co f0 (py_table cell)) with (py_of f0).
    assert (Hnb : forall i, digit_vec dims (neighbour dims (cell i) j (sd j))) by (intros i; apply nb_digit; [exact Hg|apply cell_digit|exact Hj]).
    rewrite py_flat_eq by (intros i _; apply Hnb). cbn [bind].
    destruct py_co_eq as (_ & Lco & Hco). rewrite (vget_nat py_co j zero) by lia. cbn [bind]. rewrite Hco by exact Hj.
    match goal with |- context [tabulate ?n ?b] => rewrite (tabulate_ok (fun i => py_value G dt (seq 0 (S j)) (cell i)) b n) end.
    2: { unfold vlen. rewrite Nat2Z.id, field_length. intros i Hi. rewrite (vget_nat _ i zero) by (rewrite field_length; exact Hi). cbn [bind]. rewrite field_nth by exact Hi.
         rewrite (vget_nat _ i 0) by (rewrite map_length, seq_length; exact Hi). cbn [bind]. rewrite map_seq_nth by exact Hi.
         unfold np_at. pose proof (dot_strd_range true dims _ (Hnb i)) as R. destruct (Z.ltb_spec (dot (strd true dims) (neighbour dims (cell i) j (sd j))) 0); [lia|].
         rewrite (vget_cell dims Hb G) by (apply in_grid_digit_vec, Hnb). cbn [bind]. rewrite (vget_nat _ i zero) by (rewrite field_length; exact Hi). cbn [bind]. rewrite field_nth by exact Hi.
         f_equal. unfold py_value. rewrite seq_S, fold_left_app. reflexivity. }
    cbn [bind]. rewrite table_row by exact Hj. cbn [bind]. rewrite vset_nat by (unfold py_table; rewrite map_length, seq_length; exact Hj). cbn [bind].
    rewrite table_upd by (auto; intros i _; apply Hnb). f_equal. f_equal.
    - apply table_ext. intros i Hi. unfold neighbour. rewrite wrap_unit by (auto; apply in_grid_digit_vec, cell_digit). rewrite upd_upd. apply upd_self. rewrite Lc. exact Hj.
    - unfold vlen. rewrite Nat2Z.id, field_length. apply (nth_ext' zero); [rewrite map_length, seq_length, field_length; reflexivity|]. rewrite map_length, seq_length. intros i Hi.
      rewrite map_seq_nth, field_nth by exact Hi. reflexivity.
  Qed.

  Lemma py_advect_eq dt G :
    py_advect ar (py_of (map G (cells dims))) dt = Ok (py_of (map (scheme ar (py_term ar dims v lengths dt) dims v G) (cells dims))).
  Proof using Hv Hl Hg.
    unfold py_advect. cbn [py_of py_f py_ndims py_inds].
    change (mkPy dims N (sizes ar dims lengths) (sides ar v) v lengths (prodZ dims) (strd true dims) py_co (map G (cells dims)) (py_table cell)) with (py_of (map G (cells dims))).
    match goal with |- context [for_upto ?c ?bd ?s] =>
      destruct (for_upto_inv (fun k st => st = (py_table cell, map (py_value G dt (seq 0 k)) (cells dims))) bd c s) as (st & -> & E) end.
    - f_equal.
    - intros j st Hj ->. rewrite py_axis_eq by (unfold N in Hj; lia). eexists. split; reflexivity.
    - rewrite E. cbn [bind]. replace (Z.to_nat N) with nd by (unfold N; lia). reflexivity.
  Qed.

  Lemma py_run_eq dt G n :
    py_run ar (py_of (map G (cells dims))) n dt = Ok (py_of (map (scheme_iter ar (Z.to_nat n) (py_term ar dims v lengths dt) dims v G) (cells dims))).
  Proof using Hv Hl Hg.
    unfold py_run.
    match goal with |- for_upto ?c ?bd ?s = _ =>
      destruct (for_upto_inv (fun k o => o = py_of (map (scheme_iter ar k (py_term ar dims v lengths dt) dims v G) (cells dims))) bd c s) as (t & -> & ->) end; auto.
    intros k o Hk ->. rewrite py_advect_eq. eexists; split; reflexivity.
  Qed.
End Py.
