(** * Proofs about the Fortran versions of the upwind benchmark *)
From Coq Require Import List.
From Verif Require Import Cpp CppProof MaiModel MaiSpec Radix MaiProof CdModel CdSpec CdProof FilterModel FilterSpec FilterProof
  FilterSum LapSpec LapProof UpModel UpSpec UpProof AccModel AccSpec AccProof ParModel ParSpec ParProof LangSpec FortModel.
From Coq Require Import List.
Import ListNotations.
Local Open Scope Z_scope.
Local Arguments prodZ : simpl never.
Local Arguments Z.of_nat : simpl never.

Lemma fget_nat {A} (l : list A) (i : nat) d : (i < length l)%nat -> fget l (Z.of_nat i + 1) = Ok (nth i l d).
Proof. intros H. unfold fget. replace (Z.of_nat i + 1 - 1) with (Z.of_nat i) by ring. apply vget_nat. exact H. Qed.
Lemma fset_nat {A} (l : list A) (i : nat) x : (i < length l)%nat -> fset l (Z.of_nat i + 1) x = Ok (upd l i x).
Proof. intros H. unfold fset. replace (Z.of_nat i + 1 - 1) with (Z.of_nat i) by ring. apply vset_nat. exact H. Qed.

(** A loop over the cells that gives cell after cell its new value. *)
Lemma sweep {D} (d : D) dims (G V : list Z -> D) body : big_grid dims ->
  (forall i f, (i < Z.to_nat (prodZ dims))%nat -> length f = Z.to_nat (prodZ dims) -> nth i f d = G (digs true dims (Z.of_nat i)) ->
     body (Z.of_nat i) f = Ok (upd f i (V (digs true dims (Z.of_nat i))))) ->
  for_upto (prodZ dims) body (map G (cells dims)) = Ok (map V (cells dims)).
Proof.
  intros Hb H. pose proof (prod_range dims Hb) as P.
  assert (LG : forall G : list Z -> D, length (map G (cells dims)) = Z.to_nat (prodZ dims)) by (intros; rewrite map_length; apply cells_length; auto).
  assert (NG : forall (G : list Z -> D) i, (i < Z.to_nat (prodZ dims))%nat -> nth i (map G (cells dims)) d = G (digs true dims (Z.of_nat i))).
  { intros K i Hi. erewrite (nth_error_nth (map _ _)); [reflexivity|]. apply map_nth_error. apply cell_at; auto. }
  destruct (for_upto_inv (fun i f => length f = Z.to_nat (prodZ dims) /\ forall k, (k < Z.to_nat (prodZ dims))%nat ->
      nth k f d = if (k <? i)%nat then V (digs true dims (Z.of_nat k)) else G (digs true dims (Z.of_nat k))) body (prodZ dims) (map G (cells dims)))
    as (t & -> & L & Ht).
  - split; [apply LG|]. intros k Hk. apply NG; auto.
  - intros i f Hi (L & Hf). rewrite H; auto.
    2: { rewrite Hf by auto. replace (i <? i)%nat with false by (symmetry; apply Nat.ltb_ge; lia). reflexivity. }
    eexists; split; [reflexivity|]. rewrite upd_length. split; auto.
    intros k Hk. rewrite upd_nth by lia. destruct (Nat.eqb_spec k i).
    + subst k. replace (i <? S i)%nat with true by (symmetry; apply Nat.ltb_lt; lia). reflexivity.
    + rewrite Hf by auto. destruct (Nat.ltb_spec k i), (Nat.ltb_spec k (S i)); auto; lia.
  - f_equal. apply (nth_ext' d); [rewrite LG; auto|]. intros k Hk. rewrite L in Hk. rewrite NG, Ht by auto.
    replace (k <? Z.to_nat (prodZ dims))%nat with true by (symmetry; apply Nat.ltb_lt; lia). reflexivity.
Qed.

Lemma corner_list {D} (z o : D) dims : big_grid dims ->
  upd (repeat z (Z.to_nat (prodZ dims))) 0 o = map (corner z o dims) (cells dims).
Proof.
  intros Hb. set (ar := mkArith D z o (fun n => if n =? 1 then o else z) (fun _ _ => z) (fun x _ => x) (fun x _ => x) (fun x _ => x) (fun x _ => x) (fun x => x) (fun _ _ => false) z).
  exact (first_cell_list ar dims Hb).
Qed.

Lemma prod_firstn_le dims i : allpos dims -> 0 < prodZ (firstn i dims) <= prodZ dims.
Proof.
  intros H. assert (H1 : allpos (firstn i dims) /\ allpos (skipn i dims)).
  { rewrite <- (firstn_skipn i dims) in H. unfold allpos in *. apply Forall_app in H. exact H. }
  destruct H1 as [H1 H2]. pose proof (prodZ_pos _ H1). pose proof (prodZ_pos _ H2).
  rewrite <- (firstn_skipn i dims) at 3. rewrite prodZ_app. nia.
Qed.

Lemma skipn_cons_nth {A} (l : list A) d j : (j < length l)%nat -> skipn j l = nth j l d :: skipn (S j) l.
Proof. revert j; induction l as [|x l IH]; intros [|j] H; simpl in *; try lia; auto. rewrite (IH j) by lia. destruct l; reflexivity. Qed.

Section Fort.
  Context {D : Type} (ar : arith D).
  Variables (dims : list Z) (v lengths : list D).
  Let nd := length dims.
  Hypothesis Hv : length v = nd.
  Hypothesis Hl : length lengths = nd.
  Let N := Z.of_nat nd.
  Let zero := a_zero ar.

  (** The loop over the axes: it ends, or the product of the numbers of cells overflows. *)
  Lemma fo_axes_gen : allpos dims ->
    fo_axes ar N v lengths dims = if prodZ dims <? 2 ^ 31 then Ok (sides ar v, sizes ar dims lengths, prodZ dims) else Undef SignedOverflow.
  Proof using Hv Hl.
    intros Hp. unfold fo_axes, f_do, for_upto. replace (Z.to_nat N) with nd by (unfold N; lia).
    match goal with |- for_from ?c ?k ?bd ?i = _ => set (body := bd); set (s0 := i) end.
    assert (Step : forall i up de nt, (i < nd)%nat -> length up = nd -> length de = nd ->
      body (Z.of_nat i) (up, de, nt) = (nt <- int_op (nt * nth i dims 0) ;; Ok (upd up i (nth i (sides ar v) 0), upd de i (nth i (sizes ar dims lengths) zero), nt))).
    { intros i up de nt Hi L1 L2. unfold body. rewrite fset_nat by lia. cbn [bind]. rewrite (fget_nat v i zero) by lia. cbn [bind].
      replace (if a_lt ar (nth i v zero) (a_dec ar 0 1) then fset (upd up i (-1)) (Z.of_nat i + 1) 1 else Ok (upd up i (-1)))
        with (Ok (upd up i (upwind_side ar (nth i v zero)))).
      2: { unfold upwind_side. destruct (a_lt ar (nth i v zero) (a_dec ar 0 1)); [|reflexivity].
           rewrite fset_nat by (rewrite upd_length; lia). rewrite upd_upd. reflexivity. }
      cbn [bind]. rewrite (fget_nat lengths i zero) by lia. cbn [bind]. rewrite (fget_nat dims i 0) by exact Hi. cbn [bind].
      rewrite fset_nat by lia. cbn [bind]. rewrite (sides_nth ar dims v Hv) by exact Hi. rewrite (sizes_nth ar dims lengths) by exact Hi. reflexivity. }
    assert (Go : forall c i up de, (i + c = nd)%nat -> length up = nd -> length de = nd ->
      (forall k, (k < i)%nat -> nth k up 0 = nth k (sides ar v) 0 /\ nth k de zero = nth k (sizes ar dims lengths) zero) ->
      prodZ (firstn i dims) < 2 ^ 31 ->
      for_from i c body (up, de, prodZ (firstn i dims)) =
        if prodZ dims <? 2 ^ 31 then Ok (sides ar v, sizes ar dims lengths, prodZ dims) else Undef SignedOverflow).
    { induction c as [|c IH]; intros i up de Hi L1 L2 Hk Hs; cbn [for_from].
      - replace i with nd in * by lia. unfold nd in Hs |- *. rewrite firstn_all in *. replace (prodZ dims <? 2 ^ 31) with true by (symmetry; apply Z.ltb_lt; exact Hs).
        f_equal. f_equal. f_equal.
        + apply (nth_ext' 0); [unfold sides; rewrite map_length; lia|]. intros k Hk'. apply Hk. unfold nd. lia.
        + apply (nth_ext' zero); [unfold sizes; rewrite map_length, seq_length; lia|]. intros k Hk'. apply Hk. unfold nd. lia.
      - rewrite Step by (auto; lia).
        assert (Es : prodZ (firstn (S i) dims) = prodZ (firstn i dims) * nth i dims 0).
        { rewrite (firstn_S_nth dims 0) by (unfold nd in Hi; lia). rewrite prodZ_app, prodZ_cons. change (prodZ []) with 1. ring. }
        pose proof (prod_firstn_le dims (S i) Hp) as R. rewrite Es in R.
        destruct (Z.ltb_spec (prodZ (firstn (S i) dims)) (2 ^ 31)) as [Hlt|Hge].
        + rewrite int_op_ok by (unfold two31; lia). cbn [bind]. rewrite <- Es. apply IH; rewrite ?upd_length; auto; try lia.
          intros k Hk'. rewrite !upd_nth by lia. destruct (Nat.eqb_spec k i); [subst; auto|apply Hk; lia].
        + unfold int_op. replace (int_range _) with false. 2: { symmetry. unfold int_range, int_max. apply andb_false_iff. right. apply Z.leb_gt. lia. }
          cbn [bind]. replace (prodZ dims <? 2 ^ 31) with false by (symmetry; apply Z.ltb_ge; lia). reflexivity. }
    specialize (Go nd 0%nat (repeat 0 nd) (repeat zero nd)). change (prodZ (firstn 0 dims)) with 1 in Go. apply Go; rewrite ?repeat_length; auto; lia.
  Qed.

  Hypothesis Hg : up_grid dims.
  Let Hb : big_grid dims := up_big dims Hg.
  Let Hp : allpos dims := big_allpos dims Hb.
  Lemma small : prodZ dims < 2 ^ 31.
  Proof using Hg. apply Hg. Qed.

  Lemma strd_S j : (S j < nd)%nat -> nth j (strd true dims) 0 = nth (S j) (strd true dims) 0 * nth (S j) dims 0.
  Proof using Type.
    clear Hv Hl. intros Hj. unfold strd. rewrite !strides_nth by (unfold nd in Hj; lia).
    rewrite (skipn_cons_nth dims 0 (S j)) by (unfold nd in Hj; lia). rewrite prodZ_cons. ring.
  Qed.
  Lemma strd_last : nth (nd - 1) (strd true dims) 0 = 1.
  Proof using Hg.
    clear Hv Hl. pose proof (nd_pos dims Hb) as Hn. unfold strd. rewrite strides_nth by (unfold nd in *; lia).
    replace (S (nd - 1)) with nd by lia. unfold nd. rewrite skipn_all. reflexivity.
  Qed.

  Lemma fo_strides_eq : fo_strides N dims = Ok (strd true dims).
  Proof using Hg. clear Hv Hl.
    pose proof (nd_pos dims Hb) as Hn. fold nd in Hn. unfold fo_strides. replace (Z.to_nat N) with nd by (unfold N; lia).
    replace N with (Z.of_nat (nd - 1) + 1) at 1 by (unfold N; lia). rewrite fset_nat by (rewrite repeat_length; lia). cbn [bind].
    match goal with |- for_upto ?c ?bd ?s = _ =>
      destruct (for_upto_inv (fun k dp => length dp = nd /\ forall j, (nd - 1 - k <= j < nd)%nat -> nth j dp 0 = nth j (strd true dims) 0) bd c s)
        as (t & -> & L & H) end.
    - rewrite upd_length, repeat_length. split; auto. intros j Hj. replace j with (nd - 1)%nat by lia.
      rewrite upd_nth, Nat.eqb_refl by (rewrite repeat_length; lia). symmetry. apply strd_last.
    - intros k dp Hk (L & H). assert (Hk' : (k < nd - 1)%nat) by (unfold N in Hk; lia). cbv zeta.
      set (j := (nd - 2 - k)%nat). replace (N - 1 - Z.of_nat k) with (Z.of_nat j + 1) by (unfold N, j; lia).
      replace (Z.of_nat j + 1 + 1) with (Z.of_nat (S j) + 1) by lia.
      rewrite (fget_nat dp (S j) 0) by (unfold j; lia). cbn [bind]. rewrite (fget_nat dims (S j) 0) by (unfold j, nd in *; lia). cbn [bind].
      rewrite H by (unfold j; lia). rewrite <- strd_S by (unfold j; lia).
      assert (Hj : (j < length dims)%nat) by (unfold j, nd in *; lia).
      pose proof (strd_nth_pos dims Hb j Hj). pose proof (strd_le true dims j Hp Hj). pose proof (axis_range dims Hb j Hj). pose proof small.
      rewrite int_op_ok by (unfold two31; nia). cbn [bind]. rewrite fset_nat by (unfold nd in L; lia). eexists; split; [reflexivity|].
      rewrite upd_length. split; auto. intros i Hi. rewrite upd_nth by (unfold nd in L; lia). destruct (Nat.eqb_spec i j); [subst; reflexivity|]. apply H. unfold j in *. lia.
    - f_equal. apply (nth_ext' 0); [rewrite strd_length; exact L|]. intros j Hj. apply H. replace (Z.to_nat (N - 1)) with (nd - 1)%nat by (unfold N; lia). lia.
  Qed.

  (** Closed form of the objects. *)
  Definition fo_of (f : list D) : fort D := mkFort N (prodZ dims) dims (sides ar v) (sizes ar dims lengths) v lengths f (strd true dims).

  Lemma fo_new_eq : fo_new ar v lengths dims = Ok (fo_of (map (corner (a_ofZ ar 0) (a_ofZ ar 1) dims) (cells dims))).
  Proof using Hv Hl Hg.
    unfold fo_new. replace (vlen v) with N by (unfold vlen, N; congruence). rewrite fo_axes_gen by exact Hp.
    pose proof small as Hs. replace (prodZ dims <? 2 ^ 31) with true by (symmetry; apply Z.ltb_lt; exact Hs). cbn [bind].
    rewrite fo_strides_eq. cbn [bind]. pose proof (prod_range dims Hb) as P. change 1 with (Z.of_nat 0 + 1) at 1.
    rewrite fset_nat by (rewrite repeat_length; lia). cbn [bind]. rewrite (corner_list _ _ dims Hb). reflexivity.
  Qed.

  (** *** Index sets, counted from 1 *)
  Definition plus1 (g : list Z) : list Z := map (fun x => x + 1) g.
  Lemma plus1_nth g j : (j < length g)%nat -> nth j (plus1 g) 0 = nth j g 0 + 1.
  Proof using Type. clear. intros H. unfold plus1. rewrite (nth_indep _ 0 (0 + 1)) by (rewrite map_length; exact H). apply (map_nth (fun x => x + 1)). Qed.
  Lemma plus1_length g : length (plus1 g) = length g.
  Proof using Type. clear. apply map_length. Qed.
  Lemma plus1_upd g j x : upd (plus1 g) j (x + 1) = plus1 (upd g j x).
  Proof using Type. clear. unfold plus1. revert j; induction g as [|y g IH]; intros [|j]; simpl; auto. f_equal. apply IH. Qed.

  Lemma fo_getIndexSet_eq f i : 0 <= i < prodZ dims -> fo_getIndexSet (fo_of f) (i + 1) = Ok (plus1 (digs true dims i)).
  Proof using Hg. clear Hv Hl.
    intros Hi. unfold fo_getIndexSet, fo_of; cbn [fo_ndims fo_dimProd fo_numCells].
    rewrite (tabulate_ok (fun j => nth j (plus1 (digs true dims i)) 0)).
    - f_equal. replace (Z.to_nat N) with (length (plus1 (digs true dims i))) by (rewrite plus1_length, digs_length; unfold N, nd; lia).
      symmetry. apply list_as_map_seq.
    - intros j Hj. assert (Hj' : (j < nd)%nat) by (unfold N in Hj; lia). cbv zeta. pose proof small as Hs.
      rewrite (fget_nat _ j 0) by (rewrite strd_length; exact Hj'). cbn [bind]. rewrite (fget_nat dims j 0) by exact Hj'. cbn [bind].
      replace (i + 1 - 1) with i by ring. rewrite int_op_ok by (unfold two31; lia). cbn [bind]. pose proof (strd_nth_pos dims Hb j Hj') as S.
      rewrite sdiv_nn by lia. cbn [bind]. pose proof (axis_range dims Hb j Hj') as A.
      assert (i / nth j (strd true dims) 0 <= i) by (apply Z.div_le_upper_bound; nia). pose proof (Z.div_pos i _ ltac:(lia) S).
      rewrite srem_nn by lia. cbn [bind]. pose proof (Z.mod_pos_bound (i / nth j (strd true dims) 0) (nth j dims 0) ltac:(lia)).
      rewrite plus1_nth by (rewrite digs_length; exact Hj'). rewrite digs_nth by exact Hj'.
      apply int_op_ok. unfold two31. lia.
  Qed.

  Lemma fo_getFlatIndex_eq f g : digit_vec dims g -> fo_getFlatIndex (fo_of f) (plus1 g) = Ok (dot (strd true dims) g + 1).
  Proof using Hg. clear Hv Hl.
    intros Hd. assert (Lg : length g = nd) by apply Hd. pose proof (dot_strd_range true dims g Hd) as R. pose proof small as Hs.
    unfold fo_getFlatIndex, fo_of; cbn [fo_ndims fo_dimProd]. set (S' := strd true dims) in *.
    assert (LS : length S' = nd) by apply strd_length. unfold f_do.
    assert (Pos : forall i, 0 <= dot (firstn i S') (firstn i g) <= dot S' g).
    { assert (A : forall a b, Forall (fun x => 0 <= x) a -> Forall (fun x => 0 <= x) b -> forall i, 0 <= dot (firstn i a) (firstn i b) <= dot a b).
      { induction a as [|x a IH]; intros [|y b] Ha Hb' i; destruct i; cbn [firstn dot]; try lia.
        - inversion Ha; inversion Hb'; subst. specialize (IH b ltac:(auto) ltac:(auto) O). cbn [firstn dot] in IH. nia.
        - inversion Ha; inversion Hb'; subst. specialize (IH b ltac:(auto) ltac:(auto) i). nia. }
      apply A.
      - apply Forall_nth. intros j d0 Hj. rewrite (nth_indep _ d0 0) by exact Hj. rewrite LS in Hj. pose proof (strd_nth_pos dims Hb j Hj). unfold S'. lia.
      - apply Forall_nth. intros j d0 Hj. rewrite (nth_indep _ d0 0) by exact Hj. rewrite Lg in Hj. destruct Hd as [_ Hd]. specialize (Hd j Hj). lia. }
    match goal with |- context [for_upto ?c ?bd ?s] =>
      destruct (for_upto_inv (fun i acc => acc = dot (firstn i S') (firstn i g)) bd c s) as (t & -> & Ht) end.
    - reflexivity.
    - intros i s Hi ->. assert (Hi' : (i < nd)%nat) by (unfold N in Hi; lia).
      rewrite (fget_nat S' i 0) by lia. cbn [bind]. rewrite (fget_nat (plus1 g) i 0) by (rewrite plus1_length; lia). cbn [bind].
      rewrite plus1_nth by lia. replace (nth i g 0 + 1 - 1) with (nth i g 0) by ring.
      assert (Hgi : 0 <= nth i g 0 < nth i dims 0) by (apply Hd; exact Hi'). pose proof (axis_range dims Hb i Hi') as A.
      rewrite int_op_ok by (unfold two31; lia). cbn [bind].
      pose proof (Pos i). pose proof (Pos (S i)) as PS. rewrite dot_firstn_S in PS by lia. pose proof (strd_nth_pos dims Hb i Hi') as SP. fold S' in SP.
      assert (0 <= nth i S' 0 * nth i g 0) by nia.
      rewrite int_op_ok by (unfold two31; lia). cbn [bind]. rewrite int_op_ok by (unfold two31; lia).
      eexists; split; [reflexivity|]. rewrite dot_firstn_S by lia. reflexivity.
    - replace (Z.to_nat N) with nd in Ht by (unfold N; lia). rewrite !firstn_all2 in Ht by lia. subst t. cbn [bind]. apply int_op_ok. unfold two31. lia.
  Qed.

  (** *** One cell *)
  Let sd j := upwind_side ar (axis_velocity ar v j).
  Lemma sd_range j : sd j = 1 \/ sd j = -1.
  Proof using Type. clear. unfold sd, upwind_side. destruct (a_lt ar _ _); auto. Qed.

  Lemma nb_digit g j d : digit_vec dims g -> (j < nd)%nat -> digit_vec dims (neighbour dims g j d).
  Proof using Hg. clear Hv Hl.
    intros Hd Hj. unfold neighbour. rewrite wrap_unit by (auto; apply in_grid_digit_vec; exact Hd). destruct Hd as [L H].
    split; [rewrite upd_length; exact L|]. intros k Hk. rewrite upd_nth by (rewrite L; exact Hj). destruct (Nat.eqb_spec k j); [|apply H; exact Hk].
    subst. apply Z.mod_pos_bound. pose proof (axis_range dims Hb j Hj). lia.
  Qed.

  Hypothesis Hsh : shorter_axes dims.

  Lemma fo_private_eq f g j : digit_vec dims g -> (j < nd)%nat ->
    fo_private (fo_of f) (Z.of_nat j + 1) (plus1 g) = Ok (plus1 (neighbour dims g j (sd j)), dot (strd true dims) (neighbour dims g j (sd j)) + 1, nth j g 0 + 1).
  Proof using Hv Hg Hsh. clear Hl.
    intros Hd Hj. pose proof (nb_digit g j (sd j) Hd Hj) as Hn. revert Hn. unfold neighbour at 1 2 3. rewrite wrap_unit by (auto; apply in_grid_digit_vec; exact Hd). intros Hn.
    assert (Lg : length g = nd) by apply Hd. pose proof (sd_range j) as Hs. assert (Hr : 0 <= nth j g 0 < nth j dims 0) by (apply Hd; exact Hj).
    pose proof (Hsh j Hj) as Hx. unfold fo_private. rewrite (fget_nat _ j 0) by (rewrite plus1_length; lia). cbn [bind]. rewrite plus1_nth by lia.
    cbn [fo_of fo_upDirection fo_numCells]. rewrite (fget_nat (sides ar v) j 0) by (unfold sides; rewrite map_length; lia). cbn [bind].
    rewrite (sides_nth ar dims v Hv) by exact Hj. fold (sd j). rewrite int_op_ok by (unfold two31; lia). cbn [bind].
    replace (nth j g 0 + 1 + sd j) with (nth j g 0 + sd j + 1) by ring.
    rewrite fset_nat by (rewrite plus1_length; lia). cbn [bind]. rewrite plus1_upd. rewrite (fget_nat dims j 0) by exact Hj. cbn [bind].
    rewrite (fget_nat _ j 0) by (rewrite plus1_length, upd_length; lia). cbn [bind]. rewrite plus1_nth by (rewrite upd_length; lia).
    rewrite upd_nth, Nat.eqb_refl by lia. rewrite int_op_ok by (unfold two31; lia). cbn [bind]. rewrite int_op_ok by (unfold two31; lia). cbn [bind].
    unfold f_modulo. destruct (Z.eqb_spec (nth j dims 0) 0); [lia|]. cbn [bind].
    replace ((nth j g 0 + sd j + 1 + nth j dims 0 - 1) mod nth j dims 0) with ((nth j g 0 + sd j) mod nth j dims 0).
    2: { rewrite <- (Z.mod_add (nth j g 0 + sd j) 1) by lia. f_equal. ring. }
    pose proof (Z.mod_pos_bound (nth j g 0 + sd j) (nth j dims 0) ltac:(lia)). rewrite int_op_ok by (unfold two31; lia). cbn [bind].
    rewrite fset_nat by (rewrite plus1_length, upd_length; lia). cbn [bind]. rewrite plus1_upd, upd_upd.
    change (mkFort N (prodZ dims) dims (sides ar v) (sizes ar dims lengths) v lengths f (strd true dims)) with (fo_of f).
    rewrite fo_getFlatIndex_eq by exact Hn. reflexivity.
  Qed.

  Definition fo_value (G : list Z -> D) (dt : D) (g : list Z) (l : list nat) (x : D) : D :=
    fold_left (fun acc j => a_sub ar acc (f90_term ar dims v lengths dt j (G (neighbour dims g j (sd j))) (G g))) l x.

  Lemma fo_cell_eq f0 dt G f i : (i < Z.to_nat (prodZ dims))%nat -> length f = Z.to_nat (prodZ dims) ->
    fo_cell ar (fo_of f0) dt (map G (cells dims)) (Z.of_nat i + 1) f =
    Ok (upd f i (fo_value G dt (digs true dims (Z.of_nat i)) (seq 0 nd) (nth i f zero))).
  Proof using Hv Hl Hg Hsh.
    intros Hi Lf. unfold fo_cell. rewrite fo_getIndexSet_eq by lia. cbn [bind]. cbn [fo_of fo_ndims]. fold (fo_of f0). set (g := digs true dims (Z.of_nat i)).
    assert (Hd : digit_vec dims g) by (apply digs_digit_vec; exact Hp). assert (Lg : length g = nd) by apply Hd.
    unfold f_do.
    match goal with |- context [for_upto ?c ?bd ?s] => destruct (for_upto_inv (fun k p => p = (plus1 g, upd f i (fo_value G dt g (seq 0 k) (nth i f zero)))) bd c s) as (p & -> & E) end.
    - cbn [seq fo_value fold_left]. unfold fo_value; cbn [fold_left]. rewrite upd_self by lia. reflexivity.
    - intros j s Hj ->. assert (Hj' : (j < nd)%nat) by (unfold N in Hj; lia). unfold fo_axis. rewrite fo_private_eq by auto. cbn [bind].
      cbn [fo_of fo_v fo_upDirection fo_deltas]. rewrite (fget_nat v j zero) by lia. cbn [bind].
      rewrite (fget_nat (sides ar v) j 0) by (unfold sides; rewrite map_length; lia). cbn [bind].
      rewrite (fget_nat (sizes ar dims lengths) j zero) by (unfold sizes; rewrite map_length, seq_length; lia). cbn [bind].
      rewrite (sides_nth ar dims v Hv), (sizes_nth ar dims lengths) by exact Hj'.
      rewrite (fget_nat _ i zero) by (rewrite upd_length; lia). cbn [bind]. rewrite upd_nth, Nat.eqb_refl by lia.
      unfold fget at 1. replace (dot (strd true dims) (neighbour dims g j (sd j)) + 1 - 1) with (dot (strd true dims) (neighbour dims g j (sd j))) by ring.
      rewrite (vget_cell dims Hb G) by (apply in_grid_digit_vec, nb_digit; auto). cbn [bind].
      unfold fget at 1. replace (Z.of_nat i + 1 - 1) with (dot (strd true dims) g).
      2: { unfold g. rewrite dot_digs, Z.mod_small by (auto; lia). ring. }
      rewrite (vget_cell dims Hb G) by (apply in_grid_digit_vec; exact Hd). cbn [bind].
      rewrite fset_nat by (rewrite upd_length; lia). cbn [bind]. pose proof (nb_digit g j (sd j) Hd Hj') as Hn.
      assert (Ln : length (neighbour dims g j (sd j)) = nd) by apply Hn.
      rewrite fset_nat by (rewrite plus1_length, Ln; exact Hj'). cbn [bind]. rewrite plus1_upd, upd_upd. eexists; split; [reflexivity|]. f_equal.
      + f_equal. unfold neighbour. rewrite wrap_unit by (auto; apply in_grid_digit_vec; exact Hd). rewrite upd_upd. apply upd_self. lia.
      + unfold fo_value. rewrite seq_S, fold_left_app. reflexivity.
    - rewrite E. cbn [bind]. replace (Z.to_nat N) with nd by (unfold N; lia). reflexivity.
  Qed.

  Lemma fo_advect_eq dt G :
    fo_advect ar (fo_of (map G (cells dims))) dt = Ok (fo_of (map (scheme ar (f90_term ar dims v lengths dt) dims v G) (cells dims))).
  Proof using Hv Hl Hg Hsh.
    unfold fo_advect. change (fo_f (fo_of (map G (cells dims)))) with (map G (cells dims)). change (fo_ntot (fo_of (map G (cells dims)))) with (prodZ dims).
    pose proof (prod_range dims Hb) as P. replace (vlen (map G (cells dims))) with (prodZ dims) by (unfold vlen; rewrite map_length, cells_length by exact Hb; lia).
    rewrite Z.eqb_refl. unfold f_do. rewrite (sweep zero dims G (scheme ar (f90_term ar dims v lengths dt) dims v G)); [reflexivity|exact Hb|].
    intros i f Hi Lf Hn. rewrite fo_cell_eq by auto. rewrite Hn. reflexivity.
  Qed.

  Lemma fo_run_eq dt G n :
    fo_run ar (fo_of (map G (cells dims))) n dt = Ok (fo_of (map (scheme_iter ar (Z.to_nat n) (f90_term ar dims v lengths dt) dims v G) (cells dims))).
  Proof using Hv Hl Hg Hsh.
    unfold fo_run, f_do.
    match goal with |- for_upto ?c ?bd ?s = _ =>
      destruct (for_upto_inv (fun k o => o = fo_of (map (scheme_iter ar k (f90_term ar dims v lengths dt) dims v G) (cells dims))) bd c s) as (t & -> & ->) end; auto.
    intros k o Hk ->. rewrite fo_advect_eq. eexists; split; reflexivity.
  Qed.
End Fort.

(** *** Parallel loops *)
Section Par.
  Context {D : Type} (ar : arith D).

  Lemma fo_axis_alone o dt old i j inds f k :
    alone (fo_axis_task ar o dt i j inds k) (f, old) = (' (inds', f') <- fo_axis ar o dt old i j (inds, f) ;; alone (k inds') (f', old)).
  Proof.
    unfold fo_axis_task, fo_axis, fget, fset. fold (@fget Z).
    destruct (fo_private o j inds) as [[[inds2 upI] oldIndex]|]; cbn [bind]; [|reflexivity].
    destruct (vget (fo_v o) (j - 1)) as [vj|]; cbn [bind]; [|reflexivity].
    destruct (vget (fo_upDirection o) (j - 1)) as [uj|]; cbn [bind]; [|reflexivity]. destruct (vget (fo_deltas o) (j - 1)) as [dj|]; cbn [bind]; [|reflexivity].
    cbn [priv alone mget fst snd]. destruct (vget f (i - 1)) as [fi|]; cbn [bind alone]; [|reflexivity].
    cbn [mget fst snd]. destruct (vget old (upI - 1)) as [y|]; cbn [bind alone]; [|reflexivity].
    cbn [mget fst snd]. destruct (vget old (i - 1)) as [z|]; cbn [bind alone]; [|reflexivity].
    cbn [mset fst snd]. destruct (vset f (i - 1) _) as [f'|]; cbn [bind]; [|reflexivity].
    destruct (vset inds2 (j - 1) oldIndex) as [inds3|]; reflexivity.
  Qed.

  Lemma fo_cell_alone o dt old i f :
    alone (fo_cell_task ar o dt i) (f, old) = (f' <- fo_cell ar o dt old (i + 1) f ;; Ok (f', old)).
  Proof.
    unfold fo_cell_task, fo_cell. destruct (fo_getIndexSet o (i + 1)) as [inds|]; cbn [bind priv alone]; [|reflexivity].
    rewrite (ploop_for _ (fun j => fo_axis ar o dt old (i + 1) (j + 1))) by (intros; apply fo_axis_alone). unfold f_do, for_upto.
    destruct (for_from 0 (Z.to_nat (fo_ndims o)) _ (inds, f)) as [[x y]|]; reflexivity.
  Qed.

  Lemma fo_cell_respects o dt i : respects (cell_of F i) (other F) (fo_cell_task ar o dt i).
  Proof.
    unfold fo_cell_task. apply priv_respects. intros inds. apply ploop_respects; [intros; exact I|]. intros j s k Hk. unfold fo_axis_task.
    apply priv_respects. intros [[[[[inds' upI] old] vj] uj] dj]. cbn [respects]. unfold cell_of, other; cbn [fst]. replace (i + 1 - 1) with i by ring.
    repeat (split; [first [left; reflexivity|right; discriminate|reflexivity]|]; intros). apply priv_respects. exact Hk.
  Qed.

  Lemma fo_cell_atmost o dt i : atmost (Z.to_nat (fo_ndims o) * 4) (fo_cell_task ar o dt i).
  Proof.
    unfold fo_cell_task. apply priv_atmost. intros inds. apply ploop_atmost; [intros; exact I|]. intros j s k m Hk. unfold fo_axis_task.
    apply priv_atmost. intros [[[[[inds' upI] old] vj] uj] dj]. cbn [atmost Nat.add].
    repeat (eexists; split; [reflexivity|]; intros). apply priv_atmost. exact Hk.
  Qed.
End Par.
