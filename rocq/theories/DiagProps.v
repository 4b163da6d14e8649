(** * Property C35, displacements along several axes at once

    C35_two_or_more_cells treats displacements along one axis.  Here a displacement may have components along any number of
    axes.  Along an axis with P processes a component o overshoots by o - P if o > P, by o + P if o < -P, otherwise by 0:
    getNeighborRank adds or subtracts the number of processes once.  If the overshoots, weighted with the strides of
    the process grid, do not add up to zero, some process asks for a rank that does not exist
    (C35_overshoot, whatever the number of cells per process).  Without any overshoot, with at least two cells per process
    and displacements no longer than the box of a process, a component of two or more cells reads outside the buffer
    (C35_long_diagonal).  What is left are overshoots that cancel: [ex_cancel] shows that such a program can run. *)
From Coq Require Import Sorted Permutation.
From Verif Require Import Cpp CppProof OMap MaiModel MaiSpec Radix MaiProof CdModel CdSpec CdProof FilterModel FilterSpec
  FilterProof FilterRank FilterWorld FilterProg FilterProps WrapSpec WrapProof WrapProps MpiSchedModel MpiSchedFilter LeakProps ReachProof ReachProps.
From Coq Require Import List.
Import ListNotations.
Local Open Scope Z_scope.
Local Arguments prodZ : simpl never.
Local Arguments Z.of_nat : simpl never.

(** ** Vocabulary *)

(** How far beyond the process grid one wrap-around leaves the rank, along an axis with p processes. *)
Definition overshoot1 (p o : Z) : Z := if p <? o then o - p else if o <? - p then o + p else 0.
(** The number of ranks by which the rank asked for lies beyond the last one or before the first one; the last axis is
    the one along which the ranks are consecutive. *)
Fixpoint overshoot (decomp off : list Z) : Z :=
  match decomp, off with
  | p :: decomp, o :: off => overshoot1 p o * prodZ decomp + overshoot decomp off
  | _, _ => 0
  end.

Section Diag.
  Context {D : Type} (ar : arith D).
  Context (dims : list Z) (n : Z) (b : list Z) (st : list (list Z * D)) (x0 x1 : list D).
  Hypothesis Hg : grid_ok dims.
  Hypothesis Hn : 1 <= n <= 2 ^ 30.
  Hypothesis Hb : is_decomp n dims b.
  Notation nd := (length dims).
  Notation Lo i := (nth i (local_dims dims b) 0).
  Notation B i := (nth i b 0).

  Lemma dot_vec_add a : forall m f g, length a = m -> dot a (vec m (fun i => f i + g i)) = dot a (vec m f) + dot a (vec m g).
  Proof using Type.
    clear. induction a as [|x a IH]; intros m f g Hl; destruct m as [|m]; cbn in Hl; try discriminate; [reflexivity|].
    assert (V : forall h, vec (S m) h = h O :: vec m (fun i => h (S i))) by (intros h; unfold vec; cbn [seq map]; rewrite <- seq_shift, map_map; reflexivity).
    rewrite !V. cbn [dot]. rewrite (IH m (fun i => f (S i)) (fun i => g (S i))) by lia. ring.
  Qed.

  Lemma overshoot_dot off : length off = nd -> overshoot b off = dot (strides b) (vec nd (fun i => overshoot1 (B i) (nth i off 0))).
  Proof using Hb.
    assert (Hlb : length b = nd) by apply Hb. rewrite <- Hlb. clear. revert off. induction b as [|p l IH]; intros [|o off] HL; cbn in HL; try discriminate; [reflexivity|].
    assert (V : forall m h, vec (S m) h = h O :: vec m (fun i => h (S i))) by (intros m h; unfold vec; cbn [seq map]; rewrite <- seq_shift, map_map; reflexivity).
    cbn [overshoot]. cbn [length]. rewrite V. unfold strides. cbn [nth]. fold (strides l). cbn [strd dot]. rewrite IH by lia. rewrite (Z.mul_comm (overshoot1 p o)). reflexivity.
  Qed.

  Lemma overshoot_bad s G off : s = side_of off -> fits dims off -> overshoot b off <> 0 -> exists r, bad ar dims n b st x0 x1 s G off r.
  Proof using Hg Hn Hb.
    intros Es Hf Hov. assert (Hlb : length b = nd) by apply Hb. assert (Hbp : allpos b) by apply (decomp_allpos _ _ _ Hb).
    rewrite (overshoot_dot off (proj1 Hf)) in Hov. set (ov := fun i => overshoot1 (B i) (nth i off 0)) in *. set (S0 := dot (strides b) (vec nd ov)) in *.
    assert (Hst : forall cf base, (forall i, (i < nd)%nat -> 0 <= cf i < B i /\ step1 (cf i + nth i off 0) (B i) = base i + ov i) ->
      exists r, 0 <= r < n /\ dot (strides b) (steps dims b (coords b r) off) = dot (strides b) (vec nd base) + S0).
    { intros cf bs H. set (c := vec nd cf). assert (Lc : length c = nd) by apply vec_length.
      assert (Hc : digit_vec b c) by (split; [lia|]; intros i Hi; unfold c; rewrite vec_nth by lia; apply H; lia).
      destruct (rank_of dims n b Hb c Hc) as (Hr & Ec). exists (dot (strides b) c). split; [exact Hr|]. rewrite Ec. unfold S0.
      rewrite <- dot_vec_add by (rewrite strides_length; exact Hlb). f_equal. apply (nth_ext' 0); [unfold steps; rewrite !vec_length; reflexivity|].
      unfold steps. rewrite vec_length. intros i Hi. rewrite !vec_nth by exact Hi. unfold c. rewrite vec_nth by exact Hi. apply H, Hi. }
    destruct (Z_lt_ge_dec 0 S0) as [Hpos|Hneg].
    - set (cf := fun i => let o := nth i off 0 in if B i <=? o then B i - 1 else if 0 <=? o then B i - 1 - o else if - B i <=? o then - o - 1 else B i - 1).
      destruct (Hst cf (fun i => B i - 1)) as (r & Hr & E).
      + intros i Hi. destruct (axB dims n b Hg Hn Hb i Hi) as (A1 & _). unfold cf, ov, overshoot1, step1.
        repeat match goal with |- context [Z.leb ?a ?c] => destruct (Z.leb_spec a c) | |- context [Z.ltb ?a ?c] => destruct (Z.ltb_spec a c) end; lia.
      + exists r. apply far_bad; auto. rewrite E. intros (_ & Hlt). pose proof (dot_strides_top b Hbp) as HT.
        assert (EB : vec nd (fun i => B i - 1) = map Z.pred b).
        { apply (nth_ext' 0); [rewrite vec_length, map_length; lia|]. rewrite vec_length. intros i Hi. rewrite vec_nth by exact Hi.
          rewrite (nth_indep (map Z.pred b) 0 (Z.pred 0)) by (rewrite map_length; lia). rewrite map_nth. lia. }
        rewrite EB, HT in Hlt. destruct Hb as (_ & _ & HP). lia.
    - set (cf := fun i => let o := nth i off 0 in if B i <=? o then 0 else if o <=? - B i then 0 else if 0 <? o then B i - o else - o).
      destruct (Hst cf (fun i => 0)) as (r & Hr & E).
      + intros i Hi. destruct (axB dims n b Hg Hn Hb i Hi) as (A1 & _). unfold cf, ov, overshoot1, step1.
        repeat match goal with |- context [Z.leb ?a ?c] => destruct (Z.leb_spec a c) | |- context [Z.ltb ?a ?c] => destruct (Z.ltb_spec a c) end; lia.
      + exists r. apply far_bad; auto. rewrite E. intros (Hge & _).
        rewrite (WrapProof.dot_zero (strides b) (vec nd (fun _ => 0))) in Hge; [lia|]. intros j. destruct (Nat.lt_ge_cases j nd) as [H|H]; [apply vec_nth, H|].
        apply nth_overflow. rewrite vec_length. exact H.
  Qed.

  Lemma near_bad s G off j : s = side_of off -> fits dims off -> (forall i, (i < nd)%nat -> Z.abs (nth i off 0) <= B i) ->
    (forall i, (i < nd)%nat -> nth i off 0 <> 0 -> 2 <= Lo i /\ 1 <= G <= Lo i) -> (j < nd)%nat -> 2 <= Z.abs (nth j off 0) ->
    exists r, bad ar dims n b st x0 x1 s G off r.
  Proof using Hg Hn Hb.
    intros Es Hf Hnear HL Hj Hlong.
    apply (chosen_bad ar dims n b st x0 x1 Hg Hn Hb s G off
      (fun i => let o := nth i off 0 in if 0 <? o then B i - 1 else if o <? -1 then - o - 1 else 0)
      (fun i => let o := nth i off 0 in if 0 <? o then Lo i - 1 else if o =? -1 then 1 else 0)
      (fun i => let o := nth i off 0 in if 0 <? o then o - 1 else if o <? 0 then B i - 1 else 0)
      (fun i => let o := nth i off 0 in if 0 <? o then o - 1 else if o <? -1 then (- o - 1) * Lo i + o else 0)
      (fun i => let o := nth i off 0 in if 0 <? o then (o - 1) - (o - 1) * Lo i else if o <? -1 then (- o - 1) * Lo i + o - B i * Lo i + G
         else if o <? 0 then G - B i * Lo i else 0)); auto.
    - intros i Hi. destruct (axB dims n b Hg Hn Hb i Hi) as (A1 & A2 & A3 & A4 & A5). specialize (Hnear i Hi). specialize (HL i Hi). cbv zeta. set (o := nth i off 0) in *.
      set (l := Lo i) in *. set (p := B i) in *. set (d := nth i dims 0) in *.
      destruct (Z_lt_ge_dec 0 o) as [Hp|Hp]; [|destruct (Z.eq_dec o 0) as [H0|H0]; [|destruct (Z.eq_dec o (-1)) as [H1|H1]]].
      + destruct (HL ltac:(lia)) as (HL1 & HG). replace (0 <? o) with true by (symmetry; apply Z.ltb_lt; lia). replace (o <? 0) with false by (symmetry; apply Z.ltb_ge; lia).
        unfold step1. destruct (Z.ltb_spec (p - 1 + o) 0); [lia|]. destruct (Z.leb_spec p (p - 1 + o)); [|lia].
        assert (p * 2 <= d) by nia.
        split; [lia|]. split; [lia|]. split; [lia|]. split; [lia|]. split; [nia|]. split.
        { replace ((p - 1) * l + (l - 1) + o) with (o - 1 + 1 * d) by nia. rewrite Z.mod_add by lia. symmetry. apply Z.mod_small. lia. }
        split; [reflexivity|]. split; [nia|]. intros _. nia.
      + rewrite H0. cbn [Z.ltb Z.compare Z.eqb]. unfold step1. cbn [Z.add Z.ltb Z.compare]. destruct (Z.leb_spec p 0); [lia|].
        split; [lia|]. split; [lia|]. split; [lia|]. split; [lia|]. split; [lia|]. split; [symmetry; apply Z.mod_small; lia|]. split; [lia|]. split; [lia|]. lia.
      + destruct (HL H0) as (HL1 & HG). rewrite H1 in *. unfold step1.
        replace (0 <? -1) with false by reflexivity. replace (-1 <? -1) with false by reflexivity. replace (-1 =? -1) with true by reflexivity. replace (0 + -1 <? 0) with true by reflexivity. replace (-1 <? 0) with true by reflexivity.
        split; [lia|]. split; [lia|]. split; [lia|]. split; [lia|]. split; [lia|]. split; [symmetry; apply Z.mod_small; lia|]. split; [lia|]. split; [nia|]. intros _. nia.
      + destruct (HL H0) as (HL1 & HG). replace (0 <? o) with false by (symmetry; apply Z.ltb_ge; lia). replace (o <? -1) with true by (symmetry; apply Z.ltb_lt; lia).
        replace (o <? 0) with true by (symmetry; apply Z.ltb_lt; lia). replace (o =? -1) with false by (symmetry; apply Z.eqb_neq; lia).
        unfold step1. destruct (Z.ltb_spec (- o - 1 + o) 0); [|lia].
        assert ((- o - 1) * 2 <= (- o - 1) * l) by nia. assert ((- o - 1) * l <= (p - 1) * l) by nia. assert ((p - 1) * l + l = d) by nia.
        split; [lia|]. split; [lia|]. split; [lia|]. split; [lia|]. split; [nia|]. split.
        { symmetry. rewrite Z.mod_small by lia. lia. }
        split; [nia|]. split; [nia|]. intros _. nia.
    - exists j. destruct (axB dims n b Hg Hn Hb j Hj) as (A1 & A2 & A3 & A4 & A5). specialize (Hnear j Hj). destruct (HL j Hj ltac:(lia)) as (HL1 & HG). cbv zeta.
      split; [exact Hj|]. split; [lia|]. destruct (Z.ltb_spec 0 (nth j off 0)); [nia|]. destruct (Z.ltb_spec (nth j off 0) (-1)); [nia|lia].
    - left. split.
      + intros i Hi. destruct (axB dims n b Hg Hn Hb i Hi) as (A1 & A2 & A3 & A4 & A5). specialize (Hnear i Hi). specialize (HL i Hi). cbv zeta.
        destruct (Z.ltb_spec 0 (nth i off 0)); [destruct (HL ltac:(lia)); nia|]. destruct (Z.ltb_spec (nth i off 0) (-1)); [destruct (HL ltac:(lia)); nia|].
        destruct (Z.ltb_spec (nth i off 0) 0); [destruct (HL ltac:(lia)); nia|lia].
      + exists j. split; [exact Hj|]. destruct (axB dims n b Hg Hn Hb j Hj) as (A1 & A2 & A3 & A4 & A5). specialize (Hnear j Hj). destruct (HL j Hj ltac:(lia)) as (HL1 & HG). cbv zeta.
        destruct (Z.ltb_spec 0 (nth j off 0)); [nia|]. destruct (Z.ltb_spec (nth j off 0) (-1)); [nia|lia].
  Qed.

  Lemma reach_le off M : (forall k, (k < length off)%nat -> Z.abs (nth k off 0) <= M) -> 0 <= M -> 0 <= reach off <= M.
  Proof using Type.
    unfold reach. clear. intros H HM. assert (K : forall l m, 0 <= m <= M -> (forall x, In x l -> Z.abs x <= M) -> 0 <= fold_left (fun m o => Z.max m (Z.abs o)) l m <= M).
    { induction l as [|x l IH]; intros m Hm Hl; cbn [fold_left]; [exact Hm|]. apply IH; [|intros y Hy; apply Hl; right; exact Hy]. specialize (Hl x (or_introl eq_refl)). lia. }
    apply K; [lia|]. intros x Hx. destruct (In_nth _ _ 0 Hx) as (k & Hk & <-). apply H, Hk.
  Qed.
  Lemma reach_ge off k : Z.abs (nth k off 0) <= reach off.
  Proof using Type.
    unfold reach. clear. assert (K : forall l m, m <= fold_left (fun m o => Z.max m (Z.abs o)) l m /\ forall x, In x l -> Z.abs x <= fold_left (fun m o => Z.max m (Z.abs o)) l m).
    { induction l as [|x l IH]; intros m; cbn [fold_left]; [split; [lia|intros x []]|]. destruct (IH (Z.max m (Z.abs x))) as (I1 & I2). split; [lia|].
      intros y [->|Hy]; [lia|apply I2, Hy]. }
    destruct (K off 0) as (K1 & K2). destruct (Nat.lt_ge_cases k (length off)) as [H|H]; [apply K2, nth_In, H|]. rewrite nth_overflow by exact H. cbn. exact K1.
  Qed.

  (** The first displacement on the side of [off] fixes the width; any bad rank for that width stops the program. *)
  Lemma stops off v ops w0 w : is_map st -> (forall o u, In (o, u) st -> within dims o) ->
    (forall o u i k, In (o, u) st -> (i < nd)%nat -> (k < nd)%nat -> Z.abs (nth k o 0) <= nth i dims 0) ->
    In (off, v) st -> is_zero off = false ->
    (forall o u, In (o, u) st -> side_of o = side_of off -> exists r, bad ar dims n b st x0 x1 (side_of off) (reach o) off r) ->
    cd_build cd_empty n dims = Ok (true, cube_of n dims b 0) ->
    In Apply ops -> world_new ar n dims x0 x1 st = Ok w0 -> FilterProg.run ar ops w0 <> Ok w.
  Proof using Hg Hn Hb.
    intros Hmap Hw Hsh Hin Hz Hbad EB HA E0. destruct (first_reach_first st off v Hmap Hin Hz) as (o1 & v1 & I1 & I2 & I3 & _).
    destruct (Hbad o1 v1 I1 I2) as (r & Hr). assert (L1 : length o1 = nd) by apply (Hw _ _ I1).
    assert (HR : forall i, (i < nd)%nat -> 0 <= reach o1 <= nth i dims 0).
    { intros i Hi. apply reach_le; [intros k Hk; apply (Hsh o1 v1); auto; lia|]. destruct (axB dims n b Hg Hn Hb i Hi); lia. }
    assert (Hnd : (0 < nd)%nat) by (destruct Hg as (H & _); destruct dims; [congruence|cbn; lia]).
    assert (HP : prodZ (wextG dims b (reach o1) (side_of off)) < two31).
    { destruct (Z.eq_dec (reach o1) 0) as [Z0|Z0].
      - assert (X : prodZ (wextG dims b (reach o1) (side_of off)) = 0 \/ 0 < prodZ (wextG dims b (reach o1) (side_of off)) <= prodZ dims); [|destruct Hg as (_ & _ & _ & Hp); change (2 ^ 31) with two31 in Hp; unfold two31 in *; lia].
        right. apply prod_le; [apply vec_length|]. intros i Hi. unfold wextG. rewrite vec_nth by exact Hi. destruct (axB dims n b Hg Hn Hb i Hi) as (A1 & A2 & A3 & A4 & A5).
        assert (Hs : nth i (side_of off) 0 = 0); [|rewrite Hs; cbn; nia]. rewrite <- I2.
        pose proof (map_nth (fun z => - Z.sgn z) o1 0 i) as X. cbn beta in X. unfold side_of. change (- Z.sgn 0) with 0 in X. rewrite X.
        pose proof (reach_ge o1 i). replace (nth i o1 0) with 0 by lia. reflexivity.
      - assert (X : 0 < prodZ (wextG dims b (reach o1) (side_of off)) <= prodZ dims); [|destruct Hg as (_ & _ & _ & Hp); change (2 ^ 31) with two31 in Hp; lia].
        apply prod_le; [apply vec_length|]. intros i Hi. unfold wextG. rewrite vec_nth by exact Hi. destruct (axB dims n b Hg Hn Hb i Hi) as (A1 & A2 & A3 & A4 & A5).
        specialize (HR i Hi). destruct (nth i (side_of off) 0 =? 0); nia. }
    apply (run_bad ar dims n b st x0 x1 Hg Hn Hb (side_of off) (reach o1) r off v ops Hr Hin HA).
    apply (new_static ar dims n b st x0 x1 Hg Hn Hb (side_of off) (reach o1) r w0); auto.
    - intros o u H. apply (proj1 (Hw o u H)).
    - specialize (HR O Hnd). destruct (axB dims n b Hg Hn Hb O Hnd) as (A1 & A2 & A3 & _). unfold two31 in *. lia.
    - apply Hr.
  Qed.
End Diag.

(** ** C35 *)

(** If the overshoots do not add up to zero, no program that calls applyFilter runs through: whatever the number of cells
    per process (one included), the rest of the stencil and the calls made before. *)
Theorem C35_overshoot :
  forall D (ar : arith D) sz dims xmins xmaxs st c off v ops w0 w,
    grid_ok dims -> 1 <= sz <= 2 ^ 30 -> cd_build cd_empty sz dims = Ok (true, c) ->
    is_map st -> (forall o u, In (o, u) st -> within dims o) ->
    (forall o u i k, In (o, u) st -> (i < length dims)%nat -> (k < length dims)%nat -> Z.abs (nth k o 0) <= nth i dims 0) ->
    In (off, v) st -> overshoot (cd_getDecomp c) off <> 0 ->
    In Apply ops -> world_new ar sz dims xmins xmaxs st = Ok w0 -> FilterProg.run ar ops w0 <> Ok w.
Proof.
  intros D ar sz dims x0 x1 st c off v ops w0 w Hg Hn E Hmap Hw Hsh Hin Hov HA E0.
  destruct (cd_build_true cd_empty sz dims c Hg ltac:(unfold two31; lia) E) as (b & Hb & ->). change (cd_getDecomp (cube_of sz dims b 0)) with b in Hov.
  apply (stops ar dims sz b st x0 x1 Hg Hn Hb off v); auto.
  - destruct (is_zero off) eqn:Ez; [|reflexivity]. exfalso. apply Hov. unfold is_zero in Ez. rewrite forallb_forall in Ez.
    assert (Hp : allpos b) by apply (decomp_allpos _ _ _ Hb). clear - Ez Hp. revert off Ez. induction b as [|p l IH]; intros [|o off] Ez; try reflexivity. cbn [overshoot].
    inversion Hp; subst. rewrite IH; [|assumption|intros x Hx; apply Ez; right; exact Hx]. specialize (Ez o (or_introl eq_refl)). replace o with 0 by lia.
    unfold overshoot1. destruct (Z.ltb_spec p 0); [lia|]. destruct (Z.ltb_spec 0 (- p)); lia.
  - intros o u Ho Es. apply overshoot_bad; auto. apply (Hw off v Hin).
Qed.
Print Assumptions C35_overshoot.

(** No overshoot along any axis, displacements no longer than the box of a process, at least two cells per process along
    the axes of the displacement: a component of two or more cells stops every program that calls applyFilter. *)
Theorem C35_long_diagonal :
  forall D (ar : arith D) sz dims xmins xmaxs st c off v j ops w0 w,
    grid_ok dims -> 1 <= sz <= 2 ^ 30 -> cd_build cd_empty sz dims = Ok (true, c) ->
    is_map st -> (forall o u, In (o, u) st -> within dims o) ->
    (forall o u i k, In (o, u) st -> (i < length dims)%nat -> (k < length dims)%nat -> Z.abs (nth k o 0) * nth i (cd_getDecomp c) 0 <= nth i dims 0) ->
    In (off, v) st -> (forall i, (i < length dims)%nat -> Z.abs (nth i off 0) <= nth i (cd_getDecomp c) 0) ->
    (forall i, (i < length dims)%nat -> nth i off 0 <> 0 -> 2 * nth i (cd_getDecomp c) 0 <= nth i dims 0) ->
    (j < length dims)%nat -> 2 <= Z.abs (nth j off 0) ->
    In Apply ops -> world_new ar sz dims xmins xmaxs st = Ok w0 -> FilterProg.run ar ops w0 <> Ok w.
Proof.
  intros D ar sz dims x0 x1 st c off v j ops w0 w Hg Hn E Hmap Hw Hsh Hin Hnear HL Hj Ho HA E0.
  destruct (cd_build_true cd_empty sz dims c Hg ltac:(unfold two31; lia) E) as (b & Hb & ->). change (cd_getDecomp (cube_of sz dims b 0)) with b in *.
  apply (stops ar dims sz b st x0 x1 Hg Hn Hb off v); auto.
  - intros o u i k Hi Hi' Hk. specialize (Hsh o u i k Hi Hi' Hk). destruct (axB dims sz b Hg Hn Hb i Hi'). nia.
  - unfold is_zero. destruct (forallb (Z.eqb 0) off) eqn:Ez; [|reflexivity]. exfalso. rewrite forallb_forall in Ez.
    destruct (Nat.lt_ge_cases j (length off)) as [H|H]; [|rewrite nth_overflow in Ho by exact H; cbn in Ho; lia]. specialize (Ez _ (nth_In off 0 H)). lia.
  - intros o u Hi Es. apply (near_bad ar dims sz b st x0 x1 Hg Hn Hb _ _ off j); auto; [apply (Hw off v Hin)|].
    intros i Hi' Hne. destruct (axB dims sz b Hg Hn Hb i Hi') as (A1 & A2 & A3 & A4 & A5). split; [specialize (HL i Hi' Hne); nia|]. split.
    + assert (Hs : Z.sgn (nth i o 0) = Z.sgn (nth i off 0)).
      { pose proof (map_nth (fun z => - Z.sgn z) o 0 i) as X. pose proof (map_nth (fun z => - Z.sgn z) off 0 i) as Y. cbn beta in *.
        unfold side_of in Es. rewrite Es in X. change (- Z.sgn 0) with 0 in *. lia. }
      pose proof (reach_ge o i). destruct (Z.sgn_spec (nth i o 0)), (Z.sgn_spec (nth i off 0)); lia.
    + apply reach_le; [|lia]. intros k Hk. rewrite (proj1 (Hw o u Hi)) in Hk. specialize (Hsh o u i k Hi Hi' Hk). nia.
Qed.
Print Assumptions C35_long_diagonal.

(** Displacements no longer than the box of a process, boxes of at least two cells along each axis, overshoots that do not
    cancel: applyFilter works exactly if all the components are 1, 0 and -1 and the stencil is sound in the sense of C71. *)
Theorem C35_exactly_unit :
  forall D (ar : arith D) sz dims xmins xmaxs st c G,
    grid_ok dims -> 1 <= sz <= 2 ^ 30 -> cd_build cd_empty sz dims = Ok (true, c) ->
    is_map st -> (forall o u, In (o, u) st -> within dims o) ->
    (forall o u i k, In (o, u) st -> (i < length dims)%nat -> (k < length dims)%nat -> Z.abs (nth k o 0) * nth i (cd_getDecomp c) 0 <= nth i dims 0) ->
    (forall o u, In (o, u) st -> overshoot (cd_getDecomp c) o = 0 -> forall i, (i < length dims)%nat -> Z.abs (nth i o 0) <= nth i (cd_getDecomp c) 0) ->
    (forall j, (j < length dims)%nat -> 2 * nth j (cd_getDecomp c) 0 <= nth j dims 0) ->
    ((exists w0 w, world_new ar sz dims xmins xmaxs st = Ok w0 /\ FilterProg.run ar [SetByIndices G; Apply] w0 = Ok w) <->
     unit_stencil dims st /\ sound_stencil dims (cd_getDecomp c) st).
Proof.
  intros D ar sz dims x0 x1 st c G Hg Hn E Hmap Hw Hsh Hov HL. split.
  - intros (w0 & w & E0 & E1).
    assert (HU : unit_stencil dims st).
    { split; [exact Hmap|]. intros o u Hin. destruct (Hw o u Hin) as (L & _). split; [exact L|]. intros j Hj.
      destruct (Z_le_gt_dec (Z.abs (nth j o 0)) 1) as [H|H]; [lia|]. exfalso.
      assert (HA : In Apply [SetByIndices G; Apply]) by (right; left; reflexivity).
      destruct (Z.eq_dec (overshoot (cd_getDecomp c) o) 0) as [O0|O0].
      - apply (C35_long_diagonal D ar sz dims x0 x1 st c o u j [SetByIndices G; Apply] w0 w); auto; [|lia]. apply (Hov o u Hin O0).
      - apply (C35_overshoot D ar sz dims x0 x1 st c o u [SetByIndices G; Apply] w0 w); auto.
        intros o' u' i k Hi Hi' Hk. specialize (Hsh o' u' i k Hi Hi' Hk).
        destruct (cd_build_true cd_empty sz dims c Hg ltac:(unfold two31; lia) E) as (b & Hb & ->). change (cd_getDecomp (cube_of sz dims b 0)) with b in *.
        destruct (axB dims sz b Hg Hn Hb i Hi'). nia. }
    split; [exact HU|]. destruct (C71_apply D ar sz dims x0 x1 st c G Hg Hn E HU) as (w0' & w1 & E0' & E1' & _ & Hno).
    rewrite E0 in E0'. inversion E0'; subst w0'. unfold FilterProg.run in E1. cbn [for_each run_op] in E1. rewrite E1' in E1. cbn [bind] in E1.
    destruct (cd_build_true cd_empty sz dims c Hg ltac:(unfold two31; lia) E) as (b & Hb & ->).
    destruct (sound_st_dec dims b st (proj2 HU)) as [H|(o & u & Hin & H)]; [exact H|]. exfalso. rewrite Hno in E1; [discriminate|].
    intros X. apply H, (X o u Hin).
  - intros (HU & HS). destruct (C71_apply D ar sz dims x0 x1 st c G Hg Hn E HU) as (w0 & w1 & E0 & E1 & Hok & _).
    destruct (Hok HS) as (w2 & E2 & _). exists w0, w2. split; [exact E0|]. unfold FilterProg.run. cbn [for_each run_op]. rewrite E1. cbn [bind]. rewrite E2. reflexivity.
Qed.
Print Assumptions C35_exactly_unit.

(** ** Examples *)

(** A single process and the displacement (2, 1): overshoot 1 of rank 0, rank 1 does not exist. *)
Example ex_overshoot :
  exists c, cd_build cd_empty 1 [4; 4] = Ok (true, c) /\ overshoot (cd_getDecomp c) [2; 1] = 1 /\
    (forall o u i k, In (o, u) [([2; 1], 1)] -> (i < 2)%nat -> (k < 2)%nat -> Z.abs (nth k o 0) <= nth i [4; 4] 0) /\
    go 1 [4; 4] [([2; 1], 1)] = Undef MpiBadRank.
Proof.
  eexists. split; [vm_compute; reflexivity|]. split; [vm_compute; reflexivity|]. split; [|vm_compute; reflexivity].
  intros o u i k [H|[]] Hi Hk. inversion H; subst. destruct i as [|[|i]], k as [|[|k]]; cbn; lia.
Qed.

(** Four processes, knight's move: no overshoot, every box has 4 x 4 cells. *)
Example ex_knight :
  exists c, cd_build cd_empty 4 [8; 8] = Ok (true, c) /\ cd_getDecomp c = [2; 2] /\ overshoot [2; 2] [2; -1] = 0 /\ is_map [([2; -1], 1)] /\ within [8; 8] [2; -1] /\
    (exists w0, world_new arZ 4 [8; 8] [0; 0] [1; 1] [([2; -1], 1)] = Ok w0) /\ exists u, go 4 [8; 8] [([2; -1], 1)] = Undef u.
Proof.
  eexists. split; [vm_compute; reflexivity|]. split; [reflexivity|]. split; [reflexivity|]. split; [repeat constructor|]. split.
  { split; [reflexivity|]. intros [|[|i]] Hi; cbn in *; lia. }
  split; eexists; vm_compute; reflexivity.
Qed.

(** One cell per process: the overshoot of C35_overshoot. *)
Example ex_one_cell_overshoot : overshoot [4] [5] = 1 /\ go 4 [4] [([1], 1); ([4], 1)] <> Undef MpiBadRank /\ overshoot [1; 4] [1; -5] = -1.
Proof. split; [reflexivity|]. split; [vm_compute; discriminate|reflexivity]. Qed.

(** Overshoots that cancel: one process, (2, -2).  The rank asked for is 0, every target is inside the local domain, and
    on extents that are powers of two even the result is right. *)
Example ex_cancel : overshoot [1; 1] [2; -2] = 0 /\
  go 1 [4; 4] [([2; -2], 1)] = Ok [map (fun g => 100 * ((nth 0 g 0 + 2) mod 4) + (nth 1 g 0 - 2) mod 4)
    (List.concat (map (fun j => map (fun i => [i; j]) [0; 1; 2; 3]) [0; 1; 2; 3]))].
Proof. split; vm_compute; reflexivity. Qed.
