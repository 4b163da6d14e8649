(** * Proofs for C35: displacements of two or more cells along one axis *)
From Coq Require Import Sorted Permutation.
From Verif Require Import Cpp CppProof OMap MaiModel MaiSpec Radix MaiProof CdModel CdSpec CdProof FilterModel FilterSpec
  FilterProof FilterRank FilterWorld FilterProg FilterProps WrapProof MpiSchedModel MpiSchedFilter LeakProps.
Local Open Scope Z_scope.
Local Arguments prodZ : simpl never.
Local Arguments Z.of_nat : simpl never.

(** ** Iterators over boxes given modulo 2^64 *)
Definition mai_mod (lo hi : list Z) : mai :=
  mkMai (map u64 lo) (map u64 hi) (extents lo hi) (map u64 (strd false (extents lo hi))) false (u64 (prodZ (extents lo hi))) (vlen lo) 0.

Lemma u64_sub_both a c : u64 (u64 a - u64 c) = u64 (a - c).
Proof. unfold u64. rewrite <- Zminus_mod. reflexivity. Qed.
Lemma u64_sub_r a c : u64 (a - u64 c) = u64 (a - c).
Proof. unfold u64. rewrite Zminus_mod_idemp_r. reflexivity. Qed.

Lemma mai_build_mod lo hi :
  length lo = length hi -> lo <> [] -> vlen lo < 2 ^ 31 ->
  (forall i, (i < length lo)%nat -> 0 <= nth i hi 0 - nth i lo 0 < two64) ->
  mai_build (map u64 lo) (map u64 hi) false = Ok (mai_mod lo hi).
Proof.
  intros Hl Hne Hn Hb. unfold mai_build.
  assert (EL : vlen (map u64 lo) = vlen (extents lo hi)) by (unfold vlen; rewrite map_length, extents_length by exact Hl; reflexivity).
  assert (E : mai_extents (map u64 lo) (map u64 hi) = Ok (extents lo hi)).
  { unfold mai_extents. apply (tab_eq (extents lo hi)); [exact EL|]. intros j Hj. rewrite extents_length in Hj by exact Hl.
    rewrite (vget_nat _ j 0) by (rewrite map_length; lia). cbn [bind]. rewrite (vget_nat _ j 0) by (rewrite map_length; lia). cbn [bind].
    rewrite !map_u64_nth by lia. rewrite u64_sub_both, extents_nth by assumption. f_equal. apply u64_id, Hb, Hj. }
  rewrite E. cbn [bind]. rewrite mai_ntot_eq by exact EL. cbn [bind].
  assert (Ee : extents lo hi <> []).
  { intros H. apply Hne. apply length_zero_iff_nil. rewrite <- (extents_length lo hi Hl), H. reflexivity. }
  rewrite mai_dimProd_eq; [|exact EL|exact Ee|unfold vlen in *; rewrite map_length; exact Hn]. cbn [bind].
  unfold mai_mod. replace (vlen (map u64 lo)) with (vlen lo) by (unfold vlen; rewrite map_length; reflexivity). reflexivity.
Qed.

Lemma mai_big_mod lo hi v :
  length lo = length hi -> length v = length lo ->
  mai_computeBig (mai_mod lo hi) v = Ok (u64 (dot (strd false (extents lo hi)) (vsub v lo))).
Proof.
  intros Hl Hv. pose proof (extents_length lo hi Hl) as HL.
  unfold mai_computeBig, mai_mod. cbn [m_ndims m_lo m_dimProd].
  set (S' := strd false (extents lo hi)). set (W := vsub v lo).
  assert (HS : length S' = length lo) by (unfold S'; rewrite strd_length; exact HL).
  assert (HW : length W = length lo) by (unfold W; rewrite vsub_length; exact Hv).
  match goal with |- for_upto ?c ?bd ?s = _ =>
    destruct (for_upto_inv (fun i bi => bi = u64 (dot (firstn i S') (firstn i W))) bd c s)
      as (t & -> & Ht) end.
  - reflexivity.
  - intros i s Hi ->. unfold vlen in Hi. rewrite Nat2Z.id in Hi.
    rewrite (vget_nat _ i 0) by (rewrite map_length; lia). cbn [bind]. rewrite (vget_nat v i 0) by lia. cbn [bind].
    rewrite (vget_nat _ i 0) by (rewrite map_length; lia). cbn [bind]. eexists; split; [reflexivity|].
    rewrite !map_u64_nth by lia. rewrite u64_sub_r, u64_add_l. rewrite <- u64_add_r, u64_mul_r, u64_mul_l, u64_add_r.
    rewrite dot_firstn_S by lia. f_equal. f_equal. f_equal. unfold W. rewrite vsub_nth by lia. reflexivity.
  - unfold vlen in Ht. rewrite Nat2Z.id in Ht. rewrite !firstn_all2 in Ht by lia. subst. reflexivity.
Qed.

(** ** One step along an axis of the process grid, as the code takes it *)
Definition step1 (x n : Z) : Z := if x <? 0 then x + n else if n <=? x then x - n else x.

Lemma step_once x n :
  0 < n <= 2 ^ 30 -> - two31 <= x < two31 ->
  (let off := i32 (u64 x) in
   if off <? 0 then i32 (u64 (u64 off + n))
   else if n <=? u64 off then i32 (u64 (u64 off - n)) else off) = step1 x n.
Proof.
  intros Hn Hx. change (2 ^ 30) with 1073741824 in Hn.
  assert (E64 : forall y, - two31 <= y < two31 -> i32 (u64 y) = y).
  { intros y Hy. unfold i32, u64. rewrite <- (Zplus_mod_idemp_l (y mod two64)).
    rewrite <- (Znumtheory.Zmod_div_mod two32 two64 y); [|reflexivity|reflexivity|exists two32; reflexivity].
    rewrite Zplus_mod_idemp_l. fold (i32 y). apply i32_id. exact Hy. }
  cbv zeta. rewrite (E64 x Hx). unfold step1. unfold two31 in *. destruct (Z.ltb_spec x 0).
  - rewrite u64_add_l. apply E64. lia.
  - rewrite (u64_id x) by (unfold two64; lia). destruct (Z.leb_spec n x); [|reflexivity]. apply E64. lia.
Qed.

Section Reach.
  Context {D : Type} (ar : arith D).
  Context (dims : list Z) (n : Z) (b : list Z) (st : list (list Z * D)) (x0 x1 : list D).
  Hypothesis Hg : grid_ok dims.
  Hypothesis Hn : 1 <= n <= 2 ^ 30.
  Hypothesis Hb : is_decomp n dims b.
  Implicit Types f : filter D.

  Notation blo := (beg_of dims b).
  Notation bhi := (end_of dims b).
  Notation nd := (length dims).
  Notation Lo i := (nth i (local_dims dims b) 0).
  Notation B i := (nth i b 0).

  Lemma axB i : (i < nd)%nat -> 0 < B i <= nth i dims 0 /\ B i <= 2 ^ 30 /\ nth i dims 0 < two31 /\ 0 < Lo i /\ Lo i * B i = nth i dims 0.
  Proof using Hg Hn Hb.
    intros Hi. pose proof (local_dims_mul n dims b i Hb Hi) as E.
    pose proof (proj1 (allpos_nth _) (local_dims_pos n dims b Hg Hb) i ltac:(rewrite local_dims_length by apply Hb; exact Hi)).
    pose proof (grid_dim_range dims i Hg Hi). pose proof (prodZ_ge b i (decomp_allpos _ _ _ Hb) ltac:(destruct Hb as (-> & _); exact Hi)) as Hle.
    destruct Hb as (_ & H2 & H3). destruct (H2 i Hi) as (H4 & _). split; [nia|]. split; [lia|]. split; [unfold two31 in *; lia|]. split; [lia|]. lia.
  Qed.

  (** Displacements that do not leave the grid twice. *)
  Definition fits (off : list Z) : Prop := length off = nd /\ forall i, (i < nd)%nat -> Z.abs (nth i off 0) <= Z.min (nth i dims 0) (2 ^ 30).

  Definition steps (c off : list Z) : list Z := vec nd (fun i => step1 (nth i c 0 + nth i off 0) (B i)).

  Lemma steps_bound c off i : digit_vec b c -> fits off -> (i < nd)%nat -> - nth i dims 0 < nth i (steps c off) 0 < nth i dims 0.
  Proof using Hg Hn Hb.
    intros (C1 & C2) (O1 & O2) Hi. unfold steps. rewrite vec_nth by exact Hi. unfold step1. destruct (axB i Hi) as (A1 & A2 & A3 & A4 & A5).
    specialize (C2 i ltac:(destruct Hb as (-> & _); exact Hi)). specialize (O2 i Hi).
    destruct (Z.ltb_spec (nth i c 0 + nth i off 0) 0); [lia|]. destruct (Z.leb_spec (B i) (nth i c 0 + nth i off 0)); lia.
  Qed.

  Lemma flat_steps c off : digit_vec b c -> fits off -> - two31 < dot (strides b) (steps c off) < two31.
  Proof using Hg Hn Hb.
    intros Hc Ho. assert (H : - prodZ dims < dot (strides b) (steps c off) < prodZ dims).
    { apply strides_bound; [apply Hb|apply vec_length|]. intros j Hj. split; [destruct (axB j Hj); lia|]. apply steps_bound; assumption. }
    destruct Hg as (_ & _ & _ & Hp). unfold two31. change (2 ^ 31) with 2147483648 in Hp. lia.
  Qed.

  Lemma coords_digit rk : digit_vec b (coords b rk).
  Proof using Hb. apply digits_digit_vec. apply (decomp_allpos _ _ _ Hb). Qed.

  Lemma nbrank_gen k rk off : fits off ->
    cd_getNeighborRank (cube_of n dims b k) rk off = Ok (dot (strides b) (steps (coords b (u64 rk)) off), cube_of n dims b (u64 rk)).
  Proof using Hg Hn Hb.
    intros Hf. pose proof (n31 dims n b Hg Hn Hb) as Hn'. destruct (decomp_box n dims b Hg Hn' Hb) as [Hbox Hext].
    assert (Hl : length b = nd) by apply Hb. pose proof (coords_digit (u64 rk)) as Hc.
    pose proof (flat_steps _ off Hc Hf) as HF.
    unfold cd_getNeighborRank. rewrite cd_moveTo_of by auto. cbn [bind].
    change (c_ndims (cube_of n dims b k)) with (vlen dims). change (c_decomp (cube_of n dims b k)) with b.
    set (c := coords b (u64 rk)) in *.
    rewrite (tab_eq (steps c off)).
    - cbn [bind]. unfold cube_of at 1. cbn [c_mit]. unfold mai_computeBigIndex_int.
      rewrite mai_computeBig_of; [|exact Hbox|rewrite repeat_length; apply vec_length].
      cbn [bind]. rewrite Hext, vsub_zeros by apply vec_length. cbn [strd].
      rewrite WrapProof.i32_u64 by exact HF. rewrite i32_id by lia. reflexivity.
    - unfold vlen. unfold steps. rewrite vec_length. reflexivity.
    - intros j Hj. unfold steps in Hj. rewrite vec_length in Hj. destruct Hf as (O1 & O2). destruct Hc as (C1 & C2).
      rewrite (vget_nat c j 0) by lia. cbn [bind]. rewrite (vget_nat off j 0) by lia. cbn [bind]. rewrite u64_add_r.
      rewrite (vget_nat b j 0) by lia. cbn [bind]. f_equal. unfold steps. rewrite vec_nth by exact Hj.
      destruct (axB j Hj) as (A1 & A2 & A3 & A4 & A5). specialize (C2 j ltac:(lia)). specialize (O2 j Hj).
      change (2 ^ 30) with 1073741824 in *. apply step_once; change (2 ^ 30) with 1073741824; [lia|]. unfold two31 in *. lia.
  Qed.

  (** ** Layers of G cells *)
  Definition wloG (G r : Z) (s : list Z) : list Z := vec nd (fun i => if 0 <? nth i s 0 then nth i (bhi r) 0 - G else nth i (blo r) 0).
  Definition whiG (G r : Z) (s : list Z) : list Z := vec nd (fun i => if nth i s 0 <? 0 then nth i (blo r) 0 + G else nth i (bhi r) 0).
  Definition wextG (G : Z) (s : list Z) : list Z := vec nd (fun i => if nth i s 0 =? 0 then Lo i else G).

  Lemma winG_extents G r s : extents (wloG G r s) (whiG G r s) = wextG G s.
  Proof using Hg Hn Hb.
    assert (L1 : length (wloG G r s) = nd) by apply vec_length. assert (L2 : length (whiG G r s) = nd) by apply vec_length.
    apply (nth_ext' 0); [rewrite extents_length by lia; rewrite L1; symmetry; apply vec_length|].
    intros j Hj. rewrite extents_length in Hj by lia. rewrite L1 in Hj. rewrite extents_nth by lia. unfold wloG, whiG, wextG. rewrite !vec_nth by exact Hj.
    pose proof (box_extents dims n b Hg Hn Hb r) as E. apply (f_equal (fun l => nth j l 0)) in E.
    rewrite extents_nth in E by (rewrite ?(blo_length dims n b), ?(bhi_length dims n b); auto).
    destruct (Z.ltb_spec 0 (nth j s 0)), (Z.ltb_spec (nth j s 0) 0), (Z.eqb_spec (nth j s 0) 0); lia.
  Qed.

  (** The members that stay after construction, for one side [s] with layers of [G] cells. *)
  Definition ghosts f (s : list Z) : Z := match omap_find lexcmp s (f_winNumGhosts f) with Some g => g | None => 0 end.
  Record base (r : Z) f : Prop := mkBase {
    ba_const : const f = (r, n, vlen dims, dims, x0, x1, true);
    ba_st : f_stencil f = st;
    ba_lo : f_lo f = blo r;
    ba_hi : f_hi f = bhi r;
    ba_dcmp : exists k, f_dcmp f = cube_of n dims b k;
    ba_mit : exists k, f_mit f = Some (mai_of (blo r) (bhi r) false k) }.

  Lemma base_dcmp r f k : base r f -> base r (set_dcmp f (cube_of n dims b k)).
  Proof using Type. intros []. split; try assumption. exists k. reflexivity. Qed.

  Lemma windowIter_form r f rk s m f' : base r f -> filter_getWindowIter f rk s = Ok (m, f') -> f' = set_dcmp f (cube_of n dims b (u64 rk)).
  Proof using Hg Hn Hb.
    intros [_ _ _ _ (k & Ek) _] E. unfold filter_getWindowIter in E. rewrite Ek in E. pose proof (n31 dims n b Hg Hn Hb).
    rewrite cd_getBegIndices_of in E by auto. cbn [bind] in E. rewrite cd_getEndIndices_of in E by auto. cbn [bind] in E.
    apply bind_ok in E as ((lo & hi) & _ & E). apply bind_ok in E as (m' & _ & E). inversion E. reflexivity.
  Qed.

  Lemma windowIter_G r f rk s : base r f -> length s = nd -> 0 <= rk < n -> 0 <= ghosts f s < two31 ->
    filter_getWindowIter f rk s = Ok (mai_mod (wloG (ghosts f s) rk s) (whiG (ghosts f s) rk s), set_dcmp f (cube_of n dims b rk)).
  Proof using Hg Hn Hb.
    intros [Ec _ Elo Ehi (k & Ek) _] Hs Hr HG. unfold filter_getWindowIter. rewrite Ek. pose proof (n31 dims n b Hg Hn Hb) as Hn'.
    rewrite cd_getBegIndices_of by auto. cbn [bind]. rewrite cd_getEndIndices_of by auto. cbn [bind]. fold (ghosts f s). set (G := ghosts f s) in *.
    rewrite u64_id by (unfold two64, two31 in *; lia). assert (End : f_ndims f = vlen dims) by (unfold const in Ec; congruence). rewrite End.
    pose proof (blo_length dims n b Hg Hn Hb rk) as Ebl. pose proof (bhi_length dims n b Hg Hn Hb rk) as Ebh.
    pose proof (blo_length dims n b Hg Hn Hb r) as Ebl0. pose proof (bhi_length dims n b Hg Hn Hb r) as Ebh0.
    match goal with |- context [for_upto (vlen dims) ?bd ?i] => set (body := bd); set (i0 := i) end.
    destruct (for_upto_inv (fun i (p : list Z * list Z) =>
      length (fst p) = nd /\ length (snd p) = nd /\
      (forall j, (j < nd)%nat -> nth j (fst p) 0 = if Nat.ltb j i then u64 (nth j (wloG G rk s) 0) else nth j (blo rk) 0) /\
      (forall j, (j < nd)%nat -> nth j (snd p) 0 = if Nat.ltb j i then u64 (nth j (whiG G rk s) 0) else nth j (bhi rk) 0))
      body (vlen dims) i0) as ([l h] & E & L1 & L2 & L3 & L4).
    - unfold i0; simpl. auto.
    - unfold vlen. rewrite Nat2Z.id. intros i [l h] Hi (L1 & L2 & L3 & L4). cbn [fst snd] in L1, L2, L3, L4. unfold body.
      rewrite (vget_nat s i 0) by lia. cbn [bind].
      pose proof (box_in_grid n dims b rk i Hg Hb Hi) as HB. pose proof (grid_dim_range dims i Hg Hi) as HD.
      assert (Hkeep : (forall j, (j < nd)%nat -> j <> i -> Nat.ltb j (Datatypes.S i) = Nat.ltb j i)).
      { intros j Hj Hne. destruct (Nat.ltb_spec j i), (Nat.ltb_spec j (Datatypes.S i)); auto; lia. }
      assert (HSi : Nat.ltb i (Datatypes.S i) = true) by (apply Nat.ltb_lt; lia).
      pose proof (L3 i Hi) as L3i. pose proof (L4 i Hi) as L4i. rewrite Nat.ltb_irrefl in L3i, L4i.
      assert (EW : nth i (wloG G rk s) 0 = if 0 <? nth i s 0 then nth i (bhi rk) 0 - G else nth i (blo rk) 0)
        by (unfold wloG; rewrite vec_nth; auto).
      assert (EH : nth i (whiG G rk s) 0 = if nth i s 0 <? 0 then nth i (blo rk) 0 + G else nth i (bhi rk) 0)
        by (unfold whiG; rewrite vec_nth; auto).
      assert (U1 : u64 (nth i (blo rk) 0) = nth i (blo rk) 0) by (apply u64_id; unfold two31, two64 in *; lia).
      assert (U2 : u64 (nth i (bhi rk) 0) = nth i (bhi rk) 0) by (apply u64_id; unfold two31, two64 in *; lia).
      destruct (Z.eqb_spec (nth i s 0) 0) as [Hz|Hz]; cbn [negb].
      + rewrite Ehi, Elo.
        rewrite (vget_nat (bhi r) i 0) by lia. cbn [bind]. rewrite (vget_nat (blo r) i 0) by lia. cbn [bind].
        eexists. split; [reflexivity|]. cbn [fst snd]. split; [auto|]. split; [auto|].
        rewrite Hz in EW, EH. simpl in EW, EH.
        split; intros j Hj; (destruct (Nat.eq_dec j i) as [->|Hne]; [rewrite HSi; congruence|rewrite Hkeep by auto; auto]).
      + destruct (Z.ltb_spec (nth i s 0) 0) as [Hneg|Hpos].
        * rewrite (vget_nat l i 0) by lia. cbn [bind]. rewrite vset_nat by lia. cbn [bind].
          eexists. split; [reflexivity|]. cbn [fst snd]. split; [auto|]. split; [rewrite upd_length; auto|].
          replace (0 <? nth i s 0) with false in EW by (symmetry; apply Z.ltb_ge; lia).
          split; intros j Hj.
          -- destruct (Nat.eq_dec j i) as [->|Hne]; [rewrite HSi; congruence|rewrite Hkeep by auto; auto].
          -- rewrite upd_nth by lia. destruct (Nat.eqb_spec j i) as [->|Hne]; [|rewrite Hkeep by auto; auto].
             rewrite HSi, EH, L3i. reflexivity.
        * rewrite (vget_nat h i 0) by lia. cbn [bind]. rewrite vset_nat by lia. cbn [bind].
          eexists. split; [reflexivity|]. cbn [fst snd]. split; [rewrite upd_length; auto|]. split; [auto|].
          replace (0 <? nth i s 0) with true in EW by (symmetry; apply Z.ltb_lt; lia).
          split; intros j Hj.
          -- rewrite upd_nth by lia. destruct (Nat.eqb_spec j i) as [->|Hne]; [|rewrite Hkeep by auto; auto].
             rewrite HSi, EW, L4i. reflexivity.
          -- destruct (Nat.eq_dec j i) as [->|Hne]; [rewrite HSi; congruence|rewrite Hkeep by auto; auto].
    - rewrite E. cbn [bind]. unfold vlen in L3, L4. rewrite Nat2Z.id in L3, L4. cbn [fst snd] in L1, L2, L3, L4.
      assert (El : l = map u64 (wloG G rk s)).
      { apply (nth_ext' 0); [rewrite map_length; unfold wloG; rewrite vec_length; auto|]. intros j Hj. rewrite L3 by lia.
        rewrite map_u64_nth by (unfold wloG; rewrite vec_length; lia).
        replace (Nat.ltb j nd) with true by (symmetry; apply Nat.ltb_lt; lia). reflexivity. }
      assert (Eh : h = map u64 (whiG G rk s)).
      { apply (nth_ext' 0); [rewrite map_length; unfold whiG; rewrite vec_length; auto|]. intros j Hj. rewrite L4 by lia.
        rewrite map_u64_nth by (unfold whiG; rewrite vec_length; lia).
        replace (Nat.ltb j nd) with true by (symmetry; apply Nat.ltb_lt; lia). reflexivity. }
      rewrite El, Eh. pose proof (nd_range dims n b Hg Hn Hb) as Hnd. rewrite mai_build_mod; [reflexivity|unfold wloG, whiG; rewrite !vec_length; reflexivity| | |].
      + intros H. apply (f_equal (@length Z)) in H. unfold wloG in H. rewrite vec_length in H. cbn [length] in H. lia.
      + unfold vlen, wloG. rewrite vec_length. unfold two31 in Hnd. lia.
      + intros i Hi. unfold wloG in Hi. rewrite vec_length in Hi. pose proof (winG_extents G rk s) as EX. apply (f_equal (fun l => nth i l 0)) in EX.
        rewrite extents_nth in EX by (unfold wloG, whiG; rewrite !vec_length; auto). rewrite EX. unfold wextG. rewrite vec_nth by exact Hi.
        destruct (axB i Hi) as (A1 & A2 & A3 & A4 & A5). destruct (nth i s 0 =? 0); unfold two31, two64 in *; nia.
  Qed.

  (** ** Construction *)
  (** The number of layers of a side is that of the first displacement that uses it. *)
  Definition reach (off : list Z) : Z := fold_left (fun m o => Z.max m (Z.abs o)) off 0.
  Fixpoint first_reach (l : list (list Z)) (s : list Z) : option Z :=
    match l with
    | [] => None
    | off :: l => if list_eq_dec Z.eq_dec (side_of off) s then Some (reach off) else first_reach l s
    end.

  Lemma ghosts_reach off g : filter_getNumberOfGhostsFromOffset off = Ok g -> g = reach off.
  Proof using Type.
    unfold filter_getNumberOfGhostsFromOffset, reach. assert (H : forall l m g, 0 <= m -> for_each l (fun o numGhosts => a <- int_op (Z.abs o) ;;
      (let absOffset := u64 a in Ok (if numGhosts <? absOffset then absOffset else numGhosts))) m = Ok g -> g = fold_left (fun m o => Z.max m (Z.abs o)) l m).
    { clear. induction l as [|o l IH]; intros m g Hm E; cbn [for_each fold_left] in *; [congruence|]. apply bind_ok in E as (m1 & E1 & E).
      apply bind_ok in E1 as (a & Ea & E1). unfold int_op in Ea. destruct (int_range (Z.abs o)) eqn:Er; [|discriminate]. inversion Ea; subst a. clear Ea.
      apply int_range_spec in Er. rewrite u64_id in E1 by (unfold two31, two64 in *; lia). cbv zeta in E1.
      assert (m1 = Z.max m (Z.abs o)) by (destruct (Z.ltb_spec m (Z.abs o)); inversion E1; lia). subst m1. apply IH; [lia|exact E]. }
    apply H. lia.
  Qed.

  Record made (s : list Z) (l : list (list Z)) f : Prop := mkMade {
    ma_sorted : osorted lexcmp (f_winNumGhosts f) /\ osorted lexcmp (f_winData f) /\ osorted lexcmp (f_winIds f);
    ma_ghosts : omap_find lexcmp s (f_winNumGhosts f) = first_reach l s;
    ma_none : first_reach l s = None -> omap_find lexcmp s (f_winData f) = None;
    ma_ids : first_reach l s <> None -> exists i, omap_find lexcmp s (f_winIds f) = Some i;
    ma_data : forall G, first_reach l s = Some G -> 0 <= G < two31 -> prodZ (wextG G s) < two31 ->
      exists src dst, omap_find lexcmp s (f_winData f) = Some (src, dst) /\ vlen dst = prodZ (wextG G s) }.

  Lemma first_reach_snoc l off s : first_reach (l ++ [off]) s =
    match first_reach l s with Some G => Some G | None => if list_eq_dec Z.eq_dec (side_of off) s then Some (reach off) else None end.
  Proof using Type.
    induction l as [|a l IH]; cbn [app first_reach]; [reflexivity|]. destruct (list_eq_dec Z.eq_dec (side_of a) s); [reflexivity|exact IH].
  Qed.

  Lemma wextG_pos G s : 0 <= G -> 0 <= prodZ (wextG G s).
  Proof using Hg Hn Hb.
    intros HG. apply prodZ_nn. apply Forall_forall. intros x Hx. unfold wextG, vec in Hx. apply in_map_iff in Hx as (i & <- & Hi). apply in_seq in Hi.
    destruct (axB i ltac:(lia)) as (A1 & A2 & A3 & A4 & A5). destruct (nth i s 0 =? 0); lia.
  Qed.

  Lemma ctor_step_made s r l0 off v f f' : base r f -> 0 <= r < n -> length off = nd -> made s l0 f -> ctor_step (off, v) f = Ok f' ->
    base r f' /\ made s (l0 ++ (if is_zero off then [] else [off])) f'.
  Proof using Hg Hn Hb.
    intros HB Hr HL HM E. pose proof (nd_range dims n b Hg Hn Hb) as Hnd. unfold ctor_step in E. cbn [fst] in E.
    assert (HZ : (filter_getNumberOfNonZeroElements off =? 0) = is_zero off).
    { destruct (nonzero_dec off) as [H|H]; [exact H|]. unfold vlen in H. rewrite HL in H. lia. }
    rewrite HZ in E. destruct (is_zero off) eqn:Ez; [inversion E; subst; rewrite app_nil_r; auto|].
    apply bind_ok in E as (side & Es & E). apply bind_ok in E as (g & Eg & E). apply ghosts_reach in Eg. subst g.
    assert (End : f_ndims f = vlen dims) by (pose proof (ba_const _ _ HB) as H; unfold const in H; congruence).
    assert (Erk : f_rk f = r) by (pose proof (ba_const _ _ HB) as H; unfold const in H; congruence).
    apply getSide_sign in Es; [|rewrite End; unfold vlen; rewrite Nat2Z.id; exact HL]. subst side.
    set (f1 := set_ghosts f (omap_insert lexcmp (side_of off) (reach off) (f_winNumGhosts f))) in *.
    assert (HB1 : base r f1) by (destruct HB; split; assumption).
    unfold filter_newWindow in E. apply bind_ok in E as ((sit & f2) & Ew & E).
    pose proof (windowIter_form r f1 _ _ _ _ HB1 Ew) as E2. change (f_rk f1) with (f_rk f) in *. rewrite Erk in *.
    assert (HB2 : base r f2) by (rewrite E2; apply base_dcmp, HB1).
    destruct (Z.ltb_spec (i32 (mai_getNumberOfTerms sit)) 0) as [|Hn0]; [discriminate|]. inversion E as [E']. clear E.
    split; [destruct HB2; split; assumption|]. rewrite E2 in *. clear E2 f2 HB2 E'.
    destruct HM as [(S1 & S2 & S3) M2 M3 M4 M5].
    split; cbn [set_ids set_win set_dcmp f_winNumGhosts f_winData f_winIds f1 set_ghosts].
    - split; [|split]; apply lins_sorted; assumption.
    - rewrite first_reach_snoc, <- M2. destruct (list_eq_dec Z.eq_dec (side_of off) s) as [->|Hne].
      + rewrite lins_same by exact S1. destruct (omap_find lexcmp s (f_winNumGhosts f)); reflexivity.
      + rewrite lins_other by exact Hne. destruct (omap_find lexcmp s (f_winNumGhosts f)); reflexivity.
    - rewrite first_reach_snoc. intros H. destruct (first_reach l0 s); [discriminate|]. destruct (list_eq_dec Z.eq_dec (side_of off) s) as [|Hne]; [discriminate|].
      rewrite lins_other by exact Hne. apply M3. reflexivity.
    - rewrite first_reach_snoc. intros H. destruct (list_eq_dec Z.eq_dec (side_of off) s) as [->|Hne].
      + rewrite lins_same by exact S3. destruct (omap_find lexcmp s (f_winIds f)); eauto.
      + rewrite lins_other by exact Hne. apply M4. destruct (first_reach l0 s); [discriminate|congruence].
    - intros G EG HG HP. rewrite first_reach_snoc in EG. destruct (list_eq_dec Z.eq_dec (side_of off) s) as [Hs|Hne].
      + rewrite Hs. rewrite lins_same by exact S2. destruct (first_reach l0 s) as [G'|] eqn:EF.
        * inversion EG; subst G'. destruct (M5 G eq_refl HG HP) as (src & dst & Hf & Hv). rewrite Hf. eauto.
        * inversion EG; subst G. rewrite (M3 eq_refl).
          assert (HGh : ghosts f1 (side_of off) = reach off).
          { unfold ghosts, f1. cbn [set_ghosts f_winNumGhosts]. rewrite lins_same by exact S1. rewrite Hs, M2. try rewrite EF. reflexivity. }
          rewrite windowIter_G with (r := r) in Ew; [|exact HB1|unfold side_of; rewrite map_length; exact HL|exact Hr|rewrite HGh; exact HG].
          inversion Ew as [[E1]]. clear Ew. rewrite HGh. unfold mai_getNumberOfTerms, mai_mod. cbn [m_ntot]. rewrite winG_extents, Hs.
          pose proof (wextG_pos (reach off) s ltac:(lia)) as HP0.
          eexists _, _. split; [reflexivity|]. unfold vlen. rewrite repeat_length. rewrite u64_id by (unfold two31, two64 in *; lia). rewrite i32_id by lia. lia.
      + rewrite lins_other by exact Hne. apply M5; [|exact HG|exact HP]. destruct (first_reach l0 s); [exact EG|discriminate].
  Qed.

  Lemma ctor_made s r stl : forall l0 f f', base r f -> 0 <= r < n -> (forall off w, In (off, w) stl -> length off = nd) -> made s l0 f ->
    for_each stl ctor_step f = Ok f' -> base r f' /\ made s (l0 ++ moving stl) f'.
  Proof using Hg Hn Hb.
    induction stl as [|[off v] stl IH]; intros l0 f f' HB Hr HL HM E; cbn [for_each] in E.
    { inversion E; subst. unfold moving. cbn [map List.filter]. rewrite app_nil_r. auto. }
    apply bind_ok in E as (f1 & E1 & E). destruct (ctor_step_made s r l0 off v f f1 HB Hr (HL off v (or_introl eq_refl)) HM E1) as (HB1 & HM1).
    destruct (IH _ f1 f' HB1 Hr (fun o w H => HL o w (or_intror H)) HM1 E) as (H1 & H2). split; [exact H1|].
    unfold moving. cbn [map fst List.filter]. destruct (is_zero off); cbn [negb]; rewrite <- app_assoc in H2; exact H2.
  Qed.

  Lemma new_made s r f : 0 <= r < n -> (forall off w, In (off, w) st -> length off = nd) -> cd_build cd_empty n dims = Ok (true, cube_of n dims b 0) ->
    filter_new ar r n dims x0 x1 st = Ok f -> base r f /\ made s (moving st) f.
  Proof using Hg Hn Hb.
    intros Hr HL EB E. unfold filter_new in E. rewrite EB in E. cbn [bind negb] in E. pose proof (n31 dims n b Hg Hn Hb) as Hn'.
    rewrite cd_getBegIndices_of in E by auto. cbn [bind] in E. rewrite cd_getEndIndices_of in E by auto. cbn [bind] in E.
    rewrite u64_id in E by (unfold two31, two64 in *; lia). rewrite mai_build_good in E by (apply (box_good dims n b); auto). cbn [bind] in E.
    revert E. match goal with |- for_each _ _ ?s = _ -> _ => set (f0 := s) end. intros E.
    apply (ctor_made s r st [] f0 f); [|exact Hr|exact HL| |exact E].
    - unfold f0. split; cbn [f_stencil f_lo f_hi f_dcmp f_mit]; try reflexivity; eauto.
    - unfold f0. split; cbn [f_winNumGhosts f_winData f_winIds first_reach omap_find]; try reflexivity; try congruence; repeat split; constructor.
  Qed.

  (** ** Everything that can happen to a filter *)
  Record static (s : list Z) (G r : Z) f : Prop := mkStatic {
    sc_base : base r f;
    sc_ghosts : omap_find lexcmp s (f_winNumGhosts f) = Some G;
    sc_ids : exists i, omap_find lexcmp s (f_winIds f) = Some i;
    sc_data : exists src dst, omap_find lexcmp s (f_winData f) = Some (src, dst) /\ vlen dst = prodZ (wextG G s) }.

  Lemma static_data s G r f sd src dst wi src' dst' : static s G r f -> omap_find lexcmp sd (f_winData f) = Some (src, dst) -> vlen dst' = vlen dst ->
    static s G r (set_win f (omap_set lexcmp sd (src', dst') (f_winData f)) wi).
  Proof using Type.
    intros [[] H1 H2 (a & c & H3 & H4)] E EL. split; [split; assumption|exact H1|exact H2|].
    cbn [set_win f_winData]. destruct (list_eq_dec Z.eq_dec sd s) as [->|Hne].
    - rewrite lset_same. exists src', dst'. split; [reflexivity|]. rewrite E in H3. inversion H3; subst. lia.
    - rewrite lset_other by exact Hne. eauto.
  Qed.

  Lemma publish_static s G r data f f' : static s G r f -> filter_publish data f = Ok f' -> static s G r f'.
  Proof using Type.
    unfold filter_publish. intros H E. apply bind_ok in E as (mit & _ & E). set (sds := map fst (f_winData f)) in E. clearbody sds.
    revert f f' H E. induction sds as [|sd sds IH]; intros f f' H E; cbn [for_each] in E; [inversion E; subst; exact H|].
    apply bind_ok in E as (f1 & E1 & E). apply (IH f1 f'); [|exact E]. clear IH E.
    apply bind_ok in E1 as ((src & dst) & Ed & E1). apply bind_ok in E1 as (wit & _ & E1). apply bind_ok in E1 as ((wit' & src') & _ & E1). inversion E1; subst f1.
    apply (static_data s G r f sd src dst); [exact H| |reflexivity]. unfold omap_at in Ed. destruct (omap_find lexcmp sd (f_winData f)); [congruence|discriminate].
  Qed.

  (** Loops that only move the iterator over the box. *)
  Lemma loop_mit {X} r (body : Z -> mai * X -> res (mai * X)) c : forall k a m v, for_from k c body (m, v) = Ok a -> (exists i, m = mai_of (blo r) (bhi r) false i) ->
    (forall i m v m' v', (exists i, m = mai_of (blo r) (bhi r) false i) -> body i (m, v) = Ok (m', v') -> exists i, m' = mai_of (blo r) (bhi r) false i) ->
    exists i, fst a = mai_of (blo r) (bhi r) false i.
  Proof using Type.
    induction c as [|c IH]; intros k a m v E Hm Hb'; cbn [for_from] in E; [inversion E; exact Hm|].
    apply bind_ok in E as ((m1 & v1) & E1 & E). apply (IH (S k) a m1 v1); [exact E|apply (Hb' _ m v m1 v1 Hm E1)|exact Hb'].
  Qed.

  Lemma static_in s G r f v : static s G r f -> static s G r (set_in f v).
  Proof using Type. intros [[] ? ? ?]. split; [split|..]; assumption. Qed.
  Lemma static_out s G r f v : static s G r f -> static s G r (set_out f v).
  Proof using Type. intros [[] ? ? ?]. split; [split|..]; assumption. Qed.
  Lemma static_mit s G r f m : static s G r f -> (exists i, m = mai_of (blo r) (bhi r) false i) -> static s G r (set_mit f m).
  Proof using Type. intros [[] ? ? ?] (i & ->). split; [split|..]; try assumption. exists i. reflexivity. Qed.
  Lemma next_mit r i : mai_next (mai_of (blo r) (bhi r) false i) = mai_of (blo r) (bhi r) false (u64 (i + 1)).
  Proof using Type. reflexivity. Qed.

  Ltac mit_of H km := destruct (ba_mit _ _ (sc_base _ _ _ _ H)) as (km & Ekm); unfold get_mit in *; rewrite Ekm in *; cbn [bind] in *.

  Lemma setInData_static s G r u f f' : static s G r f -> filter_setInData ar f u = Ok f' -> static s G r f'.
  Proof using Type.
    unfold filter_setInData. intros H E. mit_of H km. apply bind_ok in E as ((mit' & v) & El & E). unfold for_upto in El.
    apply publish_static with (s := s) (G := G) (r := r) in E; [exact E|]. apply static_in, static_mit; [exact H|].
    apply (loop_mit r _ _ _ _ _ _ El (ex_intro _ 0 eq_refl)). intros i m w m' w' (j & ->) E1. apply bind_ok in E1 as (? & _ & E1). apply bind_ok in E1 as (? & _ & E1).
    apply bind_ok in E1 as (? & _ & E1). inversion E1. eexists. apply next_mit.
  Qed.
  Lemma setInDataByIndices_static s G r u f f' : static s G r f -> filter_setInDataByIndices f u = Ok f' -> static s G r f'.
  Proof using Type.
    unfold filter_setInDataByIndices. intros H E. mit_of H km. apply bind_ok in E as ((mit' & v) & El & E). unfold for_upto in El.
    apply publish_static with (s := s) (G := G) (r := r) in E; [exact E|]. apply static_in, static_mit; [exact H|].
    apply (loop_mit r _ _ _ _ _ _ El (ex_intro _ 0 eq_refl)). intros i m w m' w' (j & ->) E1. apply bind_ok in E1 as (? & _ & E1).
    apply bind_ok in E1 as (? & _ & E1). inversion E1. eexists. apply next_mit.
  Qed.
  Lemma copyOutToIn_static s G r f f' : static s G r f -> filter_copyOutToIn f = Ok f' -> static s G r f'.
  Proof using Type.
    unfold filter_copyOutToIn. intros H E. mit_of H km. apply bind_ok in E as (v & _ & E). apply publish_static with (s := s) (G := G) (r := r) in E; [exact E|].
    apply static_in, H.
  Qed.
  Lemma localSum_static s G r i f f' : static s G r f -> (' (_, f) <- filter_localSum ar f i ;; Ok f) = Ok f' -> static s G r f'.
  Proof using Type.
    intros H E. apply bind_ok in E as ((x & f1) & E1 & E). inversion E; subst. unfold filter_localSum in E1. mit_of H km.
    apply bind_ok in E1 as ((mit' & v) & El & E1). inversion E1; subst. apply static_mit; [exact H|]. unfold for_upto in El.
    apply (loop_mit r _ _ _ _ _ _ El (ex_intro _ 0 eq_refl)). intros i' m w m' w' (j & ->) E2. apply bind_ok in E2 as (? & _ & E2). inversion E2. eexists. apply next_mit.
  Qed.
  Lemma print_static s G r i f f' : static s G r f -> (' (_, f) <- filter_print f i ;; Ok f) = Ok f' -> static s G r f'.
  Proof using Type.
    intros H E. apply bind_ok in E as ((x & f1) & E1 & E). inversion E; subst. unfold filter_print in E1. mit_of H km.
    apply bind_ok in E1 as ((mit' & v) & El & E1). inversion E1; subst. apply static_mit; [exact H|]. unfold for_upto in El.
    apply (loop_mit r _ _ _ _ _ _ El (ex_intro _ 0 eq_refl)). intros i' m w m' w' (j & ->) E2. apply bind_ok in E2 as (? & _ & E2). apply bind_ok in E2 as (? & _ & E2). inversion E2. eexists. apply next_mit.
  Qed.
  Lemma zeroOut_static s G r f f' : static s G r f -> filter_zeroOut ar f = Ok f' -> static s G r f'.
  Proof using Type.
    unfold filter_zeroOut. intros H E. mit_of H km. apply bind_ok in E as ((mit' & v) & El & E). inversion E; subst. apply static_out, static_mit; [exact H|]. unfold for_upto in El.
    apply (loop_mit r _ _ _ _ _ _ El (ex_intro _ 0 eq_refl)). intros i' m w m' w' (j & ->) E2. apply bind_ok in E2 as (? & _ & E2). inversion E2. eexists. apply next_mit.
  Qed.
  Lemma accumulate_static s G r f wit dst off v f' : static s G r f -> filter_accumulate ar f wit dst off v = Ok f' -> static s G r f'.
  Proof using Type.
    unfold filter_accumulate. intros H E. mit_of H km. apply bind_ok in E as ((mit' & w) & El & E). inversion E; subst. apply static_out, static_mit; [exact H|]. unfold for_upto in El.
    apply (loop_mit r _ _ _ _ _ _ El (ex_intro _ 0 eq_refl)). intros i' m x m' x' (j & ->) E2. apply bind_ok in E2 as (? & _ & E2). apply bind_ok in E2 as ((? & ?) & _ & E2).
    apply bind_ok in E2 as (? & _ & E2). inversion E2. eexists. apply next_mit.
  Qed.
  Lemma fetch_static s G r remote f rk sd d f' : static s G r f -> filter_fetch remote f rk sd = Ok (d, f') -> static s G r f' /\ 0 <= rk < n.
  Proof using Type.
    unfold filter_fetch. intros H E. apply bind_ok in E as (wi & _ & E). apply bind_ok in E as (ids & _ & E). apply bind_ok in E as ((src & dst) & Ed & E).
    set (k := i32 (mai_getNumberOfTerms wi)) in *. destruct (Z.ltb_spec k 0) as [|Hk]; [discriminate|].
    destruct ((0 <=? rk) && (rk <? f_sz f)) eqn:Er; [|discriminate]. cbn [negb] in E. apply bind_ok in E as (data & _ & E).
    destruct (Z.ltb_spec (vlen data) k) as [|Hk2]; [discriminate|]. destruct (Z.ltb_spec (vlen dst) k) as [|Hk3]; [discriminate|]. inversion E; subst. split.
    - apply (static_data s G r f sd src dst); [exact H| |].
      + unfold omap_at in Ed. destruct (omap_find lexcmp sd (f_winData f)); [congruence|discriminate].
      + unfold vlen in *. rewrite app_length, firstn_length, skipn_length. lia.
    - pose proof (ba_const _ _ (sc_base _ _ _ _ H)) as HC. assert (f_sz f = n) by (unfold const in HC; congruence). lia.
  Qed.
  Lemma branch_static s G r remote f it f' : static s G r f -> filter_branch ar remote f it = Ok f' -> static s G r f'.
  Proof using Hg Hn Hb.
    intros H E. destruct it as (off & v). unfold filter_branch in E. apply bind_ok in E as (sd & _ & E). apply bind_ok in E as ((t & c) & Et & E).
    assert (Hc : exists k, c = cube_of n dims b k).
    { destruct (ba_dcmp _ _ (sc_base _ _ _ _ H)) as (k & Ek). rewrite Ek in Et. unfold cd_getNeighborRank in Et. rewrite cd_moveTo_of in Et by (auto; apply (n31 dims n b); auto). cbn [bind] in Et.
      apply bind_ok in Et as (? & _ & Et). cbn [c_mit cube_of] in Et. apply bind_ok in Et as (? & _ & Et). inversion Et. eauto. }
    destruct Hc as (kc & ->). set (f1 := set_dcmp f (cube_of n dims b kc)) in *.
    assert (H1 : static s G r f1) by (destruct H as [HB ? ? ?]; split; try assumption; apply base_dcmp, HB).
    apply bind_ok in E as ((wit & f2) & Ew & E). pose proof (windowIter_form r f1 _ _ _ _ (sc_base _ _ _ _ H1) Ew) as E2.
    assert (H2 : static s G r f2) by (rewrite E2; destruct H1 as [HB ? ? ?]; split; try assumption; apply base_dcmp, HB).
    apply bind_ok in E as ((dd & f3) & Ef & E). apply (accumulate_static s G r f3) in E; [exact E|].
    destruct (omap_find lexcmp sd (f_winIds f2)); [|inversion Ef; subst; exact H2].
    apply bind_ok in Ef as ((d0 & f4) & Ef & E4). inversion E4; subst. apply (fetch_static s G r) in Ef; [apply Ef|exact H2].
  Qed.
  Lemma apply_static s G r remote f f' : static s G r f -> filter_applyFilter ar remote f = Ok f' -> static s G r f'.
  Proof using Hg Hn Hb.
    unfold filter_applyFilter. intros H E. apply bind_ok in E as (f1 & E1 & E). pose proof (zeroOut_static _ _ _ _ _ H E1) as H1. clear H E1.
    set (l := f_stencil f1) in E. clearbody l. clear f. revert f1 H1 E. induction l as [|it l IH]; intros f1 H1 E; cbn [for_each] in E; [inversion E; subst; exact H1|].
    apply bind_ok in E as (f2 & E2 & E). apply (IH f2); [apply (branch_static _ _ _ _ _ _ _ H1 E2)|exact E].
  Qed.

  (** ** A cell whose value is not in the layer *)
  Lemma for_from_partial {X} (I : nat -> X -> Prop) (body : Z -> X -> res X) c : forall k x a, for_from k c body x = Ok a -> I k x ->
    (forall i x x', (k <= i < k + c)%nat -> I i x -> body (Z.of_nat i) x = Ok x' -> I (S i) x') -> I (k + c)%nat a.
  Proof using Type.
    induction c as [|c IH]; intros k x a E H Hs; cbn [for_from] in E; [inversion E; subst; rewrite Nat.add_0_r; exact H|].
    apply bind_ok in E as (z & E1 & E). replace (k + S c)%nat with (S k + c)%nat by lia. apply (IH (S k) z a E); [apply (Hs k x z); auto; lia|].
    intros i y y' Hi. apply Hs. lia.
  Qed.
  Lemma for_from_visits {X} (I : nat -> X -> Prop) (body : Z -> X -> res X) c : forall k x a j, for_from k c body x = Ok a -> I k x ->
    (forall i x x', (k <= i < k + c)%nat -> I i x -> body (Z.of_nat i) x = Ok x' -> I (S i) x') -> (k <= j < k + c)%nat ->
    exists y y', I j y /\ body (Z.of_nat j) y = Ok y'.
  Proof using Type.
    induction c as [|c IH]; intros k x a j E H Hs Hj; [lia|]. cbn [for_from] in E. apply bind_ok in E as (z & E1 & E).
    destruct (Nat.eq_dec j k) as [->|Hne]; [eauto|]. apply (IH (S k) z a j E); [apply (Hs k x z); auto; lia| |lia]. intros i y y' Hi. apply Hs. lia.
  Qed.

  Definition target (g off : list Z) : list Z := vec nd (fun j => u64 (nth j g 0 + nth j off 0) mod nth j dims 0).

  Lemma offset_target r f g off io ins : base r f -> in_box (blo r) (bhi r) g -> length off = nd ->
    filter_offsetIndices f g off = Ok (io, ins) -> io = target g off /\ (ins = true -> in_box (blo r) (bhi r) (target g off)).
  Proof using Hg Hn Hb.
    intros [Ec _ Elo Ehi _ _] (G1 & G2 & G3) HL E. assert (End : f_ndims f = vlen dims) by (unfold const in Ec; congruence).
    assert (Egd : f_globalDims f = dims) by (unfold const in Ec; congruence). pose proof (blo_length dims n b Hg Hn Hb r) as Ebl. pose proof (bhi_length dims n b Hg Hn Hb r) as Ebh.
    unfold filter_offsetIndices in E. rewrite End, Elo, Ehi, Egd in E. unfold for_upto, vlen in E. rewrite Nat2Z.id in E.
    apply (for_from_partial (fun i (p : list Z * bool) => fst p = map (fun j => nth j (target g off) 0) (seq 0 i) /\
       (snd p = true -> forall j, (j < i)%nat -> nth j (blo r) 0 <= nth j (target g off) 0 < nth j (bhi r) 0))) in E.
    - cbn [fst snd Nat.add] in E. destruct E as (E1 & E2). split.
      + rewrite E1. replace nd with (length (target g off)) by apply vec_length. symmetry. apply list_as_map_seq.
      + intros Hi. specialize (E2 Hi). split; [rewrite Ebl; apply vec_length|]. split; [rewrite Ebh; apply vec_length|]. intros j Hj. apply E2.
        unfold target in Hj. rewrite vec_length in Hj. lia.
    - cbn [fst snd seq map]. split; [reflexivity|]. intros _ j Hj. lia.
    - intros i (io1 & in1) (io2 & in2) Hi (H1 & H2) E1. cbn [fst snd] in *. subst io1.
      rewrite (vget_nat g i 0) in E1 by lia. cbn [bind] in E1. rewrite (vget_nat off i 0) in E1 by lia. cbn [bind] in E1.
      apply bind_ok in E1 as (sm & Es & E1). rewrite (vget_nat dims i 0) in E1 by lia. cbn [bind] in E1.
      pose proof (grid_dim_range dims i Hg ltac:(lia)) as HD. rewrite umod_ok in E1 by lia. cbn [bind] in E1.
      rewrite (vget_nat (blo r) i 0) in E1 by lia. cbn [bind] in E1. rewrite (vget_nat (bhi r) i 0) in E1 by lia. cbn [bind] in E1.
      specialize (G3 i ltac:(lia)). pose proof (box_in_grid n dims b r i Hg Hb ltac:(lia)) as HB.
      rewrite i32_id in Es by (unfold two31 in *; lia). unfold int_op in Es. destruct (int_range _); inversion Es; subst sm. clear Es.
      assert (ET : nth i (target g off) 0 = u64 (nth i g 0 + nth i off 0) mod nth i dims 0) by (unfold target; rewrite vec_nth by lia; reflexivity).
      pose proof (Z.mod_pos_bound (u64 (nth i g 0 + nth i off 0)) (nth i dims 0) ltac:(lia)) as HM. rewrite <- ET in *.
      rewrite !i32_id in E1 by (unfold two31 in *; lia). inversion E1. subst io2 in2. split.
      + rewrite seq_S, map_app. reflexivity.
      + intros Hand. apply andb_true_iff in Hand as (Hand & Hc). apply andb_true_iff in Hand as (Ha & Hb'). specialize (H2 Ha). intros j Hj.
        destruct (Nat.eq_dec j i) as [->|Hne]; [apply Z.leb_le in Hb'; apply Z.ltb_lt in Hc; lia|apply H2; lia].
  Qed.

  Lemma fetch_length s G r remote f rk d f' : static s G r f -> filter_fetch remote f rk s = Ok (d, f') -> vlen d = prodZ (wextG G s).
  Proof using Type.
    unfold filter_fetch. intros [_ _ _ (src0 & dst0 & H3 & H4)] E. apply bind_ok in E as (wi & _ & E). apply bind_ok in E as (ids & _ & E). apply bind_ok in E as ((src & dst) & Ed & E).
    set (k := i32 (mai_getNumberOfTerms wi)) in *. destruct (Z.ltb_spec k 0) as [|Hk]; [discriminate|].
    destruct ((0 <=? rk) && (rk <? f_sz f)) eqn:Er; [|discriminate]. cbn [negb] in E. apply bind_ok in E as (data & _ & E).
    destruct (Z.ltb_spec (vlen data) k) as [|Hk2]; [discriminate|]. destruct (Z.ltb_spec (vlen dst) k) as [|Hk3]; [discriminate|]. inversion E; subst.
    unfold omap_at in Ed. rewrite H3 in Ed. inversion Ed; subst. rewrite <- H4. unfold vlen in *. rewrite app_length, firstn_length, skipn_length. lia.
  Qed.

  Lemma branch_bad s G r remote f off v : static s G r f -> 0 <= r < n -> s = side_of off -> fits off ->
    let t := dot (strides b) (steps (coords b r) off) in
    (0 <= t < n -> exists g, in_box (blo r) (bhi r) g /\ ~ in_box (blo r) (bhi r) (target g off) /\ 0 <= G < two31 /\ prodZ (wextG G s) < two31 /\
       let flat := dot (strd false (wextG G s)) (vsub (target g off) (wloG G t s)) in
       - two31 < flat < two31 /\ ~ (0 <= flat < prodZ (wextG G s))) ->
    forall f', filter_branch ar remote f (off, v) <> Ok f'.
  Proof using Hg Hn Hb.
    intros H Hr Es Hf t Hbad f' E. unfold filter_branch in E. apply bind_ok in E as (sd & Esd & E).
    assert (End : f_ndims f = vlen dims) by (pose proof (ba_const _ _ (sc_base _ _ _ _ H)) as HC; unfold const in HC; congruence).
    assert (Erk : f_rk f = r) by (pose proof (ba_const _ _ (sc_base _ _ _ _ H)) as HC; unfold const in HC; congruence).
    apply getSide_sign in Esd; [|rewrite End; unfold vlen; rewrite Nat2Z.id; apply Hf]. rewrite <- Es in Esd. subst sd.
    destruct (ba_dcmp _ _ (sc_base _ _ _ _ H)) as (k & Ek). rewrite Ek, Erk in E. rewrite (nbrank_gen k r off Hf) in E. cbn [bind] in E.
    rewrite u64_id in E by (pose proof (n31 dims n b Hg Hn Hb); unfold two31, two64 in *; lia). fold t in E.
    set (f1 := set_dcmp f (cube_of n dims b r)) in *.
    assert (H1 : static s G r f1) by (destruct H as [HB ? ? ?]; split; try assumption; apply base_dcmp, HB).
    apply bind_ok in E as ((wit & f2) & Ew & E). pose proof (windowIter_form r f1 _ _ _ _ (sc_base _ _ _ _ H1) Ew) as E2.
    assert (H2 : static s G r f2) by (rewrite E2; destruct H1 as [HB ? ? ?]; split; try assumption; apply base_dcmp, HB).
    destruct (sc_ids _ _ _ _ H2) as (ids & Eids). rewrite Eids in E. apply bind_ok in E as ((dd & f3) & Ef & E).
    apply bind_ok in Ef as ((d & f4) & Ef & E4). inversion E4; subst dd f4. clear E4.
    destruct (fetch_static s G r _ _ _ _ _ _ H2 Ef) as (H3 & Ht). pose proof (fetch_length s G r _ _ _ _ _ H2 Ef) as HLd.
    destruct (Hbad Ht) as (g & Hbox & Hout & HG & HPw & Hfl & Hno). clear Hbad.
    assert (HGh : ghosts f1 s = G) by (unfold ghosts; rewrite (sc_ghosts _ _ _ _ H1); reflexivity).
    assert (Hls : length s = nd) by (rewrite Es; unfold side_of; rewrite map_length; apply Hf).
    rewrite (windowIter_G r f1 t s (sc_base _ _ _ _ H1) Hls Ht) in Ew by (rewrite HGh; exact HG). rewrite HGh in Ew. inversion Ew as [[Ewit Ef2]]. clear Ew Ef2.
    unfold filter_accumulate, get_mit in E. destruct (ba_mit _ _ (sc_base _ _ _ _ H3)) as (km & Ekm). rewrite Ekm in E. cbn [bind] in E. rewrite mai_begin_of, nterms_of in E.
    apply bind_ok in E as ((mit' & out') & El & _). unfold for_upto in El.
    pose proof (box_good dims n b Hg Hn Hb r) as HBG. pose proof (good_prod _ _ HBG) as HP.
    apply (in_nested_loops false) in Hbox as Hin; [|apply HBG]. apply In_nth_error in Hin as (i & Ei).
    assert (Hi : (i < Z.to_nat (prodZ (extents (blo r) (bhi r))))%nat) by (rewrite <- (loops_length _ _ false HBG); apply nth_error_Some; congruence).
    destruct (for_from_visits (fun j (x : mai * list D) => fst x = mai_of (blo r) (bhi r) false (Z.of_nat j)) _ _ _ _ _ i El) as ((m & o) & x' & Em & Eb).
    { reflexivity. }
    { intros j (m & o) (m' & o') Hj Em E1. cbn [fst] in *. subst m. apply bind_ok in E1 as (? & _ & E1). apply bind_ok in E1 as ((? & ?) & _ & E1).
      apply bind_ok in E1 as (? & _ & E1). inversion E1. rewrite mai_next_of by (unfold two64 in *; lia). f_equal. lia. }
    { lia. }
    cbn [fst] in Em. subst m. rewrite mai_getIndices_of in Eb by exact HBG. cbn [bind] in Eb.
    assert (Eg : vadd (blo r) (digs false (extents (blo r) (bhi r)) (Z.of_nat i)) = g).
    { pose proof (nth_nested_loops false (blo r) (bhi r) (Z.of_nat i) HBG ltac:(lia)) as E1. rewrite Nat2Z.id in E1. congruence. }
    rewrite Eg in Eb. apply bind_ok in Eb as ((io & ins) & Eo & Eb).
    destruct (offset_target r f3 g off io ins (sc_base _ _ _ _ H3) Hbox (proj1 Hf) Eo) as (-> & Hins).
    destruct ins; [apply Hout, Hins; reflexivity|].
    apply bind_ok in Eb as (o1 & Eb & _). apply bind_ok in Eb as (bi & Ebi & Eb). unfold mai_computeBigIndex_int in Ebi. rewrite <- Ewit in Ebi.
    rewrite mai_big_mod in Ebi by (unfold wloG, whiG, target; rewrite !vec_length; reflexivity). cbn [bind] in Ebi. rewrite winG_extents in Ebi.
    set (flat := dot (strd false (wextG G s)) (vsub (target g off) (wloG G t s))) in *. rewrite WrapProof.i32_u64 in Ebi by exact Hfl. inversion Ebi; subst bi. clear Ebi.
    apply bind_ok in Eb as (x & Ex & _). unfold rd in Ex. rewrite vget_oob in Ex; [discriminate|]. rewrite HLd. intros HX. apply Hno.
    destruct (Z_le_gt_dec 0 flat) as [H0|H0].
    - rewrite u64_id in HX by (unfold two31, two64 in *; lia). exact HX.
    - exfalso. unfold u64 in HX. rewrite <- (Z.mod_add _ 1) in HX by (unfold two64; lia). rewrite Z.mod_small in HX by (unfold two31, two64 in *; lia).
      cbv zeta in Hfl. fold flat in Hfl. unfold two31, two64 in *; lia.
  Qed.

  (** ** Choosing the rank and the cell *)
  Definition bad (s : list Z) (G : Z) (off : list Z) (r : Z) : Prop :=
    0 <= r < n /\ forall remote f v f', static s G r f -> filter_branch ar remote f (off, v) <> Ok f'.

  Lemma rank_of c : digit_vec b c -> 0 <= dot (strides b) c < n /\ coords b (dot (strides b) c) = c.
  Proof using Hb.
    intros Hc. split; [|apply digits_flat, Hc]. pose proof (Radix.flat_range b c Hc) as H. destruct Hb as (_ & _ & H3). rewrite H3 in H. exact H.
  Qed.

  Lemma chosen_bad s G off cf lf sf tf df : s = side_of off -> fits off ->
    (forall i, (i < nd)%nat -> 0 <= cf i < B i /\ 0 <= lf i < Lo i /\ sf i = step1 (cf i + nth i off 0) (B i) /\ 0 <= sf i < B i /\
       0 <= cf i * Lo i + lf i + nth i off 0 /\ tf i = (cf i * Lo i + lf i + nth i off 0) mod nth i dims 0 /\
       df i = tf i - (if nth i off 0 <? 0 then (sf i + 1) * Lo i - G else sf i * Lo i) /\
       - nth i dims 0 < df i < nth i dims 0 /\ (nth i off 0 <> 0 -> 1 <= G <= nth i dims 0)) ->
    (exists i, (i < nd)%nat /\ nth i off 0 <> 0 /\ ~ (cf i * Lo i <= tf i < (cf i + 1) * Lo i)) ->
    ((forall i, (i < nd)%nat -> df i <= 0) /\ (exists i, (i < nd)%nat /\ df i < 0) \/
     (forall i, (i < nd)%nat -> (if nth i off 0 =? 0 then Lo i else G) - 1 <= df i) /\ (exists i, (i < nd)%nat /\ (if nth i off 0 =? 0 then Lo i else G) - 1 < df i)) ->
    exists r, bad s G off r.
  Proof using Hg Hn Hb.
    intros Es Hf H (i0 & Hi0 & Hnz0 & Hout) Hcase. assert (Hlb : length b = nd) by apply Hb.
    set (c := vec nd cf). assert (Lc : length c = nd) by apply vec_length.
    assert (Hc : digit_vec b c) by (split; [lia|]; intros i Hi; unfold c; rewrite vec_nth by lia; apply H; lia).
    destruct (rank_of c Hc) as (Hr & Ec). set (r := dot (strides b) c) in *. exists r. split; [exact Hr|].
    intros remote f v f' Hs. apply (branch_bad s G r remote f off v Hs Hr Es Hf). rewrite Ec.
    assert (Est : steps c off = vec nd sf).
    { apply (nth_ext' 0); [unfold steps; rewrite !vec_length; reflexivity|]. unfold steps. rewrite vec_length. intros i Hi. rewrite !vec_nth by exact Hi.
      unfold c. rewrite vec_nth by exact Hi. symmetry. apply H, Hi. }
    assert (Hsd : digit_vec b (vec nd sf)) by (split; [rewrite vec_length; lia|]; intros i Hi; rewrite vec_nth by lia; apply H; lia).
    rewrite Est. destruct (rank_of _ Hsd) as (Ht & Et). set (t := dot (strides b) (vec nd sf)) in *. intros _.
    set (g := vec nd (fun i => cf i * Lo i + lf i)).
    assert (Lg : length g = nd) by apply vec_length.
    assert (Hblo : forall i, (i < nd)%nat -> nth i (blo r) 0 = cf i * Lo i /\ nth i (bhi r) 0 = (cf i + 1) * Lo i).
    { intros i Hi. rewrite (beg_of_nth n), (end_of_nth n) by auto. rewrite Ec. unfold c. rewrite vec_nth by exact Hi. split; reflexivity. }
    assert (HbT : forall i, (i < nd)%nat -> nth i (blo t) 0 = sf i * Lo i /\ nth i (bhi t) 0 = (sf i + 1) * Lo i).
    { intros i Hi. rewrite (beg_of_nth n), (end_of_nth n) by auto. rewrite Et. rewrite vec_nth by exact Hi. split; reflexivity. }
    assert (Htg : target g off = vec nd tf).
    { apply (nth_ext' 0); [unfold target; rewrite !vec_length; reflexivity|]. unfold target. rewrite vec_length. intros i Hi. rewrite !vec_nth by exact Hi.
      unfold g. rewrite vec_nth by exact Hi. destruct (H i Hi) as (H1 & H2 & H3 & H4 & H5 & H6 & _). rewrite H6. f_equal. apply u64_id.
      destruct (axB i Hi) as (A1 & A2 & A3 & A4 & A5). destruct Hf as (_ & Hf). specialize (Hf i Hi). unfold two31, two64 in *. nia. }
    assert (Hsi : forall i, nth i s 0 = - Z.sgn (nth i off 0)).
    { intros i. rewrite Es. unfold side_of. exact (map_nth (fun z => - Z.sgn z) off 0 i). }
    exists g. split; [|split; [|split; [|split]]].
    - split; [rewrite (blo_length dims n b) by auto; exact Lg|]. split; [rewrite (bhi_length dims n b) by auto; exact Lg|]. intros i Hi. rewrite Lg in Hi.
      destruct (Hblo i Hi) as (-> & ->). unfold g. rewrite vec_nth by exact Hi. destruct (H i Hi) as (H1 & H2 & _). lia.
    - rewrite Htg. intros (_ & _ & Hin). apply Hout. specialize (Hin i0 ltac:(rewrite vec_length; exact Hi0)). rewrite vec_nth in Hin by exact Hi0.
      destruct (Hblo i0 Hi0) as (E1 & E2). lia.
    - destruct (H i0 Hi0) as (_ & _ & _ & _ & _ & _ & _ & _ & HG). specialize (HG Hnz0). destruct (axB i0 Hi0) as (A1 & A2 & A3 & A4 & A5). lia.
    - assert (HE : 0 < prodZ (wextG G s) <= prodZ dims).
      { apply prod_le; [apply vec_length|]. intros i Hi. unfold wextG. rewrite vec_nth by exact Hi. rewrite Hsi. destruct (H i Hi) as (_ & _ & _ & _ & _ & _ & _ & _ & HG).
        destruct (axB i Hi) as (A1 & A2 & A3 & A4 & A5). destruct (Z.eqb_spec (- Z.sgn (nth i off 0)) 0); [nia|]. apply HG. intros E0. rewrite E0 in *. cbn in *. lia. }
      destruct Hg as (_ & _ & _ & Hp). change (2 ^ 31) with two31 in Hp. lia.
    - assert (HdS : vsub (target g off) (wloG G t s) = vec nd df).
      { rewrite Htg. apply (nth_ext' 0); [rewrite vsub_length by (unfold wloG; rewrite !vec_length; reflexivity); rewrite !vec_length; reflexivity|].
        rewrite vsub_length by (unfold wloG; rewrite !vec_length; reflexivity). rewrite vec_length. intros i Hi. rewrite vsub_nth by (unfold wloG; rewrite !vec_length; exact Hi).
        unfold wloG. rewrite !vec_nth by exact Hi. destruct (HbT i Hi) as (-> & ->). rewrite Hsi. destruct (H i Hi) as (_ & _ & _ & _ & _ & _ & -> & _). f_equal.
        destruct (Z.ltb_spec 0 (- Z.sgn (nth i off 0))), (Z.ltb_spec (nth i off 0) 0); try reflexivity; destruct (Z.sgn_spec (nth i off 0)); lia. }
      rewrite HdS. assert (HX : forall i, (i < nd)%nat -> nth i (wextG G s) 0 = if nth i off 0 =? 0 then Lo i else G).
      { intros i Hi. unfold wextG. rewrite vec_nth by exact Hi. rewrite Hsi. destruct (Z.eqb_spec (- Z.sgn (nth i off 0)) 0) as [E0|E0], (Z.eqb_spec (nth i off 0) 0) as [E1|E1]; auto.
        - destruct (Z.sgn_spec (nth i off 0)); lia.
        - rewrite E1 in E0. cbn in E0. lia. }
      assert (HXb : forall i, (i < nd)%nat -> 1 <= nth i (wextG G s) 0 <= nth i dims 0).
      { intros i Hi. rewrite HX by exact Hi. destruct (H i Hi) as (_ & _ & _ & _ & _ & _ & _ & _ & HG). destruct (axB i Hi) as (A1 & A2 & A3 & A4 & A5).
        destruct (Z.eqb_spec (nth i off 0) 0); [nia|auto]. }
      assert (LX : length (wextG G s) = nd) by apply vec_length.
      assert (HP : allpos (wextG G s)) by (apply allpos_nth; rewrite LX; intros i Hi; specialize (HXb i Hi); lia).
      split.
      + assert (- prodZ dims < dot (strd false (wextG G s)) (vec nd df) < prodZ dims).
        { apply strd_bound; [exact LX|apply vec_length|]. intros i Hi. split; [apply HXb, Hi|]. rewrite vec_nth by exact Hi. apply H, Hi. }
        destruct Hg as (_ & _ & _ & Hp). change (2 ^ 31) with two31 in Hp. lia.
      + destruct Hcase as [(Hle & i & Hi & Hlt)|(Hge & i & Hi & Hlt)]; intros (F1 & F2).
        * assert (dot (strd false (wextG G s)) (vec nd df) < dot (strd false (wextG G s)) (repeat 0 nd)).
          { apply dot_mono_lt; rewrite ?strd_length, ?vec_length, ?repeat_length; auto; [apply strd_pos, HP| |].
            - intros k Hk. rewrite LX in Hk. rewrite vec_nth, nth_repeat0 by exact Hk. apply Hle, Hk.
            - exists i. rewrite LX. split; [exact Hi|]. rewrite vec_nth, nth_repeat0 by exact Hi. exact Hlt. }
          assert (HZ : forall a m, dot a (repeat 0 m) = 0) by (clear; induction a as [|x a IH]; intros [|m]; cbn [repeat dot]; auto; rewrite IH; lia).
          rewrite HZ in H0. lia.
        * pose proof (dot_strd_top (wextG G s) HP) as HT.
          assert (NW : forall k, (k < nd)%nat -> nth k (map Z.pred (wextG G s)) 0 = (if nth k off 0 =? 0 then Lo k else G) - 1).
          { intros k Hk. rewrite (nth_indep _ 0 (Z.pred 0)) by (rewrite map_length; lia). rewrite map_nth, HX by exact Hk. lia. }
          assert (dot (strd false (wextG G s)) (map Z.pred (wextG G s)) < dot (strd false (wextG G s)) (vec nd df)); [|lia].
          apply dot_mono_lt; rewrite ?strd_length, ?vec_length, ?map_length; auto; [apply strd_pos, HP| |].
          -- intros k Hk. rewrite LX in Hk. rewrite vec_nth, NW by exact Hk. apply Hge, Hk.
          -- exists i. rewrite LX. split; [exact Hi|]. rewrite vec_nth, NW by exact Hi. exact Hlt.
  Qed.

  Lemma far_bad s G off r : s = side_of off -> fits off -> 0 <= r < n -> ~ (0 <= dot (strides b) (steps (coords b r) off) < n) -> bad s G off r.
  Proof using Hg Hn Hb.
    intros Es Hf Hr Hfar. split; [exact Hr|]. intros remote f v f' Hs. apply (branch_bad s G r remote f off v Hs Hr Es Hf). intros H. contradiction.
  Qed.

  (** ** Displacements of two or more cells along one axis *)
  Definition along (j : nat) (off : list Z) : Prop := length off = nd /\ forall i, i <> j -> nth i off 0 = 0.

  Lemma axis_bad s G off j : (j < nd)%nat -> along j off -> fits off -> s = side_of off -> 2 <= Z.abs (nth j off 0) -> 2 <= Lo j ->
    1 <= G <= nth j dims 0 -> (nth j off 0 < 0 -> G = - nth j off 0) -> exists r, bad s G off r.
  Proof using Hg Hn Hb.
    intros Hj (HL & Ha) Hf Es Ho HLj HG HGn. set (o := nth j off 0) in *. destruct (axB j Hj) as (A1 & A2 & A3 & A4 & A5).
    assert (Hlb : length b = nd) by apply Hb. assert (Hbp : allpos b) by apply (decomp_allpos _ _ _ Hb).
    assert (Hfo : Z.abs o <= nth j dims 0) by (destruct Hf as (_ & Hf); specialize (Hf j Hj); unfold o; lia).
    destruct (Z_lt_ge_dec (B j) (Z.abs o)) as [Hfar|Hnear].
    - assert (Hst : forall c, digit_vec b c -> forall i, (i < nd)%nat -> i <> j -> nth i (steps c off) 0 = nth i c 0).
      { intros c (C1 & C2) i Hi Hne. unfold steps. rewrite vec_nth by exact Hi. rewrite (Ha i Hne), Z.add_0_r. unfold step1. specialize (C2 i ltac:(lia)).
        destruct (Z.ltb_spec (nth i c 0) 0); [lia|]. destruct (Z.leb_spec (B i) (nth i c 0)); lia. }
      assert (Hstj : forall c, digit_vec b c -> nth j (steps c off) 0 = step1 (nth j c 0 + o) (B j)) by (intros c _; unfold steps; rewrite vec_nth by exact Hj; reflexivity).
      destruct (Z_lt_ge_dec 0 o) as [Hpos|Hneg].
      + set (c := map Z.pred b). assert (Hcn : forall i, (i < nd)%nat -> nth i c 0 = B i - 1).
        { intros i Hi. unfold c. rewrite (nth_indep _ 0 (Z.pred 0)) by (rewrite map_length; lia). rewrite map_nth. lia. }
        assert (Hc : digit_vec b c).
        { split; [unfold c; rewrite map_length; lia|]. intros i Hi. rewrite Hcn by lia. destruct (axB i ltac:(lia)). lia. }
        destruct (rank_of c Hc) as (Hr & Ec). exists (dot (strides b) c). apply far_bad; auto. rewrite Ec. intros (_ & Hlt).
        assert (dot (strides b) c < dot (strides b) (steps c off)).
        { apply dot_mono_lt; rewrite ?strides_length; auto; [unfold c; rewrite map_length; auto|unfold steps; rewrite vec_length; lia|apply (strd_pos true), Hbp| |].
          - intros i Hi. rewrite Hlb in Hi. destruct (Nat.eq_dec i j) as [->|Hne]; [|rewrite (Hst c Hc i Hi Hne); lia].
            rewrite (Hstj c Hc), Hcn by exact Hj. unfold step1. destruct (Z.ltb_spec (B j - 1 + o) 0); [lia|]. destruct (Z.leb_spec (B j) (B j - 1 + o)); lia.
          - exists j. split; [lia|]. rewrite (Hstj c Hc), Hcn by exact Hj. unfold step1. destruct (Z.ltb_spec (B j - 1 + o) 0); [lia|]. destruct (Z.leb_spec (B j) (B j - 1 + o)); lia. }
        pose proof (dot_strides_top b Hbp) as HT. fold c in HT. destruct Hb as (_ & _ & HP). lia.
      + set (c := repeat 0 nd).
        assert (Hc : digit_vec b c).
        { split; [unfold c; rewrite repeat_length; lia|]. intros i Hi. unfold c. rewrite nth_repeat0. destruct (axB i ltac:(lia)). lia. }
        destruct (rank_of c Hc) as (Hr & Ec). exists (dot (strides b) c). apply far_bad; auto. rewrite Ec. intros (Hge & _).
        assert (dot (strides b) (steps c off) < dot (strides b) c).
        { apply dot_mono_lt; rewrite ?strides_length; auto; [unfold steps; rewrite vec_length; lia|unfold c; rewrite repeat_length; lia|apply (strd_pos true), Hbp| |].
          - intros i Hi. rewrite Hlb in Hi. destruct (Nat.eq_dec i j) as [->|Hne]; [|rewrite (Hst c Hc i Hi Hne); lia].
            rewrite (Hstj c Hc). unfold c. rewrite nth_repeat0. unfold step1. destruct (Z.ltb_spec (0 + o) 0); lia.
          - exists j. split; [lia|]. rewrite (Hstj c Hc). unfold c. rewrite nth_repeat0. unfold step1. destruct (Z.ltb_spec (0 + o) 0); lia. }
        assert (HZ : forall a m, dot a (repeat 0 m) = 0) by (clear; induction a as [|x a IH]; intros [|m]; cbn [repeat dot]; auto; rewrite IH; lia).
        assert (H0 : dot (strides b) c = 0) by apply HZ. lia.
    - assert (HB2 : 2 <= B j) by lia.
      destruct (Z_lt_ge_dec 0 o) as [Hpos|Hneg]; [|destruct (Z.eq_dec (- o) (B j)) as [Heq|Hne]].
      + (* the last cell of the last process, to the right *)
        apply (chosen_bad s G off (fun i => if Nat.eq_dec i j then B j - 1 else 0) (fun i => if Nat.eq_dec i j then Lo j - 1 else 0)
          (fun i => if Nat.eq_dec i j then o - 1 else 0) (fun i => if Nat.eq_dec i j then o - 1 else 0) (fun i => if Nat.eq_dec i j then (o - 1) - (o - 1) * Lo j else 0)); auto.
        * intros i Hi. destruct (Nat.eq_dec i j) as [->|Hne].
          -- fold o. unfold step1. replace (o <? 0) with false by (symmetry; apply Z.ltb_ge; lia).
             destruct (Z.ltb_spec (B j - 1 + o) 0); [lia|]. destruct (Z.leb_spec (B j) (B j - 1 + o)); [|lia].
             split; [lia|]. split; [lia|]. split; [lia|]. split; [lia|]. split; [nia|]. split.
             { replace ((B j - 1) * Lo j + (Lo j - 1) + o) with (o - 1 + 1 * nth j dims 0) by nia. rewrite Z.mod_add by lia. symmetry. apply Z.mod_small. lia. }
             split; [reflexivity|]. split; [nia|auto].
          -- rewrite (Ha i Hne). destruct (axB i Hi) as (C1 & C2 & C3 & C4 & C5). unfold step1. cbn [Z.add Z.ltb Z.compare]. destruct (Z.leb_spec (B i) 0); [lia|].
             split; [lia|]. split; [lia|]. split; [lia|]. split; [lia|]. split; [lia|]. split; [symmetry; apply Z.mod_small; lia|]. split; [lia|]. split; [lia|]. lia.
        * exists j. split; [exact Hj|]. split; [fold o; lia|]. destruct (Nat.eq_dec j j); [|lia]. nia.
        * left. split; [intros i Hi; destruct (Nat.eq_dec i j); nia|]. exists j. split; [exact Hj|]. destruct (Nat.eq_dec j j); [|lia]. nia.
      + (* the first cell of the last process, all the way round to the left *)
        apply (chosen_bad s G off (fun i => if Nat.eq_dec i j then B j - 1 else 0) (fun i => 0)
          (fun i => if Nat.eq_dec i j then B j - 1 else 0) (fun i => if Nat.eq_dec i j then (B j - 1) * Lo j - B j else 0) (fun i => if Nat.eq_dec i j then - Lo j else 0)); auto.
        * intros i Hi. destruct (Nat.eq_dec i j) as [->|Hne].
          -- fold o. assert (HGe : G = B j) by lia. unfold step1. destruct (Z.ltb_spec o 0); [|lia].
             destruct (Z.ltb_spec (B j - 1 + o) 0); [|lia].
             split; [lia|]. split; [lia|]. split; [lia|]. split; [lia|]. split; [nia|]. split.
             { symmetry. rewrite Z.mod_small by nia. lia. }
             split; [nia|]. split; [nia|auto].
          -- rewrite (Ha i Hne). destruct (axB i Hi) as (C1 & C2 & C3 & C4 & C5). unfold step1. cbn [Z.add Z.ltb Z.compare]. destruct (Z.leb_spec (B i) 0); [lia|].
             split; [lia|]. split; [lia|]. split; [lia|]. split; [lia|]. split; [lia|]. split; [symmetry; apply Z.mod_small; lia|]. split; [lia|]. split; [lia|]. lia.
        * exists j. split; [exact Hj|]. split; [fold o; lia|]. destruct (Nat.eq_dec j j); [|lia]. nia.
        * left. split; [intros i Hi; destruct (Nat.eq_dec i j); nia|]. exists j. split; [exact Hj|]. destruct (Nat.eq_dec j j); [|lia]. nia.
      + (* the first cell of the last process, to the left *)
        apply (chosen_bad s G off (fun i => if Nat.eq_dec i j then B j - 1 else 0) (fun i => if Nat.eq_dec i j then 0 else Lo i - 1)
          (fun i => if Nat.eq_dec i j then B j - 1 + o else 0) (fun i => if Nat.eq_dec i j then (B j - 1) * Lo j + o else Lo i - 1)
          (fun i => if Nat.eq_dec i j then (- o - 1) * Lo j else Lo i - 1)); auto.
        * intros i Hi. destruct (Nat.eq_dec i j) as [->|Hne'].
          -- fold o. assert (HGe : G = - o) by lia. unfold step1. destruct (Z.ltb_spec o 0); [|lia].
             destruct (Z.ltb_spec (B j - 1 + o) 0); [lia|]. destruct (Z.leb_spec (B j) (B j - 1 + o)); [lia|].
             split; [lia|]. split; [lia|]. split; [lia|]. split; [lia|]. split; [nia|]. split.
             { symmetry. rewrite Z.mod_small by nia. lia. }
             split; [nia|]. split; [nia|auto].
          -- rewrite (Ha i Hne'). destruct (axB i Hi) as (C1 & C2 & C3 & C4 & C5). unfold step1. cbn [Z.add Z.ltb Z.compare]. destruct (Z.leb_spec (B i) 0); [lia|].
             split; [lia|]. split; [lia|]. split; [lia|]. split; [lia|]. split; [lia|]. split; [symmetry; rewrite Z.mod_small by nia; lia|]. split; [lia|]. split; [nia|]. lia.
        * exists j. split; [exact Hj|]. split; [fold o; lia|]. destruct (Nat.eq_dec j j); [|lia]. nia.
        * right. split; [intros i Hi; destruct (Nat.eq_dec i j) as [->|Hne']; [fold o; destruct (Z.eqb_spec o 0); nia|rewrite (Ha i Hne'); cbn; lia]|].
          exists j. split; [exact Hj|]. destruct (Nat.eq_dec j j); [|lia]. fold o. destruct (Z.eqb_spec o 0); nia.
  Qed.

  (** ** The width of the layers on a side *)
  Lemma along_lex j a c : along j a -> along j c -> lexcmp a c = Lt -> nth j a 0 < nth j c 0.
  Proof using Type.
    unfold along. generalize nd. intros m. revert j a c m. clear.
    assert (Hz : forall a c, length a = length c -> (forall i, nth i a 0 = 0) -> (forall i, nth i c 0 = 0) -> lexcmp a c = Lt -> False).
    { induction a as [|x a IH]; intros [|y c] HL Ha Hc; cbn in HL; try discriminate. cbn [lexcmp]. pose proof (Ha O). pose proof (Hc O). cbn [nth] in *. subst. cbn.
      apply IH; [lia|intros i; apply (Ha (S i))|intros i; apply (Hc (S i))]. }
    induction j as [|j IH]; intros [|x a] [|y c] m (L1 & H1) (L2 & H2) E; cbn in L1, L2; try lia; try discriminate E; cbn [lexcmp nth] in *.
    - destruct (Z.compare_spec x y) as [->|Hlt|Hgt]; [|exact Hlt|discriminate]. exfalso. revert E. apply Hz; [lia| |].
      + intros i. apply (H1 (S i)). lia.
      + intros i. apply (H2 (S i)). lia.
    - pose proof (H1 O ltac:(lia)). pose proof (H2 O ltac:(lia)). cbn [nth] in *. subst. cbn in E. apply (IH a c (length a)); [split| |exact E].
      + reflexivity.
      + intros i Hi. apply (H1 (S i)). lia.
      + split; [lia|]. intros i Hi. apply (H2 (S i)). lia.
  Qed.

  Lemma along_side j a c : along j a -> length c = nd -> side_of c = side_of a -> along j c /\ Z.sgn (nth j c 0) = Z.sgn (nth j a 0).
  Proof using Type.
    intros (L1 & H1) L2 E. assert (H : forall i, Z.sgn (nth i c 0) = Z.sgn (nth i a 0)).
    { intros i. pose proof (map_nth (fun z => - Z.sgn z) c 0 i) as X. pose proof (map_nth (fun z => - Z.sgn z) a 0 i) as Y. cbn beta in *.
      unfold side_of in E. rewrite E in X. change (- Z.sgn 0) with 0 in *. lia. }
    split; [|apply H]. split; [exact L2|]. intros i Hi. specialize (H i). rewrite (H1 i Hi) in H. destruct (Z.sgn_spec (nth i c 0)); lia.
  Qed.

  Lemma along_reach j a : along j a -> reach a = Z.abs (nth j a 0).
  Proof using Type.
    unfold along, reach. generalize nd. intros m. intros (_ & H). revert j H. clear.
    assert (Hz : forall e m, 0 <= m -> (forall i, nth i e 0 = 0) -> fold_left (fun m o => Z.max m (Z.abs o)) e m = m).
    { clear. induction e as [|x e IH]; intros m Hm H; cbn [fold_left]; [reflexivity|]. pose proof (H O) as H0. cbn [nth] in H0. subst. rewrite Z.max_l by (cbn; lia).
      apply IH; [exact Hm|]. intros i. apply (H (S i)). }
    induction a as [|x a IH]; intros j H; [destruct j; reflexivity|]. cbn [fold_left]. destruct j as [|j]; cbn [nth].
    - rewrite Hz; [lia|lia|]. intros i. apply (H (S i)). lia.
    - pose proof (H O ltac:(lia)) as H0. cbn [nth] in H0. subst. cbn. apply IH. intros i Hi. apply (H (S i)). lia.
  Qed.

  Lemma first_reach_first off v : is_map st -> In (off, v) st -> is_zero off = false ->
    exists off1 v1, In (off1, v1) st /\ side_of off1 = side_of off /\ first_reach (moving st) (side_of off) = Some (reach off1) /\
      (off1 = off \/ lexcmp off1 off = Lt).
  Proof using Type.
    unfold is_map, moving. induction st as [|(a & va) l IH]; intros Hs Hin Hz; [destruct Hin|].
    inversion Hs as [|x y Hs' HF]; subst. cbn [map fst List.filter].
    assert (Hfst : In (off, v) l -> lexcmp a off = Lt) by (intros Hi; rewrite Forall_forall in HF; apply (HF _ Hi)).
    destruct (is_zero a) eqn:Ea; cbn [negb].
    - destruct Hin as [E|Hin]; [inversion E; subst; congruence|]. destruct (IH Hs' Hin Hz) as (o1 & v1 & I1 & I2 & I3 & I4).
      exists o1, v1. split; [right; exact I1|]. auto.
    - cbn [first_reach]. destruct (list_eq_dec Z.eq_dec (side_of a) (side_of off)) as [E|Hne].
      + exists a, va. split; [left; reflexivity|]. split; [exact E|]. split; [reflexivity|]. destruct Hin as [X|Hin]; [left; congruence|right; auto].
      + destruct Hin as [X|Hin]; [inversion X; subst; congruence|]. destruct (IH Hs' Hin Hz) as (o1 & v1 & I1 & I2 & I3 & I4).
        exists o1, v1. split; [right; exact I1|]. auto.
  Qed.

  Lemma along_nonzero j off : along j off -> nth j off 0 <> 0 -> is_zero off = false.
  Proof using Type.
    intros _ Hn0. unfold is_zero. destruct (forallb (Z.eqb 0) off) eqn:E; [|reflexivity]. exfalso. apply Hn0. rewrite forallb_forall in E.
    destruct (Nat.lt_ge_cases j (length off)) as [H|H]; [|apply nth_overflow, H]. specialize (E _ (nth_In off 0 H)). lia.
  Qed.

  (** ** A rank on which the displacement is out of reach *)
  Lemma out_of_reach off v j : is_map st -> (forall o w, In (o, w) st -> fits o) -> (j < nd)%nat -> In (off, v) st -> along j off ->
    2 <= Z.abs (nth j off 0) -> 2 <= Lo j ->
    exists off1 v1 s G r, In (off1, v1) st /\ first_reach (moving st) s = Some G /\ 0 <= G < two31 /\ prodZ (wextG G s) < two31 /\ bad s G off1 r.
  Proof using Hg Hn Hb.
    intros Hmap Hfit Hj Hin Ha Ho HLj. destruct (first_reach_first off v Hmap Hin (along_nonzero j off Ha ltac:(lia))) as (o1 & v1 & I1 & I2 & I3 & I4).
    destruct (along_side j off o1 Ha (proj1 (Hfit _ _ I1)) I2) as (Ha1 & Hsg). rewrite (along_reach j o1 Ha1) in I3.
    destruct (axB j Hj) as (A1 & A2 & A3 & A4 & A5).
    assert (Hle : nth j o1 0 <= nth j off 0) by (destruct I4 as [->|I4]; [lia|pose proof (along_lex j o1 off Ha1 Ha I4); lia]).
    pose proof (proj2 (Hfit _ _ I1) j Hj) as F1. pose proof (proj2 (Hfit _ _ Hin) j Hj) as F2.
    assert (HG1 : 1 <= Z.abs (nth j o1 0)) by (destruct (Z.sgn_spec (nth j o1 0)), (Z.sgn_spec (nth j off 0)); lia).
    assert (HW : prodZ (wextG (Z.abs (nth j o1 0)) (side_of off)) < two31).
    { assert (HE : 0 < prodZ (wextG (Z.abs (nth j o1 0)) (side_of off)) <= prodZ dims).
      { apply prod_le; [apply vec_length|]. intros i Hi. unfold wextG. rewrite vec_nth by exact Hi. destruct (axB i Hi) as (C1 & C2 & C3 & C4 & C5).
        destruct (Nat.eq_dec i j) as [->|Hne]; [destruct (nth j (side_of off) 0 =? 0); nia|].
        replace (nth i (side_of off) 0) with 0; [cbn; nia|]. pose proof (map_nth (fun z => - Z.sgn z) off 0 i) as X. cbn beta in X. unfold side_of.
        change (- Z.sgn 0) with 0 in X. rewrite X, (proj2 Ha i Hne). reflexivity. }
      destruct Hg as (_ & _ & _ & Hp). change (2 ^ 31) with two31 in Hp. lia. }
    destruct (Z_lt_ge_dec (nth j off 0) 0) as [Hneg|Hpos].
    - destruct (axis_bad (side_of off) (Z.abs (nth j o1 0)) o1 j Hj Ha1 (Hfit _ _ I1) (eq_sym I2) ltac:(lia) HLj ltac:(lia) ltac:(lia)) as (r & Hr).
      exists o1, v1, (side_of off), (Z.abs (nth j o1 0)), r. split; [exact I1|]. split; [exact I3|]. split; [lia|]. split; [exact HW|exact Hr].
    - destruct (axis_bad (side_of off) (Z.abs (nth j o1 0)) off j Hj Ha (Hfit _ _ Hin) eq_refl Ho HLj ltac:(lia) ltac:(lia)) as (r & Hr).
      exists off, v, (side_of off), (Z.abs (nth j o1 0)), r. split; [exact Hin|]. split; [exact I3|]. split; [lia|]. split; [exact HW|exact Hr].
  Qed.

  (** ** All ranks *)
  Lemma made_static s G r f : base r f -> made s (moving st) f -> first_reach (moving st) s = Some G -> 0 <= G < two31 -> prodZ (wextG G s) < two31 -> static s G r f.
  Proof using Type.
    intros HB [M1 M2 M3 M4 M5] E HG HP. split; [exact HB|congruence|apply M4; congruence|]. apply (M5 G E HG HP).
  Qed.

  Lemma tab_nth {A} (body : Z -> res A) m : forall k l, tab_from k m body = Ok l -> forall i, (k <= i < k + m)%nat -> exists a, In a l /\ body (Z.of_nat i) = Ok a.
  Proof using Type.
    induction m as [|m IH]; intros k l E i Hi; cbn [tab_from] in E; [lia|]. apply bind_ok in E as (x & Ex & E). apply bind_ok in E as (t & Et & E). inversion E; subst.
    destruct (Nat.eq_dec i k) as [->|Hne]; [exists x; split; [left; reflexivity|exact Ex]|]. destruct (IH (S k) t Et i ltac:(lia)) as (a & Ha & Ea). exists a. split; [right; exact Ha|exact Ea].
  Qed.

  Lemma new_static s G r w : (forall off v, In (off, v) st -> length off = nd) -> cd_build cd_empty n dims = Ok (true, cube_of n dims b 0) ->
    first_reach (moving st) s = Some G -> 0 <= G < two31 -> prodZ (wextG G s) < two31 -> 0 <= r < n ->
    world_new ar n dims x0 x1 st = Ok w -> exists f, In f w /\ static s G r f.
  Proof using Hg Hn Hb.
    intros HL EB EF HG HP Hr E. unfold world_new, tabulate in E. destruct (tab_nth _ _ _ _ E (Z.to_nat r) ltac:(lia)) as (f & Hf & Ef).
    rewrite Z2Nat.id in Ef by lia. exists f. split; [exact Hf|]. destruct (new_made s r f Hr HL EB Ef) as (HB & HM). apply made_static; auto.
  Qed.

  Lemma mapM_in {A C} (g : A -> res C) l l' a : mapM g l = Ok l' -> In a l -> exists c, In c l' /\ g a = Ok c.
  Proof using Type.
    revert l'. induction l as [|y l IH]; intros l' E Hin; [destruct Hin|]. cbn [mapM] in E. apply bind_ok in E as (c & Ec & E). apply bind_ok in E as (t & Et & E). inversion E; subst.
    destruct Hin as [->|Hin]; [exists c; split; [left; reflexivity|exact Ec]|]. destruct (IH t Et Hin) as (c' & H1 & H2). exists c'. split; [right; exact H1|exact H2].
  Qed.

  Lemma op_static s G r o w w' : (exists f, In f w /\ static s G r f) -> run_op ar o w = Ok w' -> exists f, In f w' /\ static s G r f.
  Proof using Hg Hn Hb.
    intros (f & Hf & Hs) E. destruct o; cbn [run_op] in E; destruct (mapM_in _ _ _ _ E Hf) as (f' & Hf' & Ef); exists f'; (split; [exact Hf'|]).
    - apply (setInData_static _ _ _ _ _ _ Hs Ef).
    - apply (setInDataByIndices_static _ _ _ _ _ _ Hs Ef).
    - apply (apply_static _ _ _ _ _ _ Hs Ef).
    - apply (copyOutToIn_static _ _ _ _ _ Hs Ef).
    - apply (localSum_static _ _ _ _ _ _ Hs Ef).
    - apply (print_static _ _ _ _ _ _ Hs Ef).
  Qed.

  Lemma apply_bad s G r off v remote f f' : bad s G off r -> In (off, v) st -> static s G r f -> filter_applyFilter ar remote f <> Ok f'.
  Proof using Hg Hn Hb.
    intros (_ & Hbad) Hin Hs E. unfold filter_applyFilter in E. apply bind_ok in E as (f1 & E1 & E). pose proof (zeroOut_static _ _ _ _ _ Hs E1) as H1. clear Hs E1.
    rewrite (ba_st _ _ (sc_base _ _ _ _ H1)) in E. revert f1 H1 E. induction st as [|it l IH]; intros f1 H1 E; cbn [for_each] in E; [destruct Hin|].
    apply bind_ok in E as (f2 & E2 & E). destruct Hin as [->|Hin]; [apply (Hbad remote f1 v f2 H1 E2)|]. apply (IH Hin f2); [apply (branch_static _ _ _ _ _ _ _ H1 E2)|exact E].
  Qed.

  Lemma run_bad s G r off v ops : bad s G off r -> In (off, v) st -> In Apply ops -> forall w w', (exists f, In f w /\ static s G r f) -> FilterProg.run ar ops w <> Ok w'.
  Proof using Hg Hn Hb.
    intros Hbad Hin. induction ops as [|o ops IH]; intros HA w w' Hw E; [destruct HA|]. unfold FilterProg.run in E. cbn [for_each] in E. apply bind_ok in E as (w1 & E1 & E).
    destruct HA as [->|HA]; [|apply (IH HA w1 w'); [apply (op_static _ _ _ _ _ _ Hw E1)|exact E]].
    destruct Hw as (f & Hf & Hs). cbn [run_op] in E1. destruct (mapM_in _ _ _ _ E1 Hf) as (f' & _ & Ef). apply (apply_bad _ _ _ _ _ _ _ _ Hbad Hin Hs Ef).
  Qed.
End Reach.
