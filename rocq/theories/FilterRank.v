(** * Proofs about the Filter class: one rank *)
From Coq Require Import Sorted Permutation.
From Verif Require Import Cpp CppProof OMap MaiModel MaiSpec Radix MaiProof CdModel CdSpec CdProof FilterModel FilterSpec FilterProof.
Local Open Scope Z_scope.
Local Arguments prodZ : simpl never.
Local Arguments Z.of_nat : simpl never.

Lemma lex_dec (s : list Z) (S : list (list Z)) : {In s S} + {~ In s S}.
Proof. apply in_dec. apply list_eq_dec. apply Z.eq_dec. Qed.

Lemma insert_perm {V} k (v : V) m :
  omap_find lexcmp k m = None -> Permutation (omap_insert lexcmp k v m) ((k, v) :: m).
Proof.
  induction m as [|[k' v'] m IH]; simpl; [auto|].
  destruct (lexcmp k k') eqn:E; intros H; [discriminate|auto|].
  etransitivity; [apply perm_skip, IH, H|]. apply perm_swap.
Qed.

Lemma set_keys {V} k (v : V) m : In k (map fst m) -> osorted lexcmp m -> map fst (omap_set lexcmp k v m) = map fst m.
Proof.
  induction m as [|[k' v'] m IH]; simpl; [tauto|]. intros Hin Hs. inversion Hs as [|x y Hs' Hall]; subst.
  destruct (lexcmp k k') eqn:E; simpl; auto.
  - destruct Hin as [->|Hin]; [rewrite (proj2 (lexcmp_eq k k) eq_refl) in E; discriminate|].
    exfalso. rewrite Forall_forall in Hall. apply in_map_iff in Hin as ([k1 v1] & E1 & Hin). simpl in E1. subst k1.
    specialize (Hall _ Hin). unfold klt in Hall; simpl in Hall. 
    pose proof (lexcmp_trans _ _ _ E Hall) as H. rewrite (proj2 (lexcmp_eq k k) eq_refl) in H. discriminate.
  - f_equal. destruct Hin as [->|Hin]; [rewrite (proj2 (lexcmp_eq k k) eq_refl) in E; discriminate|]. auto.
Qed.

(** The map lemmas for keys that are vectors of ints. *)
Section LexMap.
  Context {V : Type}.
  Implicit Types (m : list (list Z * V)) (k : list Z) (v : V).
  Lemma lins_same k v m : osorted lexcmp m ->
    omap_find lexcmp k (omap_insert lexcmp k v m) = Some (match omap_find lexcmp k m with Some v' => v' | None => v end).
  Proof. apply find_insert_same; first [exact lexcmp_eq|exact lexcmp_antisym|exact lexcmp_trans]. Qed.
  Lemma lins_other k k' v m : k <> k' -> omap_find lexcmp k' (omap_insert lexcmp k v m) = omap_find lexcmp k' m.
  Proof. apply find_insert_other; first [exact lexcmp_eq|exact lexcmp_antisym|exact lexcmp_trans]. Qed.
  Lemma lins_sorted k v m : osorted lexcmp m -> osorted lexcmp (omap_insert lexcmp k v m).
  Proof. apply osorted_insert; first [exact lexcmp_eq|exact lexcmp_antisym|exact lexcmp_trans]. Qed.
  Lemma lset_same k v m : omap_find lexcmp k (omap_set lexcmp k v m) = Some v.
  Proof. apply find_set_same; first [exact lexcmp_eq|exact lexcmp_antisym|exact lexcmp_trans]. Qed.
  Lemma lset_other k k' v m : k <> k' -> omap_find lexcmp k' (omap_set lexcmp k v m) = omap_find lexcmp k' m.
  Proof. apply find_set_other; first [exact lexcmp_eq|exact lexcmp_antisym|exact lexcmp_trans]. Qed.
  Lemma lset_sorted k v m : osorted lexcmp m -> osorted lexcmp (omap_set lexcmp k v m).
  Proof. apply osorted_set; first [exact lexcmp_eq|exact lexcmp_antisym|exact lexcmp_trans]. Qed.
  Lemma lfind_In k v m : osorted lexcmp m -> (omap_find lexcmp k m = Some v <-> In (k, v) m).
  Proof. apply omap_find_In; first [exact lexcmp_eq|exact lexcmp_antisym|exact lexcmp_trans]. Qed.
  Lemma lfind_None k m : osorted lexcmp m -> (omap_find lexcmp k m = None <-> ~ In k (map fst m)).
  Proof. apply omap_find_None; first [exact lexcmp_eq|exact lexcmp_antisym|exact lexcmp_trans]. Qed.
End LexMap.

(** The displacement the code computes: an unsigned remainder of the index converted to size_t. *)
Definition cwrap (dims v : list Z) : list Z := map (fun p => u64 (fst p) mod snd p) (combine v dims).
Lemma cwrap_length dims v : length v = length dims -> length (cwrap dims v) = length dims.
Proof. intros H. unfold cwrap. rewrite map_length, combine_length. lia. Qed.
Lemma cwrap_nth dims v j : length v = length dims -> (j < length v)%nat -> nth j (cwrap dims v) 0 = u64 (nth j v 0) mod nth j dims 0.
Proof. intros H Hj. apply (zipmap_nth (fun x y => u64 x mod y)); auto. Qed.

Lemma cwrap_wrap dims g off :
  (forall j, (j < length dims)%nat -> 0 < nth j dims 0 < two31) -> length off = length dims ->
  (forall j, (j < length dims)%nat -> -1 <= nth j off 0 <= 1) ->
  wraps dims off -> in_grid dims g -> cwrap dims (shift g off) = wrap dims (shift g off).
Proof.
  intros Hp Hl Hu Hw Hgr. apply in_grid_nth in Hgr as [G1 G2].
  assert (Hls : length (shift g off) = length dims) by (rewrite shift_length; lia).
  apply (nth_ext' 0); [rewrite cwrap_length, wrap_length; auto|]. rewrite cwrap_length by auto. intros j Hj.
  rewrite cwrap_nth, wrap_nth by lia. rewrite shift_nth by lia. specialize (Hp j Hj). specialize (Hu j Hj). specialize (G2 j Hj).
  destruct (Z_lt_ge_dec (nth j off 0) 0) as [Hneg|Hpos].
  - unfold u64. symmetry. apply Znumtheory.Zmod_div_mod; [lia|reflexivity|]. apply (Hw j Hj Hneg).
  - rewrite u64_id by (unfold two31, two64 in *; lia). reflexivity.
Qed.

Definition code_sum {D} (ar : arith D) (dims : list Z) (st : list (list Z * D)) (G : list Z -> D) (g : list Z) : D :=
  fold_left (fun acc p => a_add ar acc (a_mul ar (snd p) (G (cwrap dims (shift g (fst p)))))) st (a_zero ar).

Definition ids3 (p : list Z * (Z * Z * Z)) : list Z := let '(x, y, z) := snd p in [x; y; z].

Section Rank.
  Context {D : Type} (ar : arith D) (dims : list Z) (n : Z) (b : list Z).
  Context (st : list (list Z * D)) (xmins xmaxs : list D).
  Hypothesis Hg : grid_ok dims.
  Hypothesis Hn : 1 <= n <= 2 ^ 30.
  Hypothesis Hb : is_decomp n dims b.

  Notation blo := (beg_of dims b).
  Notation bhi := (end_of dims b).
  Notation nd := (length dims).
  Notation wlo := (wlo dims b).
  Notation whi := (whi dims b).
  Notation wext := (wext dims b).
  Notation cells r := (nested_loops false (blo r) (bhi r)).
  Notation wcells r s := (nested_loops false (wlo r s) (whi r s)).

  Record fok (r : Z) (S : list (list Z)) (f : filter D) : Prop := mkFok {
    fo_rk : f_rk f = r;
    fo_sz : f_sz f = n;
    fo_nd : f_ndims f = vlen dims;
    fo_gd : f_globalDims f = dims;
    fo_xmin : f_xmins f = xmins;
    fo_xmax : f_xmaxs f = xmaxs;
    fo_valid : f_valid f = true;
    fo_dcmp : exists k, f_dcmp f = cube_of n dims b k;
    fo_lo : f_lo f = blo r;
    fo_hi : f_hi f = bhi r;
    fo_mit : exists k, f_mit f = Some (mai_of (blo r) (bhi r) false k);
    fo_in : length (f_inData f) = length (cells r);
    fo_out : length (f_outData f) = length (cells r);
    fo_st : f_stencil f = st;
    fo_gs : osorted lexcmp (f_winNumGhosts f);
    fo_g1 : forall s, In s S -> omap_find lexcmp s (f_winNumGhosts f) = Some 1;
    fo_g0 : forall s, ~ In s S -> omap_find lexcmp s (f_winNumGhosts f) = None;
    fo_ds : osorted lexcmp (f_winData f);
    fo_d1 : forall s, In s S -> exists src dst, omap_find lexcmp s (f_winData f) = Some (src, dst) /\
              length src = Z.to_nat (prodZ (wext s)) /\ length dst = Z.to_nat (prodZ (wext s));
    fo_d0 : forall s, ~ In s S -> omap_find lexcmp s (f_winData f) = None;
    fo_is : osorted lexcmp (f_winIter f);
    fo_i1 : forall s, In s S -> exists k, omap_find lexcmp s (f_winIter f) = Some (mai_of (wlo r s) (whi r s) false k);
    fo_i0 : forall s, ~ In s S -> omap_find lexcmp s (f_winIter f) = None;
    fo_ws : osorted lexcmp (f_winIds f);
    fo_w1 : forall s, In s S -> exists i, omap_find lexcmp s (f_winIds f) = Some i;
    fo_w0 : forall s, ~ In s S -> omap_find lexcmp s (f_winIds f) = None;
    fo_alloc : f_allocs f = range 0 (vlen (f_allocs f));
    fo_ids : Permutation (flat_map ids3 (f_winIds f)) (f_allocs f)
  }.

  Lemma u64_rank r : 0 <= r < n -> u64 r = r.
  Proof using Hn. intros H. apply u64_id. unfold two64. lia. Qed.

  Lemma unit_int off j : unit_offset nd off -> -1 <= nth j off 0 <= 1.
  Proof using Type.
    intros (H1 & H2). destruct (Nat.lt_ge_cases j nd) as [H|H]; [auto|]. rewrite nth_overflow by lia. lia.
  Qed.

  Lemma opp_unit off : unit_offset nd off -> unit_offset nd (opp off).
  Proof using Type. intros (H1 & H2). split; [rewrite opp_length; auto|]. intros j Hj. rewrite opp_nth. specialize (H2 j Hj). lia. Qed.

  Lemma side_eq (f : filter D) off : f_ndims f = vlen dims -> unit_offset nd off -> filter_getSideFromOffset f off = Ok (opp off).
  Proof using Type.
    intros Hf Hu. unfold filter_getSideFromOffset. rewrite Hf. destruct Hu as [Hl Hu].
    apply tab_eq; [unfold vlen; rewrite opp_length; congruence|].
    intros j Hj. rewrite opp_length in Hj. rewrite (vget_nat off j 0) by auto. cbn [bind]. rewrite opp_nth.
    specialize (Hu j ltac:(lia)). assert (H : nth j off 0 = 0 \/ nth j off 0 = 1 \/ nth j off 0 = -1) by lia.
    destruct H as [->|[->| ->]]; reflexivity.
  Qed.

  Lemma ghosts_eq off : unit_offset nd off -> nonzero off = true -> filter_getNumberOfGhostsFromOffset off = Ok 1.
  Proof using Type.
    clear Hg Hn Hb. intros Hu Hnz. unfold filter_getNumberOfGhostsFromOffset.
    assert (Hf : forall off a, Forall (fun x => -1 <= x <= 1) off -> a = 0 \/ a = 1 ->
       for_each off (fun o numGhosts => a <- int_op (Z.abs o) ;; let absOffset := u64 a in
          Ok (if numGhosts <? absOffset then absOffset else numGhosts)) a =
       Ok (if (a =? 1) || nonzero off then 1 else 0)).
    { clear. induction off as [|x off IH]; intros a Hu Ha; simpl.
      - destruct Ha as [->| ->]; reflexivity.
      - inversion Hu as [|y l Hx Hu']; subst. assert (H : x = 0 \/ x = 1 \/ x = -1) by lia.
        destruct H as [->|[->| ->]], Ha as [->| ->]; cbn; rewrite IH by auto; simpl; reflexivity. }
    rewrite Hf; auto.
    - simpl. rewrite Hnz. reflexivity.
    - apply Forall_forall. intros x Hx. apply In_nth with (d := 0) in Hx as (j & Hj & <-). apply unit_int; auto.
  Qed.

  Lemma numNonZero_unit off : unit_offset nd off -> (filter_getNumberOfNonZeroElements off =? 0) = negb (nonzero off).
  Proof using Hg Hn Hb.
    intros (Hl & _). destruct (numNonZero_eq off) as [H|H]; auto. exfalso.
    pose proof (nd_range dims n b Hg Hn Hb). unfold vlen in H. lia.
  Qed.

  Lemma set_dcmp_fok r S f k : fok r S f -> fok r S (set_dcmp f (cube_of n dims b k)).
  Proof using Type. intros []. constructor; simpl; auto. exists k; auto. Qed.

  Lemma windowIter_gen r (f : filter D) r' s :
    (exists k, f_dcmp f = cube_of n dims b k) -> f_ndims f = vlen dims -> f_lo f = blo r -> f_hi f = bhi r ->
    0 <= r' < n -> unit_offset nd s -> (nonzero s = true -> omap_find lexcmp s (f_winNumGhosts f) = Some 1) ->
    filter_getWindowIter f r' s = Ok (mai_of (wlo r' s) (whi r' s) false 0, set_dcmp f (cube_of n dims b r')).
  Proof using Hg Hn Hb.
    intros (k & Ek) End Elo Ehi Hr Hs Hgh. unfold filter_getWindowIter. rewrite Ek.
    rewrite cd_getBegIndices_of by (auto; apply (n31 dims n b); auto). cbn [bind].
    rewrite cd_getEndIndices_of by (auto; apply (n31 dims n b); auto). cbn [bind].
    rewrite !u64_rank by auto. rewrite End.
    set (ng := match omap_find lexcmp s (f_winNumGhosts f) with Some n => n | None => 0 end).
    assert (Hng : forall j, nth j s 0 <> 0 -> ng = 1).
    { intros j Hj. unfold ng. rewrite Hgh; auto. apply nonzero_true. exists j. split; auto.
      destruct (Nat.lt_ge_cases j (length s)) as [H|H]; auto. rewrite nth_overflow in Hj by lia. lia. }
    pose proof (blo_length dims n b Hg Hn Hb r') as Ebl. pose proof (bhi_length dims n b Hg Hn Hb r') as Ebh.
    pose proof (blo_length dims n b Hg Hn Hb r) as Ebl0. pose proof (bhi_length dims n b Hg Hn Hb r) as Ebh0.
    match goal with |- context [for_upto (vlen dims) ?bd ?i] => set (body := bd); set (i0 := i) end.
    destruct (for_upto_inv (fun i (p : list Z * list Z) =>
      length (fst p) = nd /\ length (snd p) = nd /\
      (forall j, (j < nd)%nat -> nth j (fst p) 0 = if Nat.ltb j i then nth j (wlo r' s) 0 else nth j (blo r') 0) /\
      (forall j, (j < nd)%nat -> nth j (snd p) 0 = if Nat.ltb j i then nth j (whi r' s) 0 else nth j (bhi r') 0))
      body (vlen dims) i0) as ([l h] & E & L1 & L2 & L3 & L4).
    - unfold i0; simpl. auto.
    - unfold vlen. rewrite Nat2Z.id. intros i [l h] Hi (L1 & L2 & L3 & L4). simpl in L1, L2, L3, L4. unfold body.
      assert (Hls : length s = nd) by apply Hs.
      rewrite (vget_nat s i 0) by lia. cbn [bind].
      pose proof (box_in_grid n dims b r' i Hg Hb Hi) as HB. pose proof (grid_dim_range dims i Hg Hi) as HD.
      assert (Hkeep : (forall j, (j < nd)%nat -> j <> i -> Nat.ltb j (Datatypes.S i) = Nat.ltb j i)).
      { intros j Hj Hne. destruct (Nat.ltb_spec j i), (Nat.ltb_spec j (Datatypes.S i)); auto; lia. }
      assert (HSi : Nat.ltb i (Datatypes.S i) = true) by (apply Nat.ltb_lt; lia).
      pose proof (L3 i Hi) as L3i. pose proof (L4 i Hi) as L4i. rewrite Nat.ltb_irrefl in L3i, L4i.
      assert (EW : nth i (wlo r' s) 0 = if 0 <? nth i s 0 then nth i (bhi r') 0 - 1 else nth i (blo r') 0)
        by (unfold FilterProof.wlo; rewrite vec_nth; auto).
      assert (EH : nth i (whi r' s) 0 = if nth i s 0 <? 0 then nth i (blo r') 0 + 1 else nth i (bhi r') 0)
        by (unfold FilterProof.whi; rewrite vec_nth; auto).
      destruct (Z.eqb_spec (nth i s 0) 0) as [Hz|Hz]; cbn [negb].
      + rewrite Ehi, Elo.
        rewrite (vget_nat (bhi r) i 0) by lia. cbn [bind]. rewrite (vget_nat (blo r) i 0) by lia. cbn [bind].
        eexists. split; [reflexivity|]. simpl. split; [auto|]. split; [auto|].
        rewrite Hz in EW, EH. simpl in EW, EH.
        split; intros j Hj; (destruct (Nat.eq_dec j i) as [->|Hne]; [rewrite HSi; congruence|rewrite Hkeep by auto; auto]).
      + rewrite (Hng i Hz). destruct (Z.ltb_spec (nth i s 0) 0) as [Hneg|Hpos].
        * rewrite (vget_nat l i 0) by lia. cbn [bind]. rewrite vset_nat by lia. cbn [bind].
          eexists. split; [reflexivity|]. cbn [fst snd]. split; [auto|]. split; [rewrite upd_length; auto|].
          replace (0 <? nth i s 0) with false in EW by (symmetry; apply Z.ltb_ge; lia).
          split; intros j Hj.
          -- destruct (Nat.eq_dec j i) as [->|Hne]; [rewrite HSi; congruence|rewrite Hkeep by auto; auto].
          -- rewrite upd_nth by lia. destruct (Nat.eqb_spec j i) as [->|Hne]; [|rewrite Hkeep by auto; auto].
             rewrite HSi, EH, L3i. apply u64_id. unfold two31, two64 in *. lia.
        * rewrite (vget_nat h i 0) by lia. cbn [bind]. rewrite vset_nat by lia. cbn [bind].
          eexists. split; [reflexivity|]. cbn [fst snd]. split; [rewrite upd_length; auto|]. split; [auto|].
          replace (0 <? nth i s 0) with true in EW by (symmetry; apply Z.ltb_lt; lia).
          split; intros j Hj.
          -- rewrite upd_nth by lia. destruct (Nat.eqb_spec j i) as [->|Hne]; [|rewrite Hkeep by auto; auto].
             rewrite HSi, EW, L4i. apply u64_id. unfold two31, two64 in *. lia.
          -- destruct (Nat.eq_dec j i) as [->|Hne]; [rewrite HSi; congruence|rewrite Hkeep by auto; auto].
    - rewrite E. cbn [bind]. unfold vlen in L3, L4. rewrite Nat2Z.id in L3, L4. simpl in L1, L2, L3, L4.
      assert (El : l = wlo r' s).
      { apply (nth_ext' 0); [unfold FilterProof.wlo; rewrite vec_length; auto|]. intros j Hj. rewrite L3 by lia.
        replace (Nat.ltb j nd) with true by (symmetry; apply Nat.ltb_lt; lia). reflexivity. }
      assert (Eh : h = whi r' s).
      { apply (nth_ext' 0); [unfold FilterProof.whi; rewrite vec_length; auto|]. intros j Hj. rewrite L4 by lia.
        replace (Nat.ltb j nd) with true by (symmetry; apply Nat.ltb_lt; lia). reflexivity. }
      rewrite El, Eh. rewrite mai_build_good by (apply (win_good dims n b); auto). reflexivity.
  Qed.

  Lemma windowIter_eq r S f r' s :
    fok r S f -> 0 <= r' < n -> unit_offset nd s -> (nonzero s = true -> In s S) ->
    filter_getWindowIter f r' s = Ok (mai_of (wlo r' s) (whi r' s) false 0, set_dcmp f (cube_of n dims b r')).
  Proof using Hg Hn Hb.
    intros Hf Hr Hs Hgh. apply (windowIter_gen r); auto; try (destruct Hf; auto).
  Qed.

  Lemma wcells_length r s : length (wcells r s) = Z.to_nat (prodZ (wext s)).
  Proof using Hg Hn Hb.
    rewrite loops_length by (apply (win_good dims n b); auto). rewrite (win_extents dims n b) by auto. reflexivity.
  Qed.

  Lemma range_app k m : 0 <= k -> range 0 (k + Z.of_nat m) = range 0 k ++ map (fun i => k + Z.of_nat i) (seq 0 m).
  Proof using Type.
    clear. intros Hk. unfold range. rewrite !Z.sub_0_r. rewrite Z2Nat.inj_add, Nat2Z.id by lia.
    rewrite seq_app, map_app. f_equal. rewrite Nat.add_0_l.
    replace (Z.to_nat k) with (Z.to_nat k + 0)%nat by lia. rewrite <- (Nat.add_0_r (Z.to_nat k)) at 1.
    assert (H : forall m a, map (fun j => 0 + Z.of_nat j) (seq (Z.to_nat k + a) m) = map (fun i => k + Z.of_nat i) (seq a m)).
    { clear m. induction m as [|m IH]; intros a; simpl; [reflexivity|]. f_equal; [lia|].
      rewrite <- IH. replace (Datatypes.S (Z.to_nat k + a)) with (Z.to_nat k + Datatypes.S a)%nat by lia. reflexivity. }
    rewrite Nat.add_0_r. apply H.
  Qed.

  Lemma addWindow_ok r S f s :
    0 <= r < n -> fok r S f -> unit_offset nd s -> nonzero s = true -> ~ In s S ->
    exists f', filter_newWindow (set_ghosts f (omap_insert lexcmp s 1 (f_winNumGhosts f))) s = Ok f' /\
      fok r (s :: S) f' /\ f_inData f' = f_inData f /\ f_outData f' = f_outData f.
  Proof using Hg Hn Hb.
    intros Hr Hf Hu Hnz Hnew. unfold filter_newWindow.
    set (f1 := set_ghosts f (omap_insert lexcmp s 1 (f_winNumGhosts f))).
    assert (Hgh : omap_find lexcmp s (f_winNumGhosts f1) = Some 1).
    { simpl. rewrite lins_same by apply Hf. rewrite (fo_g0 _ _ _ Hf) by auto. reflexivity. }
    rewrite (windowIter_gen r f1); try (destruct Hf; simpl; auto; fail).
    2:{ simpl. rewrite (fo_rk _ _ _ Hf). auto. }
    cbn [bind]. rewrite nterms_of, (win_extents dims n b) by auto.
    pose proof (wext_range dims n b Hg Hn Hb s) as HW.
    rewrite i32_id by (unfold two31 in *; lia).
    replace (prodZ (wext s) <? 0) with false by (symmetry; apply Z.ltb_ge; lia).
    eexists. split; [reflexivity|]. split; [|split; reflexivity].
    assert (Er : f_rk f = r) by apply Hf. simpl. rewrite Er.
    assert (Hne : forall s', ~ In s' (s :: S) -> s <> s' /\ ~ In s' S).
    { intros s' H. split; intros E; apply H; [left; auto|right; auto]. }
    pose proof Hf as HF. destruct Hf. constructor; simpl; auto using lins_sorted.
    - exists r. reflexivity.
    - intros s' [<-|Hs']; [exact Hgh|]. rewrite lins_other by congruence. auto.
    - intros s' Hs'. destruct (Hne s' Hs'). rewrite lins_other by auto. auto.
    - intros s' [<-|Hs'].
      + rewrite lins_same by auto. rewrite (fo_d0 _ _ _ HF) by auto. eexists; eexists. split; [reflexivity|].
        rewrite repeat_length. auto.
      + rewrite lins_other by congruence. auto.
    - intros s' Hs'. destruct (Hne s' Hs'). rewrite lins_other by auto. auto.
    - intros s' [<-|Hs'].
      + rewrite lins_same by auto. rewrite (fo_i0 _ _ _ HF) by auto. exists 0. reflexivity.
      + rewrite lins_other by congruence. auto.
    - intros s' Hs'. destruct (Hne s' Hs'). rewrite lins_other by auto. auto.
    - intros s' [<-|Hs'].
      + rewrite lins_same by auto. rewrite (fo_w0 _ _ _ HF) by auto. eexists. reflexivity.
      + rewrite lins_other by congruence. auto.
    - intros s' Hs'. destruct (Hne s' Hs'). rewrite lins_other by auto. auto.
    - set (a := f_allocs f) in *.
      assert (E : vlen (a ++ [vlen a; vlen a + 1; vlen a + 2]) = vlen a + Z.of_nat 3)
        by (unfold vlen; rewrite app_length; simpl; lia).
      rewrite E, range_app by (unfold vlen; lia). pose proof (fo_alloc _ _ _ HF) as EA. fold a in EA. rewrite <- EA.
      f_equal. simpl. rewrite Z.add_0_r. reflexivity.
    - etransitivity; [apply Permutation_flat_map, insert_perm; apply (fo_w0 _ _ _ HF); auto|].
      simpl. etransitivity; [|apply Permutation_app_comm]. simpl. do 3 apply perm_skip. apply (fo_ids _ _ _ HF).
  Qed.

  Lemma fok_ext r S S' f : (forall s, In s S <-> In s S') -> fok r S f -> fok r S' f.
  Proof using Type.
    intros HS []. constructor; auto; intros s H; try (apply HS in H; auto; fail);
    match goal with X : forall s, ~ In s S -> ?g = None |- _ => first [apply X; intros H'; apply H, HS, H'] end.
  Qed.

  Hypothesis Hmap : is_map st.
  Hypothesis Hoff : forall off w, In (off, w) st -> unit_offset nd off.

  Lemma sides_app (p q : list (list Z * D)) : sides_of (p ++ q) = sides_of p ++ sides_of q.
  Proof using Type. unfold sides_of. rewrite map_app, filter_app, map_app. reflexivity. Qed.

  Lemma in_sides (p : list (list Z * D)) s : In s (sides_of p) <-> exists off w, In (off, w) p /\ nonzero off = true /\ s = opp off.
  Proof using Type.
    unfold sides_of. rewrite in_map_iff. split.
    - intros (off & <- & H). apply filter_In in H as (H & Hnz). apply in_map_iff in H as ([o w] & E & H). simpl in E; subst o.
      exists off, w. auto.
    - intros (off & w & H & Hnz & ->). exists off. split; auto. apply filter_In. split; auto.
      apply in_map_iff. exists (off, w). auto.
  Qed.

  Lemma is_map_NoDup : NoDup (map fst st).
  Proof using Hmap. apply (osorted_NoDup lexcmp lexcmp_eq). exact Hmap. Qed.

  Lemma nonzero_opp off : nonzero (opp off) = nonzero off.
  Proof using Type.
    clear. unfold nonzero, opp. induction off as [|x off IH]; simpl; [reflexivity|]. rewrite IH. f_equal. f_equal.
    destruct x; reflexivity.
  Qed.

  Lemma sides_unit s : In s (sides_of st) -> unit_offset nd s /\ nonzero s = true.
  Proof using Hoff.
    intros H. apply in_sides in H as (off & w & H & Hnz & ->). split.
    - apply opp_unit. apply (Hoff _ _ H).
    - rewrite nonzero_opp. exact Hnz.
  Qed.

  Lemma new_ok r :
    0 <= r < n -> cd_build cd_empty n dims = Ok (true, cube_of n dims b 0) ->
    exists f, filter_new ar r n dims xmins xmaxs st = Ok f /\ fok r (sides_of st) f /\
      f_inData f = map (fun _ => a_zero ar) (cells r) /\ f_outData f = map (fun _ => a_zero ar) (cells r).
  Proof using Hg Hn Hb Hmap Hoff.
    intros Hr Hbuild. unfold filter_new. rewrite Hbuild. cbn [bind negb].
    rewrite cd_getBegIndices_of by (auto; apply (n31 dims n b); auto). cbn [bind].
    rewrite cd_getEndIndices_of by (auto; apply (n31 dims n b); auto). cbn [bind].
    rewrite !u64_rank by auto. rewrite mai_build_good by (apply (box_good dims n b); auto). cbn [bind].
    rewrite nterms_of. set (z := repeat (a_zero ar) (Z.to_nat (prodZ (extents (blo r) (bhi r))))).
    assert (Ez : z = map (fun _ => a_zero ar) (cells r)).
    { unfold z. rewrite <- (loops_length _ _ false) by (apply (box_good dims n b); auto).
      induction (cells r); simpl; congruence. }
    set (f0 := mkFilter r n (vlen dims) dims xmins xmaxs true (cube_of n dims b r) (blo r) (bhi r)
                 (Some (mai_of (blo r) (bhi r) false 0)) z z st [] [] [] [] []).
    assert (Hf0 : fok r [] f0).
    { constructor; simpl; auto; try (constructor; fail); try (rewrite Ez, map_length; reflexivity); try tauto.
      - exists r; reflexivity.
      - exists 0; reflexivity. }
    match goal with |- context [for_each st ?bd f0] => set (body := bd) end.
    destruct (for_each_inv (fun pre f => fok r (sides_of pre) f /\ f_inData f = z /\ f_outData f = z) body st f0)
      as (f & E & Hf & E1 & E2).
    - split; [exact Hf0|]. split; reflexivity.
    - intros pre [off w] f (Hf & E1 & E2) Hin (suf & Est). unfold body. simpl fst.
      pose proof (Hoff off w Hin) as Hu. rewrite numNonZero_unit by auto.
      destruct (nonzero off) eqn:Hnz; cbn [negb].
      + rewrite side_eq by (auto; apply Hf). cbn [bind]. rewrite ghosts_eq by auto. cbn [bind].
        destruct (addWindow_ok r (sides_of pre) f (opp off) Hr Hf) as (f' & E' & Hf' & I1 & I2).
        * apply opp_unit; auto.
        * rewrite nonzero_opp; auto.
        * intros H. apply in_sides in H as (off' & w' & H & _ & Eo). apply opp_inj in Eo. subst off'.
          pose proof is_map_NoDup as Hnd. rewrite Est, map_app in Hnd. simpl in Hnd.
          apply NoDup_remove_2 in Hnd. apply Hnd. apply in_or_app. left. apply in_map_iff. exists (off, w'). auto.
        * exists f'. split; [exact E'|]. split; [|split; congruence].
          apply fok_ext with (2 := Hf'). intros s. rewrite sides_app, in_app_iff. unfold sides_of at 3. simpl. rewrite Hnz. simpl.
          split; [intros [H|H]; auto|intros [H|[H|[]]]; auto].
      + exists f. split; [reflexivity|]. split; [|split; auto].
        apply fok_ext with (2 := Hf). intros s. rewrite sides_app, in_app_iff. unfold sides_of at 3. simpl. rewrite Hnz. simpl.
        split; [auto|intros [H|[]]; auto].
    - exists f. split; [exact E|]. split; [exact Hf|]. rewrite E1, E2. auto.
  Qed.

  Notation S0 := (sides_of st).
  Definition wfield (G : list Z -> D) (r : Z) (s : list Z) : list (option D) := map (fun g => Some (G g)) (wcells r s).
  Definition published (r : Z) (f : filter D) (G : list Z -> D) : Prop :=
    forall s, In s S0 -> exists dst, omap_find lexcmp s (f_winData f) = Some (wfield G r s, dst).

  Lemma wfield_length G r s : length (wfield G r s) = Z.to_nat (prodZ (wext s)).
  Proof using Hg Hn Hb. unfold wfield. rewrite map_length. apply wcells_length. Qed.

  Lemma set_win_fok r S f s src dst wit :
    fok r S f -> In s S -> length src = Z.to_nat (prodZ (wext s)) -> length dst = Z.to_nat (prodZ (wext s)) ->
    (exists k, wit = mai_of (wlo r s) (whi r s) false k) ->
    fok r S (set_win f (omap_set lexcmp s (src, dst) (f_winData f)) (omap_set lexcmp s wit (f_winIter f))).
  Proof using Type.
    intros Hf Hs H1 H2 (k & ->). pose proof Hf as HF. destruct Hf. constructor; simpl; auto using lset_sorted.
    - intros s' Hs'. destruct (list_eq_dec Z.eq_dec s s') as [<-|Hne].
      + rewrite lset_same. eauto.
      + rewrite lset_other by auto. auto.
    - intros s' Hs'. rewrite lset_other by congruence. auto.
    - intros s' Hs'. destruct (list_eq_dec Z.eq_dec s s') as [<-|Hne].
      + rewrite lset_same. eauto.
      + rewrite lset_other by auto. auto.
    - intros s' Hs'. rewrite lset_other by congruence. auto.
  Qed.

  Lemma publish_ok r f G data :
    0 <= r < n -> fok r S0 f -> data = map G (cells r) ->
    exists f', filter_publish data f = Ok f' /\ fok r S0 f' /\ published r f' G /\
      f_inData f' = f_inData f /\ f_outData f' = f_outData f.
  Proof using Hg Hn Hb.
    intros Hr Hf ->. unfold filter_publish, get_mit. destruct (fo_mit _ _ _ Hf) as (km & ->). cbn [bind].
    match goal with |- context [for_each _ ?bd f] => set (body := bd) end.
    destruct (for_each_inv (fun pre f' => fok r S0 f' /\ f_inData f' = f_inData f /\ f_outData f' = f_outData f /\
        (forall s, In s pre -> In s S0 -> exists dst, omap_find lexcmp s (f_winData f') = Some (wfield G r s, dst)))
      body (map fst (f_winData f)) f) as (f' & E & Hf' & E1 & E2 & Hp).
    - split; [auto|]. split; [auto|]. split; [auto|]. intros s [].
    - intros pre s f1 (Hf1 & E1 & E2 & Hp) Hin _.
      assert (HsS : In s S0).
      { destruct (lex_dec s S0) as [H|H]; auto. exfalso. 
        apply (fo_d0 _ _ _ Hf) in H. apply lfind_None in H; [auto|apply Hf]. }
      unfold body. unfold omap_at.
      destruct (fo_d1 _ _ _ Hf1 s HsS) as (src & dst & Es & L1 & L2). rewrite Es. cbn [bind].
      destruct (fo_i1 _ _ _ Hf1 s HsS) as (k & Ei). rewrite Ei. cbn [bind].
      rewrite mai_begin_of, nterms_of.
      rewrite (mai_fill_const None (wlo r s) (whi r s) false (fun g => Some (G g))).
      + cbn [bind]. eexists. split; [reflexivity|].
        fold (wfield G r s). split; [|split; [|split]].
        * apply set_win_fok; auto; [apply wfield_length|eauto].
        * exact E1.
        * exact E2.
        * intros s' Hs' HsS'. simpl. destruct (list_eq_dec Z.eq_dec s s') as [<-|Hne].
          -- rewrite lset_same. eauto.
          -- rewrite lset_other by auto. apply in_app_or in Hs' as [Hs'|[Hs'|[]]]; [auto|congruence].
      + apply (win_good dims n b); auto.
      + rewrite L1, wcells_length. reflexivity.
      + intros i inds v Hi Hv HI Hbox. rewrite HI. cbn [bind].
        apply (win_box dims n b Hg Hn Hb) in Hbox.
        destruct (mai_computeBig_in (blo r) (bhi r) false km inds) as (EB & _); auto using (box_good dims n b Hg Hn Hb).
        rewrite EB. cbn [bind]. rewrite vget_field by auto using (box_good dims n b Hg Hn Hb). cbn [bind].
        rewrite vset_nat by (rewrite Hv; apply nth_error_Some; congruence). reflexivity.
    - exists f'. split; [exact E|]. split; [exact Hf'|]. split; [|auto].
      intros s Hs. apply Hp; auto. destruct (fo_d1 _ _ _ Hf s Hs) as (src & dst & Es & _).
      apply lfind_In in Es; [|apply Hf]. apply in_map_iff. exists (s, (src, dst)). auto.
  Qed.

  Lemma set_mit_fok r S f k : fok r S f -> fok r S (set_mit f (mai_of (blo r) (bhi r) false k)).
  Proof using Type. intros []. constructor; simpl; eauto. Qed.
  Lemma set_in_fok r S f v : fok r S f -> length v = length (cells r) -> fok r S (set_in f v).
  Proof using Type. intros [] H. constructor; simpl; eauto. Qed.
  Lemma set_out_fok r S f v : fok r S f -> length v = length (cells r) -> fok r S (set_out f v).
  Proof using Type. intros [] H. constructor; simpl; eauto. Qed.

  (** A rank whose input is the restriction of the field [G], with its borders published. *)
  Definition rank_holds (r : Z) (G : list Z -> D) (f : filter D) : Prop :=
    fok r S0 f /\ f_inData f = map G (cells r) /\ published r f G.

  Lemma setInDataByIndices_ok r f G :
    0 <= r < n -> fok r S0 f ->
    exists f', filter_setInDataByIndices f G = Ok f' /\ rank_holds r G f' /\ f_outData f' = f_outData f.
  Proof using ar Hg Hn Hb.
    intros Hr Hf. unfold filter_setInDataByIndices, get_mit. destruct (fo_mit _ _ _ Hf) as (km & ->). cbn [bind].
    rewrite mai_begin_of, nterms_of.
    rewrite (mai_fill_const (a_zero ar) (blo r) (bhi r) false G).
    - cbn [bind].
      destruct (publish_ok r (set_in (set_mit f (mai_of (blo r) (bhi r) false (prodZ (extents (blo r) (bhi r)))))
                  (map G (cells r))) G (map G (cells r)) Hr) as (f' & E & Hf' & Hp & E1 & E2); auto.
      + apply set_in_fok; [apply set_mit_fok; auto|apply map_length].
      + exists f'. split; [exact E|]. split; [|exact E2]. split; [auto|]. split; [exact E1|exact Hp].
    - apply (box_good dims n b); auto.
    - apply Hf.
    - intros i inds v Hi Hv HI Hbox. rewrite HI. cbn [bind].
      rewrite vset_nat by (rewrite Hv; apply nth_error_Some; congruence). reflexivity.
  Qed.

  Lemma setInData_ok r f (F : list D -> D) P :
    0 <= r < n -> fok r S0 f ->
    (forall g, in_box (blo r) (bhi r) g -> filter_getPosition ar f g = Ok (P g)) ->
    exists f', filter_setInData ar f F = Ok f' /\ rank_holds r (fun g => F (P g)) f' /\ f_outData f' = f_outData f.
  Proof using ar Hg Hn Hb.
    intros Hr Hf HP. unfold filter_setInData, get_mit. destruct (fo_mit _ _ _ Hf) as (km & ->). cbn [bind].
    rewrite mai_begin_of, nterms_of. set (G := fun g => F (P g)).
    rewrite (mai_fill_const (a_zero ar) (blo r) (bhi r) false G).
    - cbn [bind].
      destruct (publish_ok r (set_in (set_mit f (mai_of (blo r) (bhi r) false (prodZ (extents (blo r) (bhi r)))))
                  (map G (cells r))) G (map G (cells r)) Hr) as (f' & E & Hf' & Hp & E1 & E2); auto.
      + apply set_in_fok; [apply set_mit_fok; auto|apply map_length].
      + exists f'. split; [exact E|]. split; [|exact E2]. split; [auto|]. split; [exact E1|exact Hp].
    - apply (box_good dims n b); auto.
    - apply Hf.
    - intros i inds v Hi Hv HI Hbox. rewrite HI. cbn [bind]. rewrite HP by auto. cbn [bind].
      rewrite vset_nat by (rewrite Hv; apply nth_error_Some; congruence). reflexivity.
  Qed.

  Lemma copy_loop (o : list D) N : forall v, length o = N -> length v = N ->
    for_upto (Z.of_nat N) (fun i v => x <- vget o i ;; vset v i x) v = Ok o.
  Proof using ar.
    intros v Ho Hv.
    destruct (for_upto_inv (fun i w => length w = N /\ forall j, nth j w (a_zero ar) = if Nat.ltb j i then nth j o (a_zero ar) else nth j v (a_zero ar))
       (fun i v => x <- vget o i ;; vset v i x) (Z.of_nat N) v) as (w & E & Lw & Hw).
    - auto.
    - rewrite Nat2Z.id. intros i w Hi (Lw & Hw). rewrite (vget_nat o i (a_zero ar)) by lia. cbn [bind].
      rewrite vset_nat by lia. eexists. split; [reflexivity|]. rewrite upd_length. split; auto.
      intros j. rewrite upd_nth by lia. rewrite Hw.
      destruct (Nat.eqb_spec j i), (Nat.ltb_spec j i), (Nat.ltb_spec j (Datatypes.S i)); subst; try lia; reflexivity.
    - rewrite E. f_equal. apply (nth_ext' (a_zero ar)); [lia|]. intros j Hj. rewrite Hw.
      rewrite Nat2Z.id. replace (Nat.ltb j N) with true by (symmetry; apply Nat.ltb_lt; lia). reflexivity.
  Qed.

  Lemma copyOutToIn_ok r f G :
    0 <= r < n -> fok r S0 f -> f_outData f = map G (cells r) ->
    exists f', filter_copyOutToIn f = Ok f' /\ rank_holds r G f' /\ f_outData f' = f_outData f.
  Proof using ar Hg Hn Hb.
    intros Hr Hf Ho. unfold filter_copyOutToIn, get_mit. destruct (fo_mit _ _ _ Hf) as (km & ->). cbn [bind].
    rewrite nterms_of. pose proof (box_good dims n b Hg Hn Hb r) as Hbox.
    pose proof (good_prod _ _ Hbox) as HN. pose proof (loops_length _ _ false Hbox) as HL.
    replace (prodZ (extents (blo r) (bhi r))) with (Z.of_nat (length (cells r))) by lia.
    rewrite (copy_loop (f_outData f) (length (cells r))) by apply Hf. cbn [bind].
    destruct (publish_ok r (set_in f (f_outData f)) G (f_outData f) Hr) as (f' & E & Hf' & Hp & E1 & E2); auto.
    - apply set_in_fok; auto. apply Hf.
    - exists f'. split; [exact E|]. split; [|exact E2]. split; [auto|]. split; [|exact Hp]. rewrite E1. exact Ho.
  Qed.

  Lemma offsetIndices_ok r S f off g :
    fok r S f -> unit_offset nd off -> in_box (blo r) (bhi r) g ->
    exists inside, filter_offsetIndices f g off = Ok (cwrap dims (shift g off), inside) /\
      (inside = true <-> in_box (blo r) (bhi r) (cwrap dims (shift g off))).
  Proof using Hg Hn Hb.
    intros Hf Hu (G1 & G2 & G3). unfold filter_offsetIndices.
    rewrite (fo_nd _ _ _ Hf), (fo_gd _ _ _ Hf), (fo_lo _ _ _ Hf), (fo_hi _ _ _ Hf).
    pose proof (blo_length dims n b Hg Hn Hb r) as Ebl. pose proof (bhi_length dims n b Hg Hn Hb r) as Ebh.
    assert (Hlo : length off = nd) by apply Hu.
    set (w := cwrap dims (shift g off)).
    assert (Hls : length (shift g off) = nd) by (rewrite shift_length; lia).
    assert (Hlw : length w = nd) by (apply cwrap_length; auto).
    match goal with |- context [for_upto (vlen dims) ?bd ?i] => set (body := bd); set (i0 := i) end.
    destruct (for_upto_inv (fun i (p : list Z * bool) =>
      fst p = firstn i w /\ (snd p = true <-> forall j, (j < i)%nat -> nth j (blo r) 0 <= nth j w 0 < nth j (bhi r) 0))
      body (vlen dims) i0) as ([l ins] & E & L1 & L2).
    - unfold i0; simpl. split; auto. split; auto. intros _ j Hj. lia.
    - unfold vlen. rewrite Nat2Z.id. intros i [l ins] Hi (L1 & L2). simpl in L1, L2. unfold body.
      rewrite (vget_nat g i 0) by lia. cbn [bind]. rewrite (vget_nat off i 0) by lia. cbn [bind].
      pose proof (box_in_grid n dims b r i Hg Hb Hi) as HB. pose proof (grid_dim_range dims i Hg Hi) as HD.
      specialize (G3 i ltac:(lia)). pose proof (unit_int off i Hu) as Hoi.
      rewrite (i32_id (nth i g 0)) by lia. rewrite int_op_ok by (unfold two31 in *; lia). cbn [bind].
      rewrite (vget_nat dims i 0) by lia. cbn [bind]. rewrite umod_ok by lia. cbn [bind].
      rewrite (vget_nat (blo r) i 0) by lia. cbn [bind]. rewrite (vget_nat (bhi r) i 0) by lia. cbn [bind].
      assert (Ew : u64 (nth i g 0 + nth i off 0) mod nth i dims 0 = nth i w 0).
      { unfold w. rewrite cwrap_nth, shift_nth by lia. reflexivity. }
      rewrite Ew.
      assert (Hwi : 0 <= nth i w 0 < nth i dims 0).
      { rewrite <- Ew. apply Z.mod_pos_bound. lia. }
      rewrite !i32_id by lia. eexists. split; [reflexivity|]. simpl. split.
      + rewrite L1. symmetry. apply firstn_S_nth. lia.
      + rewrite !andb_true_iff, Z.leb_le, Z.ltb_lt, L2. split.
        * intros [[H1 H2] H3] j Hj. destruct (Nat.eq_dec j i) as [->|Hne]; [lia|apply H1; lia].
        * intros H. split; [split|]; [intros j Hj; apply H; lia| |]; apply H; lia.
    - rewrite E. unfold vlen in L1, L2. rewrite Nat2Z.id in L1, L2. simpl in L1, L2.
      rewrite <- Hlw in L1. rewrite firstn_all in L1. subst l.
      exists ins. split; [reflexivity|]. rewrite L2. split.
      + intros H. split; [lia|]. split; [lia|]. intros j Hj. apply H. lia.
      + intros (_ & _ & H) j Hj. apply H. lia.
  Qed.

  Lemma fetch_ok remote r f s r' G :
    fok r S0 f -> In s S0 -> 0 <= r' < n -> remote r' s = Ok (wfield G r' s) ->
    exists src dst, omap_find lexcmp s (f_winData f) = Some (src, dst) /\
      length src = Z.to_nat (prodZ (wext s)) /\
      filter_fetch remote f r' s = Ok (wfield G r' s,
        set_win f (omap_set lexcmp s (src, wfield G r' s) (f_winData f)) (f_winIter f)).
  Proof using Hg Hn Hb.
    intros Hf Hs Hr' Hrem. unfold filter_fetch, omap_at.
    destruct (fo_i1 _ _ _ Hf s Hs) as (k & ->). cbn [bind].
    destruct (fo_w1 _ _ _ Hf s Hs) as (ids & ->). cbn [bind].
    destruct (fo_d1 _ _ _ Hf s Hs) as (src & dst & Es & L1 & L2). rewrite Es. cbn [bind].
    exists src, dst. split; [reflexivity|]. split; [exact L1|].
    rewrite nterms_of, (win_extents dims n b) by auto.
    pose proof (wext_range dims n b Hg Hn Hb s) as HW.
    rewrite i32_id by (unfold two31 in *; lia).
    replace (prodZ (wext s) <? 0) with false by (symmetry; apply Z.ltb_ge; lia).
    rewrite (fo_sz _ _ _ Hf).
    replace ((0 <=? r') && (r' <? n)) with true by (symmetry; apply andb_true_iff; split; [apply Z.leb_le|apply Z.ltb_lt]; lia).
    cbn [negb]. rewrite Hrem. cbn [bind].
    unfold vlen. rewrite wfield_length, L2. rewrite Z2Nat.id by lia. rewrite Z.ltb_irrefl.
    rewrite <- (wfield_length G r' s) at 1. rewrite firstn_all.
    rewrite <- L2 at 1. rewrite skipn_all, app_nil_r.
    rewrite <- (wfield_length G r' s) at 1. rewrite firstn_all.
    rewrite <- L2 at 1. rewrite skipn_all, app_nil_r. reflexivity.
  Qed.

  Lemma set_wd_fok r S f s src dst :
    fok r S f -> In s S -> length src = Z.to_nat (prodZ (wext s)) -> length dst = Z.to_nat (prodZ (wext s)) ->
    fok r S (set_win f (omap_set lexcmp s (src, dst) (f_winData f)) (f_winIter f)).
  Proof using Type.
    intros Hf Hs H1 H2. destruct Hf. constructor; simpl; auto using lset_sorted.
    - intros s' Hs'. destruct (list_eq_dec Z.eq_dec s s') as [<-|Hne].
      + rewrite lset_same. eauto.
      + rewrite lset_other by auto. auto.
    - intros s' Hs'. rewrite lset_other by congruence. auto.
  Qed.

  (** A displaced cell that is not in the box of the rank is in the window of the neighbour. *)
  Definition reaches (off : list Z) : Prop :=
    forall r g, 0 <= r < n -> in_box (blo r) (bhi r) g ->
      ~ in_box (blo r) (bhi r) (cwrap dims (shift g off)) ->
      nonzero off = true /\
      in_box (wlo (nb_of b r off) (opp off)) (whi (nb_of b r off) (opp off)) (cwrap dims (shift g off)).

  Lemma box_grid r g : in_box (blo r) (bhi r) g -> in_grid dims g.
  Proof using Hg Hn Hb.
    intros (H1 & H2 & H3). rewrite (blo_length dims n b) in H1 by auto. apply in_grid_nth. split; auto.
    intros j Hj. specialize (H3 j ltac:(lia)). pose proof (box_in_grid n dims b r j Hg Hb Hj). lia.
  Qed.

  Lemma cwrap_unit off g : unit_offset nd off -> wraps dims off -> in_grid dims g ->
    cwrap dims (shift g off) = wrap dims (shift g off).
  Proof using Hg Hn Hb.
    intros [H1 H2] Hw Hgr. apply cwrap_wrap; auto. intros j Hj. apply grid_dim_range; auto.
  Qed.

  Lemma reaches_wraps off : good_off dims b off -> wraps dims off -> reaches off.
  Proof using Hg Hn Hb.
    intros Ho Hw r g Hr Hbox. rewrite cwrap_unit; [|apply Ho|auto|apply (box_grid r); auto].
    intros Hout. apply (step_box dims n b); auto.
  Qed.

  Lemma reaches_serial off : n = 1 -> unit_offset nd off -> reaches off.
  Proof using Hg Hn Hb.
    intros E Hu r g Hr Hbox Hout. exfalso. apply Hout.
    pose proof (box_grid r g Hbox) as Hgr. apply in_grid_nth in Hgr as [G1 G2].
    assert (Hls : length (shift g off) = nd) by (rewrite shift_length; [auto|rewrite (proj1 Hu); auto]).
    assert (H1 : forall j, (j < nd)%nat -> nth j b 0 = 1).
    { intros j Hj. destruct Hb as (L & P & Q). assert (Hp : allpos b) by (apply allpos_nth; rewrite L; intros i Hi; apply P; auto).
      pose proof (prodZ_ge b j Hp ltac:(lia)). destruct (P j Hj). lia. }
    split; [rewrite cwrap_length, (blo_length dims n b); auto|]. split; [rewrite cwrap_length, (bhi_length dims n b); auto|].
    rewrite cwrap_length by auto. intros j Hj. rewrite cwrap_nth by lia. rewrite (beg_of_nth n), (end_of_nth n) by auto.
    pose proof (coords_range n dims b r j Hb Hj) as Hc. rewrite H1 in Hc by auto.
    replace (nth j (coords b r) 0) with 0 by lia. pose proof (local_dims_mul n dims b j Hb Hj) as EL. rewrite H1 in EL by auto.
    pose proof (grid_dim_range dims j Hg Hj).
    pose proof (Z.mod_pos_bound (u64 (nth j (shift g off) 0)) (nth j dims 0)). lia.
  Qed.

  Lemma code_sum_eq (Hwraps : forall off w, In (off, w) st -> wraps dims off) G g :
    in_grid dims g -> code_sum ar dims st G g = stencil_sum ar dims st G g.
  Proof using Hg Hn Hb Hoff.
    intros Hgr. unfold code_sum, stencil_sum. generalize (a_zero ar).
    assert (H : forall p, In p st -> cwrap dims (shift g (fst p)) = wrap dims (shift g (fst p))).
    { intros [off w] Hp. apply cwrap_unit; auto; [apply (Hoff _ _ Hp)|apply (Hwraps _ _ Hp)]. }
    clear Hmap Hoff Hwraps. induction st as [|p l IH]; intros a; simpl; [reflexivity|].
    rewrite H by (left; reflexivity). apply IH. intros q Hq. apply H. right; auto.
  Qed.

  (** The loop over the cells adds weight times displaced value everywhere. *)
  Lemma accumulate_ok r f G F off w :
    0 <= r < n -> fok r S0 f -> unit_offset nd off -> reaches off ->
    f_inData f = map G (cells r) -> f_outData f = map F (cells r) ->
    filter_accumulate ar f (mai_of (wlo (nb_of b r off) (opp off)) (whi (nb_of b r off) (opp off)) false 0)
      (if nonzero off then Some (wfield G (nb_of b r off) (opp off)) else None) off w =
    Ok (set_out (set_mit f (mai_of (blo r) (bhi r) false (prodZ (extents (blo r) (bhi r)))))
         (map (fun g => a_add ar (F g) (a_mul ar w (G (cwrap dims (shift g off))))) (cells r))).
  Proof using Hg Hn Hb.
    intros Hr Hf Hu Hw Hin Hout. unfold filter_accumulate, get_mit.
    destruct (fo_mit _ _ _ Hf) as (km & ->). cbn [bind]. rewrite mai_begin_of, nterms_of, Hout.
    set (r' := nb_of b r off). set (sd := opp off).
    pose proof (box_good dims n b Hg Hn Hb) as HBG.
    pose proof (win_good dims n b Hg Hn Hb) as HWG.
    assert (Hr' : 0 <= r' < n) by (apply (nb_of_range n dims); auto; apply Hu).
    rewrite (mai_fill_map (a_zero ar) (blo r) (bhi r) false
              (fun g x => a_add ar x (a_mul ar w (G (cwrap dims (shift g off)))))); [reflexivity|auto|].
    intros i g v Hi Hv HI Hbox. rewrite HI. cbn [bind].
    assert (Hil : (i < length v)%nat) by (rewrite Hv; apply nth_error_Some; congruence).
    destruct (offsetIndices_ok r S0 f off g Hf Hu Hbox) as (inside & -> & Hins). cbn [bind].
    destruct inside.
    - destruct (mai_computeBig_in (blo r) (bhi r) false (Z.of_nat i) (cwrap dims (shift g off))) as (EB & HB); auto.
      { apply Hins; auto. }
      unfold mai_computeBigIndex_int. unfold mai_computeBigIndex in EB. rewrite EB. cbn [bind].
      rewrite (box_extents dims n b) in * by auto. pose proof (local_prod_range dims n b Hg Hn Hb).
      rewrite i32_id by lia. rewrite u64_id by (unfold two31, two64 in *; lia).
      rewrite Hin. rewrite <- (box_extents dims n b Hg Hn Hb r).
      rewrite vget_field by (auto; apply Hins; auto). cbn [bind].
      rewrite (vget_nat v i (a_zero ar)) by auto. cbn [bind]. rewrite vset_nat by auto. reflexivity.
    - destruct (Hw r g Hr Hbox) as (Hnz & Hwin).
      { intros H. apply Hins in H. discriminate. }
      rewrite Hnz. fold r' sd in Hwin.
      destruct (mai_computeBig_in (wlo r' sd) (whi r' sd) false 0 (cwrap dims (shift g off))) as (EB & HB); auto.
      unfold mai_computeBigIndex_int. unfold mai_computeBigIndex in EB. rewrite EB. cbn [bind].
      assert (Hsz : prodZ (extents (wlo r' sd) (whi r' sd)) < two31)
        by (rewrite (win_extents dims n b) by auto; apply (wext_range dims n b); auto).
      rewrite i32_id by lia. rewrite u64_id by (unfold two31, two64 in *; lia).
      unfold rd, wfield. rewrite (vget_field (fun g => Some (G g))) by auto. cbn [bind].
      rewrite (vget_nat v i (a_zero ar)) by auto. cbn [bind]. rewrite vset_nat by auto. reflexivity.
  Qed.

  Hypothesis Hreach : forall off w, In (off, w) st -> reaches off.

  Definition remote_ok (remote : Z -> list Z -> res (list (option D))) (G : list Z -> D) : Prop :=
    forall r s, 0 <= r < n -> In s S0 -> remote r s = Ok (wfield G r s).

  Definition apply_inv (r : Z) (G F : list Z -> D) (f : filter D) : Prop :=
    rank_holds r G f /\ f_outData f = map F (cells r).

  Lemma branch_ok remote r f G F off w :
    0 <= r < n -> remote_ok remote G -> In (off, w) st -> apply_inv r G F f ->
    exists f', filter_branch ar remote f (off, w) = Ok f' /\
      apply_inv r G (fun g => a_add ar (F g) (a_mul ar w (G (cwrap dims (shift g off))))) f'.
  Proof using Hg Hn Hb Hoff Hreach.
    intros Hr Hrem Hst ((Hf & Hin & Hp) & Hout). pose proof (Hoff off w Hst) as Hu.
    unfold filter_branch. rewrite side_eq by (auto; apply Hf). cbn [bind].
    destruct (fo_dcmp _ _ _ Hf) as (k & Ek). rewrite Ek, (fo_rk _ _ _ Hf).
    rewrite cd_getNeighborRank_of; auto; [|apply Hu|].
    2:{ intros j Hj. rewrite u64_rank by auto. pose proof (coords_range n dims b r j Hb Hj). pose proof (unit_int off j Hu). lia. }
    cbn [bind]. rewrite u64_rank by auto.
    assert (Hr' : 0 <= nb_of b r off < n) by (apply (nb_of_range n dims); auto; apply Hu).
    assert (HinS : nonzero off = true -> In (opp off) S0).
    { intros Hnz. apply in_sides. exists off, w. auto. }
    rewrite (windowIter_eq r S0) by (auto using set_dcmp_fok, opp_unit; rewrite nonzero_opp; auto). cbn [bind].
    set (f1 := set_dcmp (set_dcmp f (cube_of n dims b r)) (cube_of n dims b (nb_of b r off))).
    assert (Hf1 : fok r S0 f1) by (unfold f1; auto using set_dcmp_fok).
    destruct (nonzero off) eqn:Hnz.
    - destruct (fo_w1 _ _ _ Hf1 (opp off) (HinS eq_refl)) as (ids & ->).
      destruct (fetch_ok remote r f1 (opp off) (nb_of b r off) G Hf1 (HinS eq_refl) Hr') as (src & dst & Es & L1 & ->).
      { apply Hrem; auto. }
      cbn [bind].
      set (f2 := set_win f1 (omap_set lexcmp (opp off) (src, wfield G (nb_of b r off) (opp off)) (f_winData f1)) (f_winIter f1)).
      assert (Hf2 : fok r S0 f2) by (unfold f2; apply set_wd_fok; auto using wfield_length).
      pose proof (accumulate_ok r f2 G F off w Hr Hf2 Hu (Hreach _ _ Hst) Hin Hout) as EA.
      rewrite Hnz in EA. rewrite EA. eexists. split; [reflexivity|].
      split; [|reflexivity]. split; [|split].
      + apply set_out_fok; [apply set_mit_fok; auto|apply map_length].
      + exact Hin.
      + intros s Hs. simpl. destruct (list_eq_dec Z.eq_dec (opp off) s) as [<-|Hne].
        * rewrite lset_same. destruct (Hp _ Hs) as (d' & Ed). simpl in Es. rewrite Es in Ed. inversion Ed; subst. eauto.
        * rewrite lset_other by auto. apply Hp; auto.
    - replace (omap_find lexcmp (opp off) (f_winIds f1)) with (@None (Z * Z * Z)).
      2:{ symmetry. apply (fo_w0 _ _ _ Hf1). intros H. apply sides_unit in H as [_ H]. rewrite nonzero_opp in H. congruence. }
      cbn [bind].
      pose proof (accumulate_ok r f1 G F off w Hr Hf1 Hu (Hreach _ _ Hst) Hin Hout) as EA.
      rewrite Hnz in EA. rewrite EA. eexists. split; [reflexivity|].
      split; [|reflexivity]. split; [|split].
      + apply set_out_fok; [apply set_mit_fok; auto|apply map_length].
      + exact Hin.
      + intros s Hs. simpl. apply Hp; auto.
  Qed.

  Lemma zeroOut_ok r f G :
    rank_holds r G f -> exists f', filter_zeroOut ar f = Ok f' /\ apply_inv r G (fun _ => a_zero ar) f'.
  Proof using Hg Hn Hb.
    intros (Hf & Hin & Hp). unfold filter_zeroOut, get_mit. destruct (fo_mit _ _ _ Hf) as (km & ->). cbn [bind].
    rewrite mai_begin_of, nterms_of.
    rewrite (mai_fill_const (a_zero ar) (blo r) (bhi r) false (fun _ => a_zero ar)).
    - cbn [bind]. eexists. split; [reflexivity|]. split; [|reflexivity]. split; [|split].
      + apply set_out_fok; [apply set_mit_fok; auto|apply map_length].
      + exact Hin.
      + intros s Hs. simpl. apply Hp; auto.
    - apply (box_good dims n b); auto.
    - apply Hf.
    - intros i inds v Hi Hv HI Hbox. rewrite vset_nat by (rewrite Hv; apply nth_error_Some; congruence). reflexivity.
  Qed.

  Lemma applyFilter_ok remote r f G :
    0 <= r < n -> remote_ok remote G -> rank_holds r G f ->
    exists f', filter_applyFilter ar remote f = Ok f' /\ apply_inv r G (code_sum ar dims st G) f'.
  Proof using Hg Hn Hb Hoff Hreach.
    intros Hr Hrem HG. unfold filter_applyFilter.
    destruct (zeroOut_ok r f G HG) as (f0 & -> & H0). cbn [bind].
    assert (Est : f_stencil f0 = st) by (destruct H0 as ((Hf & _) & _); apply Hf). rewrite Est.
    destruct (for_each_inv (fun pre f => apply_inv r G (code_sum ar dims pre G) f)
       (fun it f => filter_branch ar remote f it) st f0) as (f' & E & HI).
    - exact H0.
    - intros pre [off w] f1 H1 Hin _.
      destruct (branch_ok remote r f1 G _ off w Hr Hrem Hin H1) as (f2 & E & H2). exists f2. split; [exact E|].
      unfold code_sum in *. destruct H2 as (Ha & Hb2). split; [exact Ha|]. rewrite Hb2. apply map_ext. intros g.
      rewrite fold_left_app. reflexivity.
    - exists f'. auto.
  Qed.
End Rank.
