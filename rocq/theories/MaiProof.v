(** * Proofs about MultiArrayIter *)
From Coq Require FinFun.
From Verif Require Import Cpp CppProof MaiModel MaiSpec Radix.
Local Open Scope Z_scope.
Local Arguments prodZ : simpl never.

(** u64 is a ring morphism onto Z/2^64. *)
Lemma u64_mul_l a b : u64 (u64 a * b) = u64 (a * b).
Proof. unfold u64. apply Zmult_mod_idemp_l. Qed.
Lemma u64_mul_r a b : u64 (a * u64 b) = u64 (a * b).
Proof. unfold u64. apply Zmult_mod_idemp_r. Qed.
Lemma u64_add_l a b : u64 (u64 a + b) = u64 (a + b).
Proof. unfold u64. apply Zplus_mod_idemp_l. Qed.
Lemma u64_add_r a b : u64 (a + u64 b) = u64 (a + b).
Proof. unfold u64. apply Zplus_mod_idemp_r. Qed.
Lemma u64_u64 a : u64 (u64 a) = u64 a.
Proof. unfold u64. apply Zmod_mod. Qed.

Lemma skipn_cons_nth {A} (l : list A) d i :
  (i < length l)%nat -> skipn i l = nth i l d :: skipn (S i) l.
Proof.
  revert i; induction l as [|x l IH]; intros [|i] H; simpl in *; try lia; auto. apply IH. lia.
Qed.

Lemma firstn_S_nth {A} (l : list A) d i :
  (i < length l)%nat -> firstn (S i) l = firstn i l ++ [nth i l d].
Proof.
  revert i; induction l as [|x l IH]; intros [|i] H; simpl in *; try lia; auto.
  f_equal. apply IH. lia.
Qed.

Lemma nth_repeat0 n i : nth i (repeat 0 n) 0 = 0.
Proof. revert i; induction n; intros [|i]; simpl; auto. Qed.

(** ** build *)
Lemma mai_extents_eq lo hi : wf_box lo hi -> mai_extents lo hi = Ok (extents lo hi).
Proof.
  intros (Hl & Hne & Hn & Hb). unfold mai_extents.
  rewrite (tabulate_ok (fun i => nth i (extents lo hi) 0)).
  - unfold vlen. rewrite Nat2Z.id. rewrite <- (extents_length lo hi Hl).
    rewrite <- list_as_map_seq. reflexivity.
  - intros i Hi. unfold vlen in Hi. rewrite Nat2Z.id in Hi.
    rewrite (vget_nat hi i 0) by lia. cbn [bind]. rewrite (vget_nat lo i 0) by lia. cbn [bind].
    rewrite extents_nth by assumption. destruct (Hb i Hi) as [H1 H2]. f_equal. apply u64_id.
    unfold two64. change (2 ^ 64) with 18446744073709551616 in H2. lia.
Qed.

Lemma mai_ntot_eq e n : n = vlen e -> mai_ntot n e = Ok (u64 (prodZ e)).
Proof.
  intros ->. unfold mai_ntot.
  destruct (for_upto_inv (fun i t => t = u64 (prodZ (firstn i e)))
    (fun i t => d <- vget e i ;; Ok (u64 (t * d))) (vlen e) 1) as (t & -> & Ht).
  - reflexivity.
  - intros i s Hi ->. unfold vlen in Hi. rewrite Nat2Z.id in Hi.
    rewrite (vget_nat e i 0) by exact Hi. cbn [bind]. eexists; split; [reflexivity|].
    rewrite u64_mul_l. rewrite (firstn_S_nth e 0) by exact Hi. rewrite prodZ_app.
    f_equal. rewrite prodZ_cons. change (prodZ []) with 1. ring.
  - unfold vlen in Ht. rewrite Nat2Z.id, firstn_all in Ht. subst. reflexivity.
Qed.

Lemma map_u64_nth l i : (i < length l)%nat -> nth i (map u64 l) 0 = u64 (nth i l 0).
Proof. intros H. change 0 with (u64 0) at 1. apply map_nth. Qed.

Lemma mai_dimProd_eq e n rm :
  n = vlen e -> e <> [] -> n < 2 ^ 31 -> mai_dimProd n e rm = Ok (map u64 (strd rm e)).
Proof.
  intros -> Hne Hn. unfold vlen in *. change (2 ^ 31) with 2147483648 in Hn.
  set (m := length e) in *.
  assert (Hm : (0 < m)%nat) by (destruct e; [contradiction|unfold m; simpl; lia]).
  unfold mai_dimProd. destruct rm.
  - rewrite Nat2Z.id. rewrite u64_id by (unfold two64; lia).
    rewrite i32_id by (unfold two31; lia).
    replace (Z.of_nat m - 1) with (Z.of_nat (m - 1)) by lia.
    rewrite vset_nat by (rewrite repeat_length; lia). cbn [bind].
    match goal with |- for_upto ?c ?b ?s = _ =>
      destruct (for_upto_inv (fun k dp => length dp = m /\
        forall i, (m - 1 - k <= i < m)%nat -> nth i dp 0 = u64 (prodZ (skipn (S i) e))) b c s)
        as (dp & -> & Hlen & Hdp) end.
    + split; [rewrite upd_length, repeat_length; reflexivity|].
      intros i Hi. assert (i = (m - 1)%nat) as -> by lia.
      rewrite upd_nth by (rewrite repeat_length; lia). rewrite Nat.eqb_refl.
      rewrite skipn_all2 by (unfold m; lia). reflexivity.
    + intros k dp Hk [Hlen Hdp].
      replace (Z.of_nat m - 2 - Z.of_nat k + 1) with (Z.of_nat (m - 1 - k)) by lia.
      rewrite (vget_nat dp _ 0) by lia. cbn [bind].
      rewrite (vget_nat e _ 0) by (fold m; lia). cbn [bind].
      replace (Z.of_nat m - 2 - Z.of_nat k) with (Z.of_nat (m - 2 - k)) by lia.
      rewrite vset_nat by lia. eexists; split; [reflexivity|].
      split; [rewrite upd_length; exact Hlen|].
      intros i Hi. rewrite upd_nth by lia. destruct (Nat.eqb_spec i (m - 2 - k)) as [->|Hne'].
      * rewrite Hdp by lia. rewrite u64_mul_l.
        replace (S (m - 2 - k)) with (m - 1 - k)%nat by lia.
        rewrite (skipn_cons_nth e 0 (m - 1 - k)) by (fold m; lia).
        rewrite prodZ_cons. f_equal. ring.
      * apply Hdp. lia.
    + f_equal. apply (nth_ext' 0).
      * rewrite map_length, strd_length. exact Hlen.
      * intros i Hi. rewrite map_u64_nth by (rewrite strd_length; lia).
        rewrite strd_row_nth by (fold m; lia). apply Hdp. lia.
  - rewrite Nat2Z.id. change 0 with (Z.of_nat 0) at 2.
    rewrite vset_nat by (rewrite repeat_length; lia). cbn [bind].
    match goal with |- for_upto ?c ?b ?s = _ =>
      destruct (for_upto_inv (fun k dp => length dp = m /\
        forall i, (i <= k)%nat -> (i < m)%nat -> nth i dp 0 = u64 (prodZ (firstn i e))) b c s)
        as (dp & -> & Hlen & Hdp) end.
    + split; [rewrite upd_length, repeat_length; reflexivity|].
      intros i Hi Hi'. assert (i = O) as -> by lia.
      rewrite upd_nth by (rewrite repeat_length; lia). reflexivity.
    + intros k dp Hk [Hlen Hdp].
      cbv beta zeta. replace (1 + Z.of_nat k - 1) with (Z.of_nat k) by lia.
      rewrite (vget_nat dp _ 0) by lia. cbn [bind].
      rewrite (vget_nat e _ 0) by (fold m; lia). cbn [bind].
      replace (1 + Z.of_nat k) with (Z.of_nat (S k)) by lia.
      rewrite vset_nat by lia. eexists; split; [reflexivity|].
      split; [rewrite upd_length; exact Hlen|].
      intros i Hi Hi'. rewrite upd_nth by lia. destruct (Nat.eqb_spec i (S k)) as [->|Hne'].
      * rewrite Hdp by lia. rewrite u64_mul_l.
        rewrite (firstn_S_nth e 0) by (fold m; lia). rewrite prodZ_app, prodZ_cons.
        change (prodZ []) with 1. f_equal. ring.
      * apply Hdp; lia.
    + f_equal. apply (nth_ext' 0).
      * rewrite map_length, strd_length. exact Hlen.
      * intros i Hi. rewrite map_u64_nth by (rewrite strd_length; lia).
        rewrite strd_col_nth by (fold m; lia). apply Hdp; lia.
Qed.

Lemma wf_box_extents_ne lo hi : wf_box lo hi -> extents lo hi <> [].
Proof.
  intros (Hl & Hne & _) E. apply Hne. apply length_zero_iff_nil.
  rewrite <- (extents_length lo hi Hl), E. reflexivity.
Qed.

Lemma wf_box_vlen lo hi : wf_box lo hi -> vlen lo = vlen (extents lo hi).
Proof. intros (Hl & _). unfold vlen. rewrite extents_length by exact Hl. reflexivity. Qed.

Lemma mai_build_wf lo hi rm :
  wf_box lo hi ->
  mai_build lo hi rm =
  Ok (mkMai lo hi (extents lo hi) (map u64 (strd rm (extents lo hi))) rm
        (u64 (prodZ (extents lo hi))) (vlen lo) 0).
Proof.
  intros Hwf. unfold mai_build.
  rewrite mai_extents_eq by exact Hwf. cbn [bind].
  rewrite mai_ntot_eq by (apply wf_box_vlen; exact Hwf). cbn [bind].
  rewrite mai_dimProd_eq.
  - reflexivity.
  - apply wf_box_vlen; exact Hwf.
  - apply wf_box_extents_ne; exact Hwf.
  - apply Hwf.
Qed.

(** Iterators over non-empty boxes with fewer than 2^64 cells: closed form of every reachable state. *)
Definition mai_of (lo hi : list Z) (rm : bool) (b : Z) : mai :=
  mkMai lo hi (extents lo hi) (strd rm (extents lo hi)) rm (prodZ (extents lo hi)) (vlen lo) b.

Definition good_box (lo hi : list Z) : Prop :=
  wf_box lo hi /\ nonempty_box lo hi /\ prodZ (extents lo hi) < 2 ^ 64.

Lemma good_allpos lo hi : good_box lo hi -> allpos (extents lo hi).
Proof.
  intros ((Hl & _) & Hn & _). apply allpos_nth. intros j Hj.
  rewrite extents_length in Hj by exact Hl. rewrite extents_nth by assumption.
  specialize (Hn j Hj). lia.
Qed.

Lemma good_prod lo hi : good_box lo hi -> 0 < prodZ (extents lo hi) < two64.
Proof.
  intros H. split; [apply prodZ_pos, good_allpos, H|]. apply H.
Qed.

Lemma map_u64_id l : (forall j, (j < length l)%nat -> 0 <= nth j l 0 < two64) -> map u64 l = l.
Proof.
  intros H. apply (nth_ext' 0).
  - apply map_length.
  - intros j Hj. rewrite map_length in Hj. rewrite map_u64_nth by exact Hj. apply u64_id, H, Hj.
Qed.

Lemma mai_build_good lo hi rm : good_box lo hi -> mai_build lo hi rm = Ok (mai_of lo hi rm 0).
Proof.
  intros H. rewrite mai_build_wf by apply H. unfold mai_of.
  pose proof (good_prod lo hi H) as HP. pose proof (good_allpos lo hi H) as Hp.
  rewrite (u64_id (prodZ (extents lo hi))) by lia. rewrite map_u64_id; [reflexivity|].
  intros j Hj. rewrite strd_length in Hj.
  pose proof (strd_le rm _ j Hp Hj) as Hs.
  pose proof (proj1 (allpos_nth _) (strd_pos rm _ Hp) j ltac:(rewrite strd_length; exact Hj)).
  pose proof (proj1 (allpos_nth _) Hp j Hj). nia.
Qed.

Lemma good_lo lo hi j : good_box lo hi -> (j < length lo)%nat -> 0 <= nth j lo 0 < nth j hi 0 /\ nth j hi 0 < two64.
Proof.
  intros ((Hl & Hne & Hnd & Hb) & Hn & _) Hj. specialize (Hb j Hj). specialize (Hn j Hj).
  rewrite two64_pow. lia.
Qed.

Lemma good_len lo hi : good_box lo hi -> length (extents lo hi) = length lo.
Proof. intros ((Hl & _) & _). apply extents_length, Hl. Qed.

Lemma mai_getIndices_of lo hi rm b :
  good_box lo hi -> mai_getIndices (mai_of lo hi rm b) = Ok (vadd lo (digs rm (extents lo hi) b)).
Proof.
  intros H. pose proof (good_allpos lo hi H) as Hp. pose proof (good_len lo hi H) as HL.
  unfold mai_getIndices, mai_of; simpl m_ndims; simpl m_lo; simpl m_dimProd; simpl m_dims;
    simpl m_bigIndex.
  rewrite (tabulate_ok (fun i => nth i (vadd lo (digs rm (extents lo hi) b)) 0)).
  - unfold vlen. rewrite Nat2Z.id.
    pose proof (list_as_map_seq (vadd lo (digs rm (extents lo hi) b)) 0) as E.
    rewrite vadd_length in E by (rewrite digs_length, HL; reflexivity).
    f_equal. symmetry. exact E.
  - intros i Hi. unfold vlen in Hi. rewrite Nat2Z.id in Hi.
    rewrite (vget_nat lo i 0) by exact Hi. cbn [bind].
    rewrite (vget_nat _ i 0) by (rewrite strd_length, HL; exact Hi). cbn [bind].
    pose proof (proj1 (allpos_nth _) (strd_pos rm _ Hp) i
                  ltac:(rewrite strd_length, HL; exact Hi)) as Hs.
    rewrite udiv_ok by lia. cbn [bind].
    rewrite (vget_nat (extents lo hi) i 0) by (rewrite HL; exact Hi). cbn [bind].
    pose proof (proj1 (allpos_nth _) Hp i ltac:(rewrite HL; exact Hi)) as He.
    rewrite umod_ok by lia. cbn [bind]. f_equal.
    rewrite vadd_nth by (rewrite ?digs_length, ?HL; exact Hi).
    rewrite digs_nth by (rewrite HL; exact Hi).
    apply u64_id. destruct (good_lo lo hi i H Hi) as [H1 H2].
    pose proof (Z.mod_pos_bound (b / nth i (strd rm (extents lo hi)) 0) _ He) as Hm.
    pose proof (extents_nth lo hi i ltac:(apply H) Hi). lia.
Qed.

Lemma mai_computeBig_of lo hi rm b v :
  good_box lo hi -> length v = length lo ->
  mai_computeBig (mai_of lo hi rm b) v = Ok (u64 (dot (strd rm (extents lo hi)) (vsub v lo))).
Proof.
  intros H Hv. pose proof (good_len lo hi H) as HL.
  unfold mai_computeBig, mai_of; simpl m_ndims; simpl m_lo; simpl m_dimProd.
  set (S' := strd rm (extents lo hi)). set (W := vsub v lo).
  assert (HS : length S' = length lo) by (unfold S'; rewrite strd_length; exact HL).
  assert (HW : length W = length lo) by (unfold W; rewrite vsub_length; exact Hv).
  match goal with |- for_upto ?c ?bd ?s = _ =>
    destruct (for_upto_inv (fun i bi => bi = u64 (dot (firstn i S') (firstn i W))) bd c s)
      as (t & -> & Ht) end.
  - reflexivity.
  - intros i s Hi ->. unfold vlen in Hi. rewrite Nat2Z.id in Hi.
    rewrite (vget_nat S' i 0) by lia. cbn [bind]. rewrite (vget_nat v i 0) by lia. cbn [bind].
    rewrite (vget_nat lo i 0) by lia. cbn [bind]. eexists; split; [reflexivity|].
    rewrite u64_add_l. rewrite <- u64_add_r, u64_mul_r, u64_add_r.
    rewrite dot_firstn_S by lia. f_equal. f_equal. f_equal. unfold W. rewrite vsub_nth by lia. reflexivity.
  - unfold vlen in Ht. rewrite Nat2Z.id in Ht. rewrite !firstn_all2 in Ht by lia. subst. reflexivity.
Qed.

Lemma vsub_vadd lo w : length lo = length w -> vsub (vadd lo w) lo = w.
Proof.
  revert w; induction lo as [|l lo IH]; intros [|x w] H; simpl in *; try discriminate; auto.
  rewrite IH by lia. f_equal. lia.
Qed.
Lemma vadd_vsub lo v : length lo = length v -> vadd lo (vsub v lo) = v.
Proof.
  revert v; induction lo as [|l lo IH]; intros [|x w] H; simpl in *; try discriminate; auto.
  rewrite IH by lia. f_equal. lia.
Qed.

Lemma in_box_digit_vec lo hi v : length lo = length hi -> in_box lo hi v -> digit_vec (extents lo hi) (vsub v lo).
Proof.
  intros Hl (H1 & H2 & H3). split.
  - rewrite vsub_length, extents_length; auto.
  - intros j Hj. rewrite extents_length in Hj by exact Hl.
    rewrite vsub_nth, extents_nth by lia. specialize (H3 j ltac:(lia)). lia.
Qed.

Lemma digit_vec_in_box lo hi w : length lo = length hi -> digit_vec (extents lo hi) w -> in_box lo hi (vadd lo w).
Proof.
  intros Hl [H1 H2]. rewrite extents_length in H1 by exact Hl.
  assert (HLv : length (vadd lo w) = length lo) by (apply vadd_length; lia).
  split; [exact HLv|]. split; [lia|].
  intros j Hj. rewrite HLv in Hj. rewrite vadd_nth by lia.
  specialize (H2 j ltac:(rewrite extents_length by exact Hl; exact Hj)).
  rewrite extents_nth in H2 by lia. lia.
Qed.

Lemma mai_computeBig_in lo hi rm b v :
  good_box lo hi -> in_box lo hi v ->
  mai_computeBigIndex (mai_of lo hi rm b) v = Ok (dot (strd rm (extents lo hi)) (vsub v lo)) /\
  0 <= dot (strd rm (extents lo hi)) (vsub v lo) < prodZ (extents lo hi).
Proof.
  intros H Hv. assert (Hl : length lo = length hi) by apply H.
  pose proof (dot_strd_range rm _ _ (in_box_digit_vec lo hi v Hl Hv)) as HR.
  pose proof (good_prod lo hi H). split; [|exact HR].
  unfold mai_computeBigIndex. rewrite mai_computeBig_of by (try exact H; apply Hv).
  rewrite u64_id by lia. reflexivity.
Qed.

(** ** The visit loop *)
Lemma mai_visit_of lo hi rm :
  good_box lo hi ->
  exists m', mai_visit (mai_of lo hi rm 0) = Ok (nested_loops rm lo hi, m').
Proof.
  intros H. pose proof (good_prod lo hi H) as HP. pose proof (good_allpos lo hi H) as Hp.
  assert (Hl : length lo = length hi) by apply H.
  unfold mai_visit, mai_getNumberOfTerms.
  change (m_ntot (mai_of lo hi rm 0)) with (prodZ (extents lo hi)).
  match goal with |- exists m', for_upto ?c ?bd ?s = _ =>
    destruct (for_upto_inv (fun k st =>
      st = (map (fun k => vadd lo (digs rm (extents lo hi) (Z.of_nat k))) (seq 0 k),
            mai_of lo hi rm (u64 (Z.of_nat k)))) bd c s) as (t & -> & Ht) end.
  - reflexivity.
  - intros i s Hi ->. rewrite mai_getIndices_of by exact H. cbn [bind].
    eexists; split; [reflexivity|].
    rewrite seq_S, map_app. simpl map. f_equal.
    + f_equal. f_equal. f_equal. f_equal. apply u64_id. lia.
    + unfold mai_next, mai_setBig, mai_of; simpl. f_equal. rewrite u64_add_l. f_equal. lia.
  - subst t. rewrite nested_loops_enum; [eexists; reflexivity|exact Hl|].
    intros j Hj. destruct (good_lo lo hi j H Hj). lia.
Qed.

(** Spec-level facts about [nested_loops]: complete, no repetition. *)
Lemma in_row_major lo hi v : length lo = length hi -> (In v (row_major lo hi) <-> in_box lo hi v).
Proof.
  revert hi v; induction lo as [|l lo IH]; intros [|h hi] v Hl; try discriminate.
  - simpl. split.
    + intros [<-|[]]. split; [reflexivity|]. split; [reflexivity|]. simpl; lia.
    + intros (H & _). left. destruct v; [reflexivity|discriminate].
  - cbn [row_major]. simpl in Hl. rewrite in_flat_map. split.
    + intros (i & Hi & Hv). apply in_range in Hi. apply in_map_iff in Hv as (w & <- & Hw).
      apply IH in Hw as (H1 & H2 & H3); [|lia].
      split; [simpl; lia|]. split; [simpl; lia|]. intros [|j] Hj; simpl in *; [lia|].
      apply H3. lia.
    + intros (H1 & H2 & H3). destruct v as [|i w]; [discriminate|]. exists i. split.
      * apply in_range. apply (H3 O). simpl; lia.
      * apply in_map. apply IH; [lia|]. simpl in H1, H2. split; [lia|]. split; [lia|].
        intros j Hj. apply (H3 (S j)). simpl. lia.
Qed.

Lemma NoDup_flat_map {A B} (f : A -> list B) l :
  NoDup l -> (forall a, In a l -> NoDup (f a)) ->
  (forall a b x, In a l -> In b l -> In x (f a) -> In x (f b) -> a = b) -> NoDup (flat_map f l).
Proof.
  induction l as [|a l IH]; intros Hl Hf Hd; [constructor|].
  inversion Hl as [|? ? Ha Hl']; subst. simpl.
  assert (Happ : forall (l1 l2 : list B), NoDup l1 -> NoDup l2 -> (forall x, In x l1 -> ~ In x l2) -> NoDup (l1 ++ l2)).
  { clear. induction l1 as [|x l1 IH]; intros l2 H1 H2 H3; simpl; auto.
    inversion H1; subst. constructor.
    - rewrite in_app_iff. intros [H|H]; [contradiction|]. apply (H3 x); [left; reflexivity|exact H].
    - apply IH; auto. intros y Hy. apply H3. right; exact Hy. }
  apply Happ.
  - apply Hf. left; reflexivity.
  - apply IH; auto.
    + intros b Hb. apply Hf. right; exact Hb.
    + intros b c x Hb Hc. apply Hd; right; assumption.
  - intros x Hx Hin. apply in_flat_map in Hin as (b & Hb & Hxb).
    assert (a = b) by (apply (Hd a b x); [left; reflexivity|right; exact Hb|exact Hx|exact Hxb]).
    subst. contradiction.
Qed.

Lemma NoDup_range l h : NoDup (range l h).
Proof.
  unfold range. apply FinFun.Injective_map_NoDup; [|apply seq_NoDup]. intros x y E. lia.
Qed.

Lemma NoDup_row_major lo hi : NoDup (row_major lo hi).
Proof.
  revert hi; induction lo as [|l lo IH]; intros [|h hi]; simpl; try (constructor; [intros []|constructor]).
  apply NoDup_flat_map.
  - apply NoDup_range.
  - intros a _. apply FinFun.Injective_map_NoDup; [|apply IH]. intros x y E. inversion E; reflexivity.
  - intros a b x _ _ Ha Hb. apply in_map_iff in Ha as (u & <- & _).
    apply in_map_iff in Hb as (w & E & _). inversion E; reflexivity.
Qed.

Lemma in_box_rev lo hi v : in_box lo hi v -> in_box (rev lo) (rev hi) (rev v).
Proof.
  intros (H1 & H2 & H3). unfold in_box. rewrite !rev_length. split; [exact H1|]. split; [exact H2|].
  intros j Hj. rewrite !rev_nth by lia. rewrite <- H1, <- H2. apply H3. lia.
Qed.

Lemma in_nested_loops rm lo hi v : length lo = length hi -> (In v (nested_loops rm lo hi) <-> in_box lo hi v).
Proof.
  intros Hl. destruct rm; unfold nested_loops; [apply in_row_major; exact Hl|].
  unfold col_major. rewrite in_map_iff. split.
  - intros (w & <- & Hw). apply in_row_major in Hw; [|rewrite !rev_length; exact Hl].
    apply in_box_rev in Hw. rewrite !rev_involutive in Hw. exact Hw.
  - intros Hv. exists (rev v). split; [apply rev_involutive|].
    apply in_row_major; [rewrite !rev_length; exact Hl|]. apply in_box_rev, Hv.
Qed.

Lemma NoDup_nested_loops rm lo hi : NoDup (nested_loops rm lo hi).
Proof.
  destruct rm; unfold nested_loops; [apply NoDup_row_major|].
  unfold col_major. apply FinFun.Injective_map_NoDup; [|apply NoDup_row_major].
  intros x y E. rewrite <- (rev_involutive x), <- (rev_involutive y), E. reflexivity.
Qed.

Lemma nested_loops_length rm lo hi :
  length lo = length hi -> (forall j, (j < length lo)%nat -> nth j lo 0 <= nth j hi 0) ->
  Z.of_nat (length (nested_loops rm lo hi)) = prodZ (extents lo hi).
Proof.
  intros Hl Hle. rewrite nested_loops_enum by assumption. rewrite map_length, seq_length.
  apply Z2Nat.id, prodZ_nn, extents_nn; assumption.
Qed.

(** ** Histories of calls *)
Lemma nth_nested_loops rm lo hi k :
  good_box lo hi -> 0 <= k < prodZ (extents lo hi) ->
  nth_error (nested_loops rm lo hi) (Z.to_nat k) = Some (vadd lo (digs rm (extents lo hi) k)).
Proof.
  intros H Hk. assert (Hl : length lo = length hi) by apply H.
  rewrite nested_loops_enum; [|exact Hl|intros j Hj; destruct (good_lo lo hi j H Hj); lia].
  rewrite (map_nth_error (fun k => vadd lo (digs rm (extents lo hi) (Z.of_nat k))) _ _ (d := Z.to_nat k)).
  - rewrite Z2Nat.id by lia. reflexivity.
  - rewrite (nth_error_nth' _ O) by (rewrite seq_length; lia). rewrite seq_nth by lia. reflexivity.
Qed.

Lemma digs_mod rm e b : allpos e -> digs rm e (b mod prodZ e) = digs rm e b.
Proof.
  intros H. pose proof (prodZ_pos e H).
  rewrite <- (digs_shift rm e (b mod prodZ e) (b / prodZ e) H). f_equal.
  pose proof (Z.div_mod b (prodZ e)). lia.
Qed.

(** ** Zero extents *)
Lemma tab_from_all_undef {A} (f : Z -> res A) u k cnt j :
  (j < cnt)%nat ->
  (forall i, (k <= i < k + cnt)%nat -> f (Z.of_nat i) = Undef u \/ is_ok (f (Z.of_nat i)) = true) ->
  f (Z.of_nat (k + j)) = Undef u -> tab_from k cnt f = Undef u.
Proof.
  revert k j; induction cnt as [|c IH]; intros k j Hj Hall Hu; [lia|]. cbn [tab_from].
  destruct (Hall k ltac:(lia)) as [E|E].
  - rewrite E. reflexivity.
  - destruct j as [|j].
    + rewrite Nat.add_0_r in Hu. rewrite Hu. reflexivity.
    + destruct (f (Z.of_nat k)) as [a|u'] eqn:Ef; [|discriminate]. cbn [bind].
      rewrite (IH (S k) j); [reflexivity|lia| |].
      * intros i Hi. apply Hall. lia.
      * rewrite <- Hu. f_equal. f_equal. lia.
Qed.

Lemma mai_getIndices_zero lo hi rm b i0 :
  wf_box lo hi -> (i0 < length lo)%nat -> nth i0 lo 0 = nth i0 hi 0 ->
  mai_getIndices (mkMai lo hi (extents lo hi) (map u64 (strd rm (extents lo hi))) rm
        (u64 (prodZ (extents lo hi))) (vlen lo) b) = Undef DivZero.
Proof.
  intros Hwf Hi0 Heq. assert (Hl : length lo = length hi) by apply Hwf.
  unfold mai_getIndices; cbn [m_ndims m_lo m_dimProd m_dims m_bigIndex].
  unfold tabulate, vlen. rewrite Nat2Z.id.
  assert (Hbody : forall i, (i < length lo)%nat ->
    (l <- vget lo (Z.of_nat i) ;; p <- vget (map u64 (strd rm (extents lo hi))) (Z.of_nat i) ;;
     q <- udiv b p ;; d <- vget (extents lo hi) (Z.of_nat i) ;; r <- umod q d ;; Ok (u64 (l + r)))
    = (q <- udiv b (u64 (nth i (strd rm (extents lo hi)) 0)) ;;
       r <- umod q (nth i (extents lo hi) 0) ;; Ok (u64 (nth i lo 0 + r)))).
  { intros i Hi. rewrite (vget_nat lo i 0) by exact Hi. cbn [bind].
    rewrite (vget_nat _ i 0) by (rewrite map_length, strd_length, extents_length by exact Hl; exact Hi).
    cbn [bind]. rewrite map_u64_nth by (rewrite strd_length, extents_length by exact Hl; exact Hi).
    rewrite (vget_nat (extents lo hi) i 0) by (rewrite extents_length by exact Hl; exact Hi).
    reflexivity. }
  apply tab_from_all_undef with (j := i0); [exact Hi0| |].
  - intros i Hi. rewrite Hbody by lia. unfold udiv, umod.
    destruct (_ =? 0); cbn [bind]; [left; reflexivity|].
    destruct (_ =? 0); cbn [bind]; [left; reflexivity|right; reflexivity].
  - rewrite Nat.add_0_l, Hbody by exact Hi0. rewrite extents_nth by (auto; lia).
    unfold udiv, umod. destruct (_ =? 0); cbn [bind]; [reflexivity|].
    rewrite Heq, Z.sub_diag. reflexivity.
Qed.

(** ** The idiomatic loop as an iteration over the nested-loop sequence *)
Definition mai_loop_body {St} (g : list Z -> St -> res St) : Z -> mai * St -> res (mai * St) :=
  fun _ '(it, s) => inds <- mai_getIndices it ;; s' <- g inds s ;; Ok (mai_next it, s').

Lemma mai_loop_from {St} (g : list Z -> St -> res St) lo hi rm k cnt s :
  good_box lo hi -> Z.of_nat k + Z.of_nat cnt < two64 ->
  for_from k cnt (mai_loop_body g) (mai_of lo hi rm (Z.of_nat k), s) =
  (s' <- for_each (map (fun k => vadd lo (digs rm (extents lo hi) (Z.of_nat k))) (seq k cnt)) g s ;;
   Ok (mai_of lo hi rm (Z.of_nat (k + cnt)), s')).
Proof.
  intros H. revert k s; induction cnt as [|c IH]; intros k s Hk.
  - rewrite Nat.add_0_r. reflexivity.
  - cbn [for_from seq map for_each mai_loop_body].
    rewrite mai_getIndices_of by exact H. cbn [bind].
    destruct (g _ s) as [s'|u]; cbn [bind]; [|reflexivity].
    replace (mai_next (mai_of lo hi rm (Z.of_nat k))) with (mai_of lo hi rm (Z.of_nat (S k))).
    + rewrite IH by lia. replace (S k + c)%nat with (k + S c)%nat by lia. reflexivity.
    + unfold mai_next, mai_setBig, mai_of; cbn. f_equal. rewrite u64_id; lia.
Qed.

Lemma mai_loop {St} (g : list Z -> St -> res St) body lo hi rm s :
  good_box lo hi ->
  (forall k it s, body k (it, s) = mai_loop_body g k (it, s)) ->
  for_upto (prodZ (extents lo hi)) body (mai_of lo hi rm 0, s) =
  (s' <- for_each (nested_loops rm lo hi) g s ;;
   Ok (mai_of lo hi rm (prodZ (extents lo hi)), s')).
Proof.
  intros H Hb. pose proof (good_prod lo hi H) as HP. unfold for_upto.
  rewrite (for_from_ext _ (mai_loop_body g)) by (intros k [it t] _; apply Hb).
  change 0 with (Z.of_nat 0) at 1. rewrite mai_loop_from by (auto; lia).
  rewrite nested_loops_enum; [|apply H|].
  - rewrite Nat.add_0_l, Z2Nat.id by lia. reflexivity.
  - intros j Hj. destruct (good_lo lo hi j H Hj). lia.
Qed.
