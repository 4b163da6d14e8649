(** * Proofs about the Filter class *)
From Coq Require Import Sorted Permutation.
From Verif Require Import Cpp CppProof OMap MaiModel MaiSpec Radix MaiProof CdModel CdSpec CdProof FilterModel FilterSpec.
Local Open Scope Z_scope.
Local Arguments prodZ : simpl never.
Local Arguments Z.of_nat : simpl never.

(** ** Loops that fill an array in iteration order *)

Lemma mai_next_of lo hi rm k : 0 <= k -> k + 1 < two64 -> mai_next (mai_of lo hi rm k) = mai_of lo hi rm (k + 1).
Proof.
  intros H1 H2. unfold mai_next, mai_setBig, mai_of; simpl. rewrite u64_id by lia. reflexivity.
Qed.

Lemma mai_begin_of lo hi rm k : mai_begin (mai_of lo hi rm k) = mai_of lo hi rm 0.
Proof. reflexivity. Qed.

Lemma nterms_of lo hi rm k : mai_getNumberOfTerms (mai_of lo hi rm k) = prodZ (extents lo hi).
Proof. reflexivity. Qed.

Lemma loops_length lo hi rm : good_box lo hi -> length (nested_loops rm lo hi) = Z.to_nat (prodZ (extents lo hi)).
Proof.
  intros Hb. destruct Hb as (Hw & Hne & _). destruct Hw as (H1 & H2 & H3 & H4).
  pose proof (nested_loops_length rm lo hi H1) as E. rewrite <- E; [lia|]. intros j Hj. apply H4; auto.
Qed.

Lemma mai_fill {X} (d : X) lo hi rm (h : list Z -> X -> X) body v :
  good_box lo hi -> length v = length (nested_loops rm lo hi) ->
  (forall i inds v, nth_error (nested_loops rm lo hi) i = Some inds -> length v = length (nested_loops rm lo hi) ->
     mai_getIndices (mai_of lo hi rm (Z.of_nat i)) = Ok inds -> in_box lo hi inds ->
     body (Z.of_nat i) (mai_of lo hi rm (Z.of_nat i), v) =
     Ok (mai_next (mai_of lo hi rm (Z.of_nat i)), upd v i (h inds (nth i v d)))) ->
  for_upto (prodZ (extents lo hi)) body (mai_of lo hi rm 0, v) =
  Ok (mai_of lo hi rm (prodZ (extents lo hi)), map (fun p => h (fst p) (snd p)) (combine (nested_loops rm lo hi) v)).
Proof.
  intros Hb Hl Hbody.
  set (L := nested_loops rm lo hi) in *. set (N := prodZ (extents lo hi)).
  pose proof (good_prod lo hi Hb) as HN. fold N in HN.
  assert (HL : length L = Z.to_nat N) by (apply loops_length; auto).
  destruct (for_upto_inv (fun i (s : mai * list X) =>
      fst s = mai_of lo hi rm (Z.of_nat i) /\ length (snd s) = length L /\
      forall j, nth j (snd s) d = if Nat.ltb j i then h (nth j L []) (nth j v d) else nth j v d)
      body N (mai_of lo hi rm 0, v)) as ([m v'] & E & Em & El & Ev).
  - simpl. repeat split; auto.
  - intros i [m w] Hi (Em & El & Ev). simpl in *. subst m.
    destruct (nth_error L i) as [inds|] eqn:EL; [|apply nth_error_None in EL; lia].
    assert (HI : mai_getIndices (mai_of lo hi rm (Z.of_nat i)) = Ok inds).
    { rewrite mai_getIndices_of by auto. f_equal.
      pose proof (nth_nested_loops rm lo hi (Z.of_nat i) Hb ltac:(fold N; lia)) as E.
      rewrite Nat2Z.id in E. fold L in E. congruence. }
    assert (Hin : in_box lo hi inds).
    { apply (in_nested_loops rm); [apply Hb|]. apply nth_error_In with i. exact EL. }
    eexists. split; [apply (Hbody i inds w EL El HI Hin)|]. simpl. split; [|split].
    + rewrite mai_next_of by lia. f_equal. lia.
    + rewrite upd_length. exact El.
    + intros j. rewrite upd_nth by lia.
      destruct (Nat.eqb_spec j i) as [->|Hne].
      * rewrite Ev, Nat.ltb_irrefl. replace (Nat.ltb i (S i)) with true by (symmetry; apply Nat.ltb_lt; lia).
        rewrite (nth_error_nth L i [] EL). reflexivity.
      * rewrite Ev. destruct (Nat.ltb_spec j i), (Nat.ltb_spec j (S i)); try lia; reflexivity.
  - simpl in *. rewrite E. f_equal. rewrite Em, Z2Nat.id by lia. f_equal.
    apply (nth_ext' d).
    + rewrite map_length, combine_length. lia.
    + intros j Hj. rewrite Ev. replace (Nat.ltb j (Z.to_nat N)) with true by (symmetry; apply Nat.ltb_lt; lia).
      rewrite (nth_indep (map _ _) d (h [] d)) by (rewrite map_length, combine_length; lia).
      change (h [] d) with ((fun p => h (fst p) (snd p)) ([] : list Z, d)).
      rewrite map_nth, combine_nth by lia. reflexivity.
Qed.

Lemma combine_map_r {A B C} (f : A -> B -> C) (F : A -> B) l :
  map (fun p => f (fst p) (snd p)) (combine l (map F l)) = map (fun a => f a (F a)) l.
Proof. induction l; simpl; congruence. Qed.

Lemma combine_fst {A B C} (f : A -> C) (l : list A) (v : list B) :
  length v = length l -> map (fun p => f (fst p)) (combine l v) = map f l.
Proof. revert v; induction l; intros [|x v] H; simpl in *; try discriminate; f_equal; auto. Qed.

Lemma mai_fill_const {X} (d : X) lo hi rm (h : list Z -> X) body v :
  good_box lo hi -> length v = length (nested_loops rm lo hi) ->
  (forall i inds v, nth_error (nested_loops rm lo hi) i = Some inds -> length v = length (nested_loops rm lo hi) ->
     mai_getIndices (mai_of lo hi rm (Z.of_nat i)) = Ok inds -> in_box lo hi inds ->
     body (Z.of_nat i) (mai_of lo hi rm (Z.of_nat i), v) =
     Ok (mai_next (mai_of lo hi rm (Z.of_nat i)), upd v i (h inds))) ->
  for_upto (prodZ (extents lo hi)) body (mai_of lo hi rm 0, v) =
  Ok (mai_of lo hi rm (prodZ (extents lo hi)), map h (nested_loops rm lo hi)).
Proof.
  intros H1 H2 H3. rewrite (mai_fill d lo hi rm (fun g _ => h g) body v H1 H2 H3). cbv beta.
  rewrite (combine_fst h) by auto. reflexivity.
Qed.

Lemma mai_fill_map {X} (d : X) lo hi rm (h : list Z -> X -> X) (F : list Z -> X) body :
  good_box lo hi ->
  (forall i inds v, nth_error (nested_loops rm lo hi) i = Some inds -> length v = length (nested_loops rm lo hi) ->
     mai_getIndices (mai_of lo hi rm (Z.of_nat i)) = Ok inds -> in_box lo hi inds ->
     body (Z.of_nat i) (mai_of lo hi rm (Z.of_nat i), v) =
     Ok (mai_next (mai_of lo hi rm (Z.of_nat i)), upd v i (h inds (nth i v d)))) ->
  for_upto (prodZ (extents lo hi)) body (mai_of lo hi rm 0, map F (nested_loops rm lo hi)) =
  Ok (mai_of lo hi rm (prodZ (extents lo hi)), map (fun g => h g (F g)) (nested_loops rm lo hi)).
Proof.
  intros H1 H3. rewrite (mai_fill d lo hi rm h body _ H1 (map_length _ _) H3).
  rewrite combine_map_r. reflexivity.
Qed.

(** Reading the element of a filled array that belongs to a given cell. *)
Lemma nth_error_loops lo hi rm v :
  good_box lo hi -> in_box lo hi v ->
  nth_error (nested_loops rm lo hi) (Z.to_nat (dot (strd rm (extents lo hi)) (vsub v lo))) = Some v.
Proof.
  intros Hb Hv. destruct (mai_computeBig_in lo hi rm 0 v Hb Hv) as (_ & H).
  rewrite nth_nested_loops by auto. f_equal.
  assert (El : length lo = length hi) by apply Hb.
  rewrite digs_dot by (apply in_box_digit_vec; auto). apply vadd_vsub. destruct Hv; auto.
Qed.

Lemma vget_field {X} (F : list Z -> X) lo hi rm v :
  good_box lo hi -> in_box lo hi v ->
  vget (map F (nested_loops rm lo hi)) (dot (strd rm (extents lo hi)) (vsub v lo)) = Ok (F v).
Proof.
  intros Hb Hv. destruct (mai_computeBig_in lo hi rm 0 v Hb Hv) as (_ & H).
  unfold vget. assert (EL : length (nested_loops rm lo hi) = Z.to_nat (prodZ (extents lo hi))) by (apply loops_length; auto).
  unfold vlen. rewrite map_length.
  replace ((0 <=? dot (strd rm (extents lo hi)) (vsub v lo)) &&
           (dot (strd rm (extents lo hi)) (vsub v lo) <? Z.of_nat (length (nested_loops rm lo hi)))) with true
    by (symmetry; apply andb_true_iff; split; [apply Z.leb_le|apply Z.ltb_lt]; lia).
  rewrite (map_nth_error F _ _ (nth_error_loops lo hi rm v Hb Hv)). reflexivity.
Qed.

(** Any data of the right length is the image of some field. *)
Definition field_of {X} (d : X) (lo hi : list Z) (data : list X) (g : list Z) : X :=
  nth (Z.to_nat (dot (strd false (extents lo hi)) (vsub g lo))) data d.

Lemma data_as_field {X} (d : X) lo hi data :
  good_box lo hi -> length data = length (nested_loops false lo hi) ->
  data = map (field_of d lo hi data) (nested_loops false lo hi).
Proof.
  intros Hb Hl. apply (nth_ext' d); [rewrite map_length; auto|].
  intros k Hk.
  pose proof (loops_length lo hi false Hb) as HL. pose proof (good_prod lo hi Hb) as HN.
  rewrite (nth_indep (map _ _) d (field_of d lo hi data [])) by (rewrite map_length; lia).
  rewrite map_nth. unfold field_of. f_equal.
  pose proof (nth_nested_loops false lo hi (Z.of_nat k) Hb ltac:(lia)) as E. rewrite Nat2Z.id in E.
  rewrite (nth_error_nth _ _ [] E). 
  rewrite vsub_vadd by (rewrite digs_length; symmetry; apply good_len; auto).
  rewrite dot_digs by (apply good_allpos; auto). rewrite Z.mod_small by lia. lia.
Qed.

Definition vec (n : nat) (f : nat -> Z) : list Z := map f (seq 0 n).
Lemma vec_length n f : length (vec n f) = n.
Proof. unfold vec. rewrite map_length, seq_length. reflexivity. Qed.
Lemma vec_nth n f j : (j < n)%nat -> nth j (vec n f) 0 = f j.
Proof. intros H. unfold vec. apply map_seq_nth; auto. Qed.

Lemma shift_length g off : length g = length off -> length (shift g off) = length g.
Proof. intros H. apply zipmap_length; auto. Qed.
Lemma wrap_length dims v : length v = length dims -> length (wrap dims v) = length dims.
Proof. intros H. unfold wrap. rewrite map_length, combine_length. lia. Qed.
Lemma shift_nth g off j : length g = length off -> (j < length g)%nat -> nth j (shift g off) 0 = nth j g 0 + nth j off 0.
Proof. intros H Hj. apply (zipmap_nth (fun x y => x + y)); auto. Qed.
Lemma wrap_nth dims v j : length v = length dims -> (j < length v)%nat -> nth j (wrap dims v) 0 = nth j v 0 mod nth j dims 0.
Proof. intros H Hj. apply (zipmap_nth (fun x y => x mod y)); auto. Qed.

Lemma in_grid_nth dims g : in_grid dims g <-> length g = length dims /\ forall j, (j < length dims)%nat -> 0 <= nth j g 0 < nth j dims 0.
Proof.
  unfold in_grid, in_box. rewrite repeat_length. split.
  - intros (H1 & H2 & H3). split; auto. intros j Hj. specialize (H3 j ltac:(lia)). rewrite nth_repeat0 in H3. exact H3.
  - intros (H1 & H2). split; auto. split; auto. intros j Hj. rewrite nth_repeat0. apply H2. lia.
Qed.

Lemma wrap_in_grid dims v : (forall j, (j < length dims)%nat -> 0 < nth j dims 0) -> length v = length dims -> in_grid dims (wrap dims v).
Proof.
  intros Hp Hl. apply in_grid_nth. split; [apply wrap_length; auto|]. intros j Hj.
  rewrite wrap_nth by lia. apply Z.mod_pos_bound. auto.
Qed.

(** ** Displacements, sides and windows *)

Definition nonzero (off : list Z) : bool := existsb (fun x => negb (x =? 0)) off.
Definition opp (off : list Z) : list Z := map Z.opp off.
Definition sides_of {D} (st : list (list Z * D)) : list (list Z) :=
  map opp (List.filter nonzero (map fst st)).

Lemma nonzero_false off : nonzero off = false <-> forall j, nth j off 0 = 0.
Proof.
  unfold nonzero. induction off as [|x off IH]; simpl.
  - split; auto. intros _ [|j]; reflexivity.
  - rewrite orb_false_iff, IH, negb_false_iff, Z.eqb_eq. split.
    + intros [-> H] [|j]; auto.
    + intros H. split; [apply (H O)|]. intros j. apply (H (S j)).
Qed.

Lemma nonzero_true off : nonzero off = true <-> exists j, (j < length off)%nat /\ nth j off 0 <> 0.
Proof.
  unfold nonzero. rewrite existsb_exists. split.
  - intros (x & Hx & Hn). apply In_nth with (d := 0) in Hx as (j & Hj & E). exists j. split; auto.
    rewrite E. apply negb_true_iff, Z.eqb_neq in Hn. exact Hn.
  - intros (j & Hj & Hn). exists (nth j off 0). split; [apply nth_In; auto|]. apply negb_true_iff, Z.eqb_neq; auto.
Qed.

Lemma opp_length off : length (opp off) = length off. Proof. apply map_length. Qed.
Lemma opp_nth off j : nth j (opp off) 0 = - nth j off 0.
Proof. unfold opp. change 0 with (- 0) at 1. apply map_nth. Qed.
Lemma opp_opp off : opp (opp off) = off.
Proof. unfold opp. rewrite map_map. rewrite <- (map_id off) at 2. apply map_ext. intros; lia. Qed.
Lemma opp_inj a c : opp a = opp c -> a = c.
Proof. intros H. rewrite <- (opp_opp a), H. apply opp_opp. Qed.

Lemma numNonZero_eq v : filter_getNumberOfNonZeroElements v =? 0 = negb (nonzero v) \/ two31 <= vlen v.
Proof.
  destruct (Z_lt_ge_dec (vlen v) two31) as [Hl|Hl]; [left|right; lia].
  unfold filter_getNumberOfNonZeroElements.
  assert (H : forall a, 0 <= a -> a + vlen v < two64 ->
    let r := fold_left (fun res x => if negb (x =? 0) then u64 (res + 1) else res) v a in
    a <= r <= a + vlen v /\ (r =? a) = negb (nonzero v)).
  { clear Hl. induction v as [|x v IH]; intros a Ha Hb; simpl.
    - unfold vlen; simpl. rewrite Z.eqb_refl. split; auto. lia.
    - unfold vlen in *. simpl length in *. rewrite Nat2Z.inj_succ in *.
      destruct (x =? 0); simpl.
      + destruct (IH a ltac:(lia) ltac:(lia)) as [H1 H2]. split; [lia|exact H2].
      + rewrite u64_id by lia. destruct (IH (a + 1) ltac:(lia) ltac:(lia)) as [H1 H2]. split; [lia|].
        apply Z.eqb_neq. lia. }
  destruct (H 0) as [_ E]; [lia| |exact E]. unfold vlen, two31, two64 in *. lia.
Qed.

Section Geometry.
  Context (dims : list Z) (n : Z) (b : list Z).
  Hypothesis Hg : grid_ok dims.
  Hypothesis Hn : 1 <= n <= 2 ^ 30.
  Hypothesis Hb : is_decomp n dims b.

  Notation blo := (beg_of dims b).
  Notation bhi := (end_of dims b).
  Notation nd := (length dims).

  Lemma n31 : n < two31. Proof using Hg Hn Hb. unfold two31. lia. Qed.

  Lemma blo_length r : length (blo r) = nd. Proof using Hg Hn Hb. apply (beg_of_length n); auto. Qed.
  Lemma bhi_length r : length (bhi r) = nd. Proof using Hg Hn Hb. apply (end_of_length n); auto. Qed.

  Lemma box_extents r : extents (blo r) (bhi r) = local_dims dims b.
  Proof using Hg Hn Hb.
    apply (nth_ext' 0).
    - rewrite extents_length; rewrite ?blo_length, ?bhi_length, ?local_dims_length; auto. apply Hb.
    - intros j Hj. rewrite extents_length in Hj by (rewrite blo_length, bhi_length; auto). rewrite blo_length in Hj.
      rewrite extents_nth by (rewrite ?blo_length, ?bhi_length; auto).
      rewrite (beg_of_nth n), (end_of_nth n) by auto. lia.
  Qed.

  Lemma local_prod_range : 0 < prodZ (local_dims dims b) < two31.
  Proof using Hg Hn Hb.
    pose proof (local_dims_prod n dims b Hb) as E. pose proof (prodZ_pos _ (local_dims_pos n dims b Hg Hb)).
    destruct Hg as (_ & _ & _ & H1). unfold two31. nia.
  Qed.

  Lemma nd_range : 0 < Z.of_nat nd < two31.
  Proof using Hg Hn Hb. destruct Hg as (H1 & H2 & _). unfold two31. destruct dims; [congruence|]. simpl length in *. lia. Qed.

  Lemma box_good r : good_box (blo r) (bhi r).
  Proof using Hg Hn Hb.
    pose proof nd_range as Hnd.
    split; [|split].
    - split; [rewrite blo_length, bhi_length; auto|]. split.
      { intros E. pose proof (blo_length r) as H. rewrite E in H. simpl in H. lia. }
      split; [rewrite blo_length; unfold two31 in *; lia|].
      intros j Hj. rewrite blo_length in Hj. pose proof (box_in_grid n dims b r j Hg Hb Hj).
      pose proof (grid_dim_range dims j Hg Hj). unfold two31 in *. lia.
    - intros j Hj. rewrite blo_length in Hj. apply (box_in_grid n); auto.
    - rewrite box_extents. pose proof local_prod_range. unfold two31 in *. lia.
  Qed.

  (** The layer of rank [r]'s box on the side [s]. *)
  Definition wlo (r : Z) (s : list Z) : list Z :=
    vec nd (fun j => if 0 <? nth j s 0 then nth j (bhi r) 0 - 1 else nth j (blo r) 0).
  Definition whi (r : Z) (s : list Z) : list Z :=
    vec nd (fun j => if nth j s 0 <? 0 then nth j (blo r) 0 + 1 else nth j (bhi r) 0).
  Definition wext (s : list Z) : list Z :=
    vec nd (fun j => if nth j s 0 =? 0 then nth j (local_dims dims b) 0 else 1).

  Lemma win_extents r s : extents (wlo r s) (whi r s) = wext s.
  Proof using Hg Hn Hb.
    unfold wext. apply (nth_ext' 0).
    - rewrite extents_length; unfold wlo, whi; rewrite ?vec_length; auto.
    - intros j Hj. rewrite extents_length in Hj by (unfold wlo, whi; rewrite ?vec_length; auto).
      unfold wlo in Hj; rewrite vec_length in Hj.
      rewrite extents_nth by (unfold wlo, whi; rewrite ?vec_length; auto).
      unfold wlo, whi. rewrite !vec_nth by auto.
      pose proof (beg_of_nth n dims b r j Hb Hj) as E1. pose proof (end_of_nth n dims b r j Hb Hj) as E2.
      destruct (Z.ltb_spec 0 (nth j s 0)), (Z.ltb_spec (nth j s 0) 0), (Z.eqb_spec (nth j s 0) 0); lia.
  Qed.

  Lemma wext_pos s : allpos (wext s) /\ prodZ (wext s) <= prodZ (local_dims dims b).
  Proof using Hg Hn Hb.
    assert (Hld : length (local_dims dims b) = nd) by (apply local_dims_length; apply Hb).
    assert (Hpos : forall j, (j < nd)%nat -> 0 < nth j (local_dims dims b) 0).
    { pose proof (local_dims_pos n dims b Hg Hb) as H. rewrite allpos_nth in H. rewrite Hld in H. exact H. }
    split.
    - apply allpos_nth. unfold wext. rewrite vec_length. intros j Hj. rewrite vec_nth by auto.
      destruct (_ =? _); auto. lia.
    - apply divisors_prod_le; [unfold wext; rewrite vec_length; auto|].
      rewrite Hld. intros j Hj. unfold wext. rewrite vec_nth by auto. specialize (Hpos j Hj).
      destruct (_ =? _); lia.
  Qed.

  Lemma wext_range s : 0 < prodZ (wext s) < two31.
  Proof using Hg Hn Hb.
    destruct (wext_pos s) as [H1 H2]. pose proof (prodZ_pos _ H1). pose proof local_prod_range. lia.
  Qed.

  Lemma win_in_box r s j : (j < nd)%nat ->
    nth j (blo r) 0 <= nth j (wlo r s) 0 < nth j (whi r s) 0 /\ nth j (whi r s) 0 <= nth j (bhi r) 0.
  Proof using Hg Hn Hb.
    intros Hj. unfold wlo, whi. rewrite !vec_nth by auto.
    pose proof (box_in_grid n dims b r j Hg Hb Hj).
    destruct (Z.ltb_spec 0 (nth j s 0)), (Z.ltb_spec (nth j s 0) 0); lia.
  Qed.

  Lemma win_box r s g : in_box (wlo r s) (whi r s) g -> in_box (blo r) (bhi r) g.
  Proof using Hg Hn Hb.
    intros (H1 & H2 & H3). unfold wlo in H1; rewrite vec_length in H1.
    split; [rewrite blo_length; auto|]. split; [rewrite bhi_length; auto|]. intros j Hj. specialize (H3 j Hj).
    pose proof (win_in_box r s j ltac:(lia)). lia.
  Qed.

  Lemma win_good r s : good_box (wlo r s) (whi r s).
  Proof using Hg Hn Hb.
    pose proof nd_range as Hnd.
    assert (EL : length (wlo r s) = nd) by (unfold wlo; apply vec_length).
    assert (EH : length (whi r s) = nd) by (unfold whi; apply vec_length).
    split; [|split].
    - split; [congruence|]. split.
      { intros E. rewrite E in EL. simpl in EL. lia. }
      split; [rewrite EL; unfold two31 in *; lia|].
      intros j Hj. rewrite EL in Hj. pose proof (win_in_box r s j Hj).
      pose proof (box_in_grid n dims b r j Hg Hb Hj).
      pose proof (grid_dim_range dims j Hg Hj). unfold two31 in *. lia.
    - intros j Hj. rewrite EL in Hj. apply (win_in_box r s j Hj).
    - rewrite win_extents. pose proof (wext_range s). unfold two31 in *. lia.
  Qed.

  Definition good_off (off : list Z) : Prop :=
    unit_offset nd off /\ (axis_offset off \/ forall j, nth j off 0 <> 0 -> nth j b 0 = 1).

  (** One step along one axis from a box leads either to the same box or to the facing layer of the box next to it. *)
  Lemma step_axis L B c x o :
    0 < L -> 0 < B -> 0 <= c < B -> c * L <= x < (c + 1) * L -> -1 <= o <= 1 ->
    let w := (x + o) mod (L * B) in
    let c' := (c + o) mod B in
    (c * L <= w < (c + 1) * L) \/
    (o = 1 /\ w = c' * L) \/ (o = -1 /\ w = (c' + 1) * L - 1).
  Proof using Type.
    clear Hg Hn Hb. intros HL HB Hc Hx Ho w c'.
    assert (HLB : 0 < L * B) by nia.
    assert (Ew : forall y q, x + o = y + q * (L * B) -> 0 <= y < L * B -> w = y).
    { intros y q E Hy. unfold w. rewrite E, Z.mod_add by lia. apply Z.mod_small; auto. }
    assert (Ec : forall y q, c + o = y + q * B -> 0 <= y < B -> c' = y).
    { intros y q E Hy. unfold c'. rewrite E, Z.mod_add by lia. apply Z.mod_small; auto. }
    assert (Hcase : o = 0 \/ o = 1 \/ o = -1) by lia. destruct Hcase as [->|[->| ->]].
    - left. rewrite (Ew x 0) by nia. lia.
    - destruct (Z_lt_ge_dec (x + 1) ((c + 1) * L)) as [H|H].
      + left. rewrite (Ew (x + 1) 0) by nia. nia.
      + right; left. split; auto. assert (Hx1 : x + 1 = (c + 1) * L) by lia.
        destruct (Z.eq_dec (c + 1) B) as [E|E].
        * rewrite (Ew 0 1) by nia. rewrite (Ec 0 1) by lia. lia.
        * rewrite (Ew (x + 1) 0) by nia. rewrite (Ec (c + 1) 0) by lia. lia.
    - destruct (Z_lt_ge_dec (x - 1) (c * L)) as [H|H].
      + right; right. split; auto. assert (Hx1 : x = c * L) by lia.
        destruct (Z.eq_dec c 0) as [E|E].
        * rewrite (Ew (L * B - 1) (-1)) by nia. rewrite (Ec (B - 1) (-1)) by lia. nia.
        * rewrite (Ew (x - 1) 0) by nia. rewrite (Ec (c - 1) 0) by lia. nia.
      + left. rewrite (Ew (x - 1) 0) by nia. nia.
  Qed.

  Lemma step_box r off g :
    0 <= r < n -> good_off off -> in_box (blo r) (bhi r) g ->
    ~ in_box (blo r) (bhi r) (wrap dims (shift g off)) ->
    nonzero off = true /\
    in_box (wlo (nb_of b r off) (opp off)) (whi (nb_of b r off) (opp off)) (wrap dims (shift g off)).
  Proof using Hg Hn Hb.
    intros Hr ((Hlo & Hu) & Hax) (G1 & G2 & G3) Hout.
    rewrite blo_length in G1.
    assert (Hls : length (shift g off) = nd) by (rewrite shift_length; lia).
    assert (Hlw : length (wrap dims (shift g off)) = nd) by (apply wrap_length; auto).
    set (c := coords b r) in *.
    assert (Hstep : forall j, (j < nd)%nat ->
      let L := nth j (local_dims dims b) 0 in let w := nth j (wrap dims (shift g off)) 0 in
      let c' := nth j (coords b (nb_of b r off)) 0 in
      (nth j (blo r) 0 <= w < nth j (bhi r) 0) \/
      (nth j off 0 = 1 /\ w = c' * L) \/ (nth j off 0 = -1 /\ w = (c' + 1) * L - 1)).
    { intros j Hj L w c'. unfold w, c'. rewrite wrap_nth by lia. rewrite shift_nth by lia.
      rewrite (coords_nb n dims) by auto. rewrite (nb_coords_nth n dims) by auto.
      pose proof (local_dims_mul n dims b j Hb Hj) as EL. rewrite <- EL.
      specialize (G3 j ltac:(lia)). rewrite (beg_of_nth n), (end_of_nth n) in * by auto.
      apply step_axis.
      - pose proof (local_dims_pos n dims b Hg Hb) as H. rewrite allpos_nth in H. apply H. rewrite local_dims_length; auto. apply Hb.
      - destruct Hb as (_ & H & _). apply H; auto.
      - apply (coords_range n dims b r j Hb Hj).
      - exact G3.
      - apply Hu; auto. }
    assert (Hex : exists j, (j < nd)%nat /\
              ~ (nth j (blo r) 0 <= nth j (wrap dims (shift g off)) 0 < nth j (bhi r) 0)).
    { assert (Hf : forall m, (m <= nd)%nat -> (exists j, (j < m)%nat /\
              ~ (nth j (blo r) 0 <= nth j (wrap dims (shift g off)) 0 < nth j (bhi r) 0)) \/
              (forall j, (j < m)%nat -> nth j (blo r) 0 <= nth j (wrap dims (shift g off)) 0 < nth j (bhi r) 0)).
      { induction m as [|m IH]; intros Hm; [right; intros; lia|].
        destruct (IH ltac:(lia)) as [(j & Hj & H)|H]; [left; exists j; split; auto|].
        destruct (Z_le_gt_dec (nth m (blo r) 0) (nth m (wrap dims (shift g off)) 0)) as [H1|H1];
        [destruct (Z_lt_ge_dec (nth m (wrap dims (shift g off)) 0) (nth m (bhi r) 0)) as [H2|H2]|].
        - right. intros j Hj. destruct (Nat.eq_dec j m) as [->|Hne]; [lia|apply H; lia].
        - left. exists m. split; lia.
        - left. exists m. split; lia. }
      destruct (Hf nd (le_n _)) as [(j & Hj & H)|H]; [exists j; auto|].
      exfalso. apply Hout. split; [rewrite blo_length; auto|]. split; [rewrite bhi_length; auto|].
      intros j Hj. apply H. lia. }
    destruct Hex as (j0 & Hj0 & Hn0).
    assert (Hoff0 : nth j0 off 0 <> 0). { destruct (Hstep j0 Hj0) as [H|[[H _]|[H _]]]; [contradiction|lia|lia]. }
    split; [apply nonzero_true; exists j0; split; [lia|auto]|].
    (* the axis carries more than one process *)
    assert (Hb0 : nth j0 b 0 <> 1).
    { intros E. apply Hn0. rewrite (beg_of_nth n), (end_of_nth n) by auto.
      pose proof (coords_range n dims b r j0 Hb Hj0) as Hc. rewrite E in Hc.
      replace (nth j0 (coords b r) 0) with 0 by lia.
      pose proof (local_dims_mul n dims b j0 Hb Hj0) as EL. rewrite E in EL.
      rewrite wrap_nth by lia. pose proof (grid_dim_range dims j0 Hg Hj0).
      pose proof (Z.mod_pos_bound (nth j0 (shift g off) 0) (nth j0 dims 0)). lia. }
    destruct Hax as [Hax|Hall]; [|exfalso; apply Hb0; auto].
    split; [unfold wlo; rewrite vec_length; auto|]. split; [unfold whi; rewrite vec_length; auto|].
    rewrite Hlw. intros j Hj. unfold wlo, whi. rewrite !vec_nth by auto.
    rewrite !opp_nth. destruct (Nat.eq_dec j j0) as [->|Hne].
    - rewrite (beg_of_nth n), (end_of_nth n) by auto.
      destruct (Hstep j0 Hj0) as [H|[[H E]|[H E]]]; [contradiction| |]; rewrite E, H; simpl; lia.
    - assert (Hz : nth j off 0 = 0).
      { destruct (Z.eq_dec (nth j off 0) 0) as [E|E]; auto. exfalso. apply Hne. apply Hax; auto. }
      rewrite Hz. change (- 0) with 0. simpl.
      rewrite wrap_nth, shift_nth by lia. rewrite Hz, Z.add_0_r.
      rewrite (beg_of_nth n), (end_of_nth n) by auto. rewrite (coords_nb n dims) by auto.
      rewrite (nb_coords_nth n dims) by auto. rewrite Hz, Z.add_0_r.
      rewrite (Z.mod_small (nth j (coords b r) 0)) by (apply (coords_range n dims b r j Hb Hj)).
      specialize (G3 j ltac:(lia)). rewrite (beg_of_nth n), (end_of_nth n) in G3 by auto.
      pose proof (box_in_grid n dims b r j Hg Hb Hj) as HB. rewrite (beg_of_nth n), (end_of_nth n) in HB by auto.
      rewrite Z.mod_small; [exact G3|]. lia.
  Qed.
End Geometry.
