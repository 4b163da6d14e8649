(** * Mixed radix numbers: the arithmetic behind flat indices.  Used by the proofs only. *)
From Verif Require Import Cpp CppProof MaiSpec.
Local Open Scope Z_scope.
Local Arguments prodZ : simpl never.

Definition allpos (l : list Z) : Prop := Forall (fun d => 0 < d) l.
Definition allnn (l : list Z) : Prop := Forall (fun d => 0 <= d) l.

Fixpoint strides (e : list Z) : list Z :=
  match e with
  | [] => []
  | _ :: t => prodZ t :: strides t
  end.

Fixpoint digits (e : list Z) (b : Z) : list Z :=
  match e with
  | [] => []
  | d :: t => (b / prodZ t) mod d :: digits t b
  end.

Fixpoint dot (a b : list Z) : Z :=
  match a, b with
  | x :: a', y :: b' => x * y + dot a' b'
  | _, _ => 0
  end.

Fixpoint vadd (a b : list Z) : list Z :=
  match a, b with
  | x :: a', y :: b' => (x + y) :: vadd a' b'
  | _, _ => []
  end.

Fixpoint vsub (a b : list Z) : list Z :=
  match a, b with
  | x :: a', y :: b' => (x - y) :: vsub a' b'
  | _, _ => []
  end.

Lemma prodZ_app a b : prodZ (a ++ b) = prodZ a * prodZ b.
Proof.
  induction a as [|x a IH]; [simpl prodZ at 2; rewrite Z.mul_1_l; reflexivity|].
  change (prodZ ((x :: a) ++ b)) with (x * prodZ (a ++ b)). rewrite IH.
  change (prodZ (x :: a)) with (x * prodZ a). ring.
Qed.

Lemma prodZ_cons x a : prodZ (x :: a) = x * prodZ a.
Proof. reflexivity. Qed.

Lemma prodZ_rev a : prodZ (rev a) = prodZ a.
Proof.
  induction a as [|x a IH]; auto. simpl rev. rewrite prodZ_app, IH, !prodZ_cons.
  change (prodZ []) with 1. ring.
Qed.

Lemma prodZ_pos e : allpos e -> 0 < prodZ e.
Proof.
  induction 1 as [|x e Hx _ IH]; [reflexivity|]. rewrite prodZ_cons. apply Z.mul_pos_pos; assumption.
Qed.

Lemma prodZ_nn e : allnn e -> 0 <= prodZ e.
Proof.
  induction 1 as [|x e Hx _ IH]; [discriminate|]. rewrite prodZ_cons. apply Z.mul_nonneg_nonneg; assumption.
Qed.

Lemma prodZ_zero e : In 0 e -> prodZ e = 0.
Proof.
  induction e as [|x e IH]; intros H; [destruct H|].
  rewrite prodZ_cons. destruct H as [->|H]; [reflexivity|]. rewrite (IH H). ring.
Qed.

Lemma allpos_rev e : allpos e -> allpos (rev e).
Proof. intros H. apply Forall_rev. exact H. Qed.

Lemma allpos_nth e : allpos e <-> forall j, (j < length e)%nat -> 0 < nth j e 0.
Proof.
  unfold allpos. split.
  - intros H j Hj. rewrite Forall_forall in H. apply H. apply nth_In. exact Hj.
  - intros H. apply Forall_forall. intros x Hx. apply (In_nth _ _ 0) in Hx as (j & Hj & <-). auto.
Qed.

Lemma allpos_firstn n e : allpos e -> allpos (firstn n e).
Proof.
  intros H. revert n; induction H as [|x e Hx _ IH]; intros [|n]; simpl; constructor; auto; apply IH.
Qed.

Lemma allpos_skipn n e : allpos e -> allpos (skipn n e).
Proof.
  intros H. revert n; induction H as [|x e Hx He IH]; intros [|n]; simpl; try constructor; auto.
Qed.

Lemma strides_length e : length (strides e) = length e.
Proof. induction e; simpl; auto. Qed.
Lemma digits_length e b : length (digits e b) = length e.
Proof. induction e; simpl; auto. Qed.

Lemma vadd_length a b : length a = length b -> length (vadd a b) = length a.
Proof. revert b; induction a as [|x a IH]; intros [|y b] H; simpl in *; auto; discriminate. Qed.
Lemma vsub_length a b : length a = length b -> length (vsub a b) = length a.
Proof. revert b; induction a as [|x a IH]; intros [|y b] H; simpl in *; auto; discriminate. Qed.

Lemma vadd_nth a b j : (j < length a)%nat -> (j < length b)%nat -> nth j (vadd a b) 0 = nth j a 0 + nth j b 0.
Proof.
  revert b j; induction a as [|x a IH]; intros [|y b] j Ha Hb; simpl in *; try lia.
  destruct j; auto. apply IH; lia.
Qed.
Lemma vsub_nth a b j : (j < length a)%nat -> (j < length b)%nat -> nth j (vsub a b) 0 = nth j a 0 - nth j b 0.
Proof.
  revert b j; induction a as [|x a IH]; intros [|y b] j Ha Hb; simpl in *; try lia.
  destruct j; auto. apply IH; lia.
Qed.

Lemma strides_nth e i : (i < length e)%nat -> nth i (strides e) 0 = prodZ (skipn (S i) e).
Proof.
  revert i; induction e as [|d e IH]; intros i H; simpl in H; [lia|].
  destruct i; simpl; auto. rewrite IH by lia. reflexivity.
Qed.

Lemma digits_nth e b i :
  (i < length e)%nat -> nth i (digits e b) 0 = (b / prodZ (skipn (S i) e)) mod nth i e 0.
Proof.
  revert i; induction e as [|d e IH]; intros i H; simpl in H; [lia|].
  destruct i; simpl; auto. rewrite IH by lia. reflexivity.
Qed.

Lemma digits_shift e b q : allpos e -> digits e (b + q * prodZ e) = digits e b.
Proof.
  revert q; induction e as [|d e IH]; intros q Hp; auto.
  inversion Hp as [|? ? Hd He]; subst. cbn [digits]. pose proof (prodZ_pos e He) as HP.
  f_equal.
  - rewrite prodZ_cons. replace (b + q * (d * prodZ e)) with (b + (q * d) * prodZ e) by ring.
    rewrite Z.div_add by lia. rewrite Z.mod_add by lia. reflexivity.
  - rewrite prodZ_cons. replace (b + q * (d * prodZ e)) with (b + (q * d) * prodZ e) by ring.
    apply IH. exact He.
Qed.

Lemma digits_mod e b : allpos e -> digits e (b mod prodZ e) = digits e b.
Proof.
  intros H. pose proof (prodZ_pos e H).
  rewrite <- (digits_shift e (b mod prodZ e) (b / prodZ e) H). f_equal.
  pose proof (Z.div_mod b (prodZ e)). lia.
Qed.

Lemma digits_range e b : allpos e ->
  forall j, (j < length e)%nat -> 0 <= nth j (digits e b) 0 < nth j e 0.
Proof.
  intros Hp j Hj. rewrite digits_nth by exact Hj. apply Z.mod_pos_bound.
  apply allpos_nth; assumption.
Qed.

Lemma flat_digits e b : allpos e -> dot (strides e) (digits e b) = b mod prodZ e.
Proof.
  induction e as [|d e IH]; intros Hp.
  - simpl. rewrite Z.mod_1_r. reflexivity.
  - inversion Hp as [|? ? Hd He]; subst. pose proof (prodZ_pos e He).
    cbn [strides digits dot]. rewrite IH by assumption. rewrite prodZ_cons.
    replace (d * prodZ e) with (prodZ e * d) by ring.
    rewrite Z.rem_mul_r by lia. ring.
Qed.

Definition digit_vec (e v : list Z) : Prop :=
  length v = length e /\ forall j, (j < length e)%nat -> 0 <= nth j v 0 < nth j e 0.

Lemma digit_vec_cons d e x v : digit_vec (d :: e) (x :: v) <-> 0 <= x < d /\ digit_vec e v.
Proof.
  unfold digit_vec; simpl. split.
  - intros [Hl H]. split; [apply (H O); lia|]. split; [lia|]. intros j Hj. apply (H (S j)). lia.
  - intros [Hx [Hl H]]. split; [lia|]. intros [|j] Hj; auto. apply H. lia.
Qed.

Lemma flat_range e v : digit_vec e v -> 0 <= dot (strides e) v < prodZ e.
Proof.
  revert v; induction e as [|d e IH]; intros v Hv.
  - destruct Hv as [Hl _]. destruct v; [|discriminate]. change (prodZ []) with 1; simpl; lia.
  - destruct v as [|x v]; [destruct Hv; discriminate|].
    apply digit_vec_cons in Hv as [Hx Hv]. specialize (IH v Hv).
    cbn [strides dot]. rewrite prodZ_cons. nia.
Qed.

Lemma digits_flat e v : digit_vec e v -> digits e (dot (strides e) v) = v.
Proof.
  revert v; induction e as [|d e IH]; intros v Hv.
  - destruct Hv as [Hl _]. destruct v; [reflexivity|discriminate].
  - destruct v as [|x v]; [destruct Hv; discriminate|].
    apply digit_vec_cons in Hv as [Hx Hv]. pose proof (flat_range e v Hv) as HR.
    cbn [strides dot digits]. f_equal.
    + rewrite Z.add_comm, Z.mul_comm, Z.div_add by lia. rewrite Z.div_small by lia.
      rewrite Z.mod_small by lia. lia.
    + destruct Hv as [Hl Hr].
      assert (He : allpos e) by (apply allpos_nth; intros j Hj; specialize (Hr j Hj); lia).
      rewrite Z.add_comm, Z.mul_comm. rewrite digits_shift by exact He. apply IH. split; assumption.
Qed.

Lemma digits_digit_vec e b : allpos e -> digit_vec e (digits e b).
Proof. intros H. split; [apply digits_length|]. apply digits_range. exact H. Qed.

(** dot products *)
Lemma dot_app a b c d : length a = length c -> dot (a ++ b) (c ++ d) = dot a c + dot b d.
Proof.
  revert c; induction a as [|x a IH]; intros [|y c] H; simpl in *; try discriminate; auto.
  rewrite IH by lia. ring.
Qed.

Lemma dot_rev a b : length a = length b -> dot (rev a) (rev b) = dot a b.
Proof.
  revert b; induction a as [|x a IH]; intros [|y b] H; simpl in *; try discriminate; auto.
  rewrite dot_app by (rewrite !rev_length; lia). rewrite IH by lia. simpl. ring.
Qed.

Lemma dot_firstn_S a b i :
  (i < length a)%nat -> (i < length b)%nat ->
  dot (firstn (S i) a) (firstn (S i) b) = dot (firstn i a) (firstn i b) + nth i a 0 * nth i b 0.
Proof.
  revert b i; induction a as [|x a IH]; intros [|y b] i Ha Hb; simpl in Ha, Hb; try lia.
  destruct i as [|i].
  - simpl. ring.
  - change (firstn (S (S i)) (x :: a)) with (x :: firstn (S i) a).
    change (firstn (S (S i)) (y :: b)) with (y :: firstn (S i) b).
    change (firstn (S i) (x :: a)) with (x :: firstn i a).
    change (firstn (S i) (y :: b)) with (y :: firstn i b).
    cbn [dot nth]. rewrite IH by lia. ring.
Qed.

(** ** The two orderings *)
Definition strd (rm : bool) (e : list Z) : list Z := if rm then strides e else rev (strides (rev e)).
Definition digs (rm : bool) (e : list Z) (b : Z) : list Z :=
  if rm then digits e b else rev (digits (rev e) b).

Lemma strd_length rm e : length (strd rm e) = length e.
Proof. destruct rm; simpl; rewrite ?rev_length, strides_length, ?rev_length; reflexivity. Qed.
Lemma digs_length rm e b : length (digs rm e b) = length e.
Proof. destruct rm; simpl; rewrite ?rev_length, digits_length, ?rev_length; reflexivity. Qed.

Lemma skipn_rev {A} (l : list A) n : skipn n (rev l) = rev (firstn (length l - n) l).
Proof.
  destruct (Nat.le_gt_cases (length l) n) as [H|H].
  - rewrite skipn_all2 by (rewrite rev_length; lia).
    replace (length l - n)%nat with O by lia. reflexivity.
  - assert (E : rev l = rev (skipn (length l - n) l) ++ rev (firstn (length l - n) l)).
    { rewrite <- rev_app_distr, firstn_skipn. reflexivity. }
    rewrite E. rewrite skipn_app.
    rewrite skipn_all2 by (rewrite rev_length, skipn_length; lia).
    rewrite rev_length, skipn_length.
    replace (n - (length l - (length l - n)))%nat with O by lia. reflexivity.
Qed.

Lemma strd_col_nth e i : (i < length e)%nat -> nth i (strd false e) 0 = prodZ (firstn i e).
Proof.
  intros H. unfold strd. rewrite rev_nth by (rewrite strides_length, rev_length; lia).
  rewrite strides_length, rev_length. rewrite strides_nth by (rewrite rev_length; lia).
  rewrite skipn_rev, prodZ_rev. f_equal. f_equal. lia.
Qed.

Lemma strd_row_nth e i : (i < length e)%nat -> nth i (strd true e) 0 = prodZ (skipn (S i) e).
Proof. apply strides_nth. Qed.

Lemma digs_nth rm e b i :
  (i < length e)%nat -> nth i (digs rm e b) 0 = (b / nth i (strd rm e) 0) mod nth i e 0.
Proof.
  intros H. destruct rm; unfold digs, strd.
  - rewrite digits_nth, strides_nth by exact H. reflexivity.
  - rewrite !rev_nth by (rewrite ?digits_length, ?strides_length, rev_length; exact H).
    rewrite digits_length, strides_length, !rev_length.
    rewrite digits_nth, strides_nth by (rewrite rev_length; lia).
    f_equal. rewrite rev_nth by lia. f_equal. lia.
Qed.

Lemma strd_pos rm e : allpos e -> allpos (strd rm e).
Proof.
  intros H. apply allpos_nth. intros j Hj. rewrite strd_length in Hj. destruct rm.
  - rewrite strd_row_nth by exact Hj. apply prodZ_pos, allpos_skipn, H.
  - rewrite strd_col_nth by exact Hj. apply prodZ_pos, allpos_firstn, H.
Qed.

Lemma strd_le rm e j : allpos e -> (j < length e)%nat -> nth j (strd rm e) 0 * nth j e 0 <= prodZ e.
Proof.
  intros H Hj.
  assert (E : prodZ e = prodZ (firstn j e) * (nth j e 0 * prodZ (skipn (S j) e))).
  { rewrite <- (firstn_skipn j e) at 1. rewrite prodZ_app. f_equal.
    assert (G : skipn j e = nth j e 0 :: skipn (S j) e).
    { clear H. revert j Hj; induction e as [|x e IH]; intros [|j] Hj; simpl in *; try lia; auto.
      apply IH. lia. }
    rewrite G. reflexivity. }
  pose proof (prodZ_pos _ (allpos_firstn j e H)). pose proof (prodZ_pos _ (allpos_skipn (S j) e H)).
  apply allpos_nth with (j := j) in H; [|exact Hj].
  destruct rm.
  - rewrite strd_row_nth by exact Hj. nia.
  - rewrite strd_col_nth by exact Hj. nia.
Qed.

Lemma digit_vec_rev e v : digit_vec e v -> digit_vec (rev e) (rev v).
Proof.
  intros [Hl H]. split; [rewrite !rev_length; exact Hl|].
  intros j Hj. rewrite rev_length in Hj.
  rewrite !rev_nth by lia. rewrite Hl. apply H. lia.
Qed.

Lemma digs_digit_vec rm e b : allpos e -> digit_vec e (digs rm e b).
Proof.
  intros H. destruct rm; unfold digs; [apply digits_digit_vec, H|].
  rewrite <- (rev_involutive e) at 1. apply digit_vec_rev, digits_digit_vec, allpos_rev, H.
Qed.

Lemma dot_digs rm e b : allpos e -> dot (strd rm e) (digs rm e b) = b mod prodZ e.
Proof.
  intros H. destruct rm; unfold strd, digs; [apply flat_digits, H|].
  rewrite dot_rev by (rewrite strides_length, digits_length; reflexivity).
  rewrite flat_digits by apply allpos_rev, H. rewrite prodZ_rev. reflexivity.
Qed.

Lemma dot_strd_range rm e v : digit_vec e v -> 0 <= dot (strd rm e) v < prodZ e.
Proof.
  intros H. destruct rm; unfold strd; [apply flat_range, H|].
  rewrite <- (rev_involutive v).
  rewrite dot_rev by (rewrite strides_length, !rev_length; symmetry; apply H).
  rewrite <- (prodZ_rev e). apply flat_range, digit_vec_rev, H.
Qed.

Lemma digs_dot rm e v : digit_vec e v -> digs rm e (dot (strd rm e) v) = v.
Proof.
  intros H. destruct rm; unfold digs, strd; [apply digits_flat, H|].
  rewrite <- (rev_involutive v) at 2.
  f_equal. rewrite <- (rev_involutive v) at 1.
  rewrite dot_rev by (rewrite strides_length, !rev_length; symmetry; apply H).
  apply digits_flat, digit_vec_rev, H.
Qed.

Lemma digs_shift rm e b q : allpos e -> digs rm e (b + q * prodZ e) = digs rm e b.
Proof.
  intros H. destruct rm; unfold digs; [apply digits_shift, H|].
  f_equal. rewrite <- (prodZ_rev e). apply digits_shift, allpos_rev, H.
Qed.

(** ** Enumeration *)
Lemma range_length l h : length (range l h) = Z.to_nat (h - l).
Proof. unfold range. rewrite map_length, seq_length. reflexivity. Qed.

Lemma in_range l h x : In x (range l h) <-> l <= x < h.
Proof.
  unfold range. rewrite in_map_iff. split.
  - intros (k & <- & Hk). apply in_seq in Hk. lia.
  - intros H. exists (Z.to_nat (x - l)). split; [lia|]. apply in_seq. lia.
Qed.

Lemma flat_map_map_seq {A} (F : nat -> nat -> A) d N :
  flat_map (fun q => map (F q) (seq 0 N)) (seq 0 d) =
  map (fun k => F (k / N)%nat (k mod N)%nat) (seq 0 (d * N)).
Proof.
  destruct (Nat.eq_dec N 0) as [->|HN].
  { rewrite Nat.mul_0_r. simpl. induction (seq 0 d); simpl; auto. }
  induction d as [|d IH]; auto.
  rewrite seq_S, flat_map_app, IH. simpl (flat_map _ [_]). rewrite app_nil_r.
  replace (S d * N)%nat with (d * N + N)%nat by lia. rewrite seq_app, map_app. f_equal.
  simpl. apply (nth_ext' (F O O)).
  - rewrite !map_length, !seq_length. reflexivity.
  - intros i Hi. rewrite map_length, seq_length in Hi.
    rewrite (nth_indep _ _ (F d O)) by (rewrite map_length, seq_length; exact Hi).
    rewrite map_nth, seq_nth by exact Hi.
    rewrite (nth_indep _ _ (F (0 / N)%nat (0 mod N)%nat)) by (rewrite map_length, seq_length; exact Hi).
    rewrite (map_nth (fun k => F (k / N)%nat (k mod N)%nat)), seq_nth by exact Hi.
    f_equal.
    + rewrite (Nat.add_comm (d * N)), Nat.div_add by exact HN. rewrite Nat.div_small by exact Hi. reflexivity.
    + rewrite (Nat.add_comm (d * N)), Nat.mod_add by exact HN. rewrite Nat.mod_small by exact Hi. reflexivity.
Qed.

Lemma extents_length lo hi : length lo = length hi -> length (extents lo hi) = length lo.
Proof. intros H. unfold extents. rewrite map_length, combine_length. lia. Qed.

Lemma extents_nth lo hi j :
  length lo = length hi -> (j < length lo)%nat -> nth j (extents lo hi) 0 = nth j hi 0 - nth j lo 0.
Proof.
  revert hi j; induction lo as [|l lo IH]; intros [|h hi] j Hl Hj; simpl in *; try lia.
  destruct j; auto. apply IH; lia.
Qed.

Lemma extents_cons l lo h hi : extents (l :: lo) (h :: hi) = (h - l) :: extents lo hi.
Proof. reflexivity. Qed.

Lemma extents_rev lo hi : length lo = length hi -> extents (rev lo) (rev hi) = rev (extents lo hi).
Proof.
  intros H. unfold extents. rewrite <- map_rev. f_equal.
  revert hi H; induction lo as [|l lo IH]; intros [|h hi] H; simpl in *; try discriminate; auto.
  rewrite <- IH by lia.
  assert (G : forall (a b : list Z) x y, length a = length b ->
             combine (a ++ [x]) (b ++ [y]) = combine a b ++ [(x, y)]).
  { clear. induction a as [|u a IH]; intros [|v b] x y H; simpl in *; try discriminate; auto.
    rewrite IH by lia. reflexivity. }
  apply G. rewrite !rev_length. lia.
Qed.

Lemma extents_nn lo hi :
  length lo = length hi -> (forall j, (j < length lo)%nat -> nth j lo 0 <= nth j hi 0) ->
  allnn (extents lo hi).
Proof.
  intros Hl H. apply Forall_forall. intros x Hx. apply (In_nth _ _ 0) in Hx as (j & Hj & <-).
  rewrite extents_length in Hj by exact Hl. rewrite extents_nth by assumption.
  specialize (H j Hj). lia.
Qed.

Lemma row_major_enum lo hi :
  length lo = length hi -> (forall j, (j < length lo)%nat -> nth j lo 0 <= nth j hi 0) ->
  row_major lo hi =
  map (fun k => vadd lo (digits (extents lo hi) (Z.of_nat k)))
      (seq 0 (Z.to_nat (prodZ (extents lo hi)))).
Proof.
  revert hi; induction lo as [|l lo IH]; intros [|h hi] Hl Hle; try discriminate.
  - reflexivity.
  - simpl in Hl.
    assert (Hle' : forall j, (j < length lo)%nat -> nth j lo 0 <= nth j hi 0).
    { intros j Hj. apply (Hle (S j)). simpl. lia. }
    cbn [row_major]. rewrite IH by (try lia; exact Hle').
    rewrite extents_cons, prodZ_cons. set (e := extents lo hi).
    pose proof (Hle O ltac:(simpl; lia)) as H0. simpl in H0.
    pose proof (prodZ_nn e (extents_nn lo hi ltac:(lia) Hle')) as HP.
    rewrite Z2Nat.inj_mul by lia.
    unfold range. rewrite flat_map_concat_map, map_map, <- flat_map_concat_map.
    rewrite (flat_map_ext _ (fun q => map (fun r => (l + Z.of_nat q) ::
                     vadd lo (digits e (Z.of_nat r))) (seq 0 (Z.to_nat (prodZ e)))))
      by (intros q; rewrite map_map; reflexivity).
    rewrite (flat_map_map_seq (fun q r => (l + Z.of_nat q) :: vadd lo (digits e (Z.of_nat r)))).
    apply map_ext_in. intros k Hk. apply in_seq in Hk.
    set (N := Z.to_nat (prodZ e)) in *.
    assert (HN : (N <> 0)%nat) by (intros E; rewrite E in Hk; lia).
    assert (HPN : prodZ e = Z.of_nat N) by (unfold N; lia).
    cbn [digits vadd]. rewrite HPN.
    rewrite (Z.mod_small (Z.of_nat k / Z.of_nat N)).
    2:{ split.
        - apply Z.div_pos; lia.
        - apply Z.div_lt_upper_bound; [lia|]. nia. }
    rewrite <- Nat2Z.inj_div. f_equal. f_equal.
    rewrite Nat2Z.inj_mod. rewrite <- HPN. apply digits_mod.
    (* all positive since the product is *)
    clear - HP HPN HN Hle' Hl.
    apply allpos_nth. intros j Hj.
    assert (Hnn := extents_nn lo hi ltac:(lia) Hle').
    assert (H0 : 0 <= nth j e 0) by (apply (proj1 (Forall_forall _ _) Hnn), nth_In; exact Hj).
    destruct (Z.eq_dec (nth j e 0) 0) as [E|E]; [|lia].
    exfalso. apply HN. assert (prodZ e = 0) by (apply prodZ_zero; rewrite <- E; apply nth_In; exact Hj).
    lia.
Qed.

Lemma vadd_rev a b : length a = length b -> vadd (rev a) (rev b) = rev (vadd a b).
Proof.
  intros H. apply (nth_ext' 0).
  - rewrite vadd_length by (rewrite !rev_length; exact H). rewrite !rev_length, vadd_length by exact H.
    reflexivity.
  - intros i Hi. rewrite vadd_length, rev_length in Hi by (rewrite !rev_length; exact H).
    rewrite vadd_nth by (rewrite rev_length; lia).
    rewrite !rev_nth by (rewrite ?vadd_length; lia).
    rewrite vadd_length by exact H. rewrite vadd_nth by lia. rewrite H. reflexivity.
Qed.

Lemma nested_loops_enum rm lo hi :
  length lo = length hi -> (forall j, (j < length lo)%nat -> nth j lo 0 <= nth j hi 0) ->
  nested_loops rm lo hi =
  map (fun k => vadd lo (digs rm (extents lo hi) (Z.of_nat k)))
      (seq 0 (Z.to_nat (prodZ (extents lo hi)))).
Proof.
  intros Hl Hle. destruct rm; unfold nested_loops; [apply row_major_enum; assumption|].
  unfold col_major. rewrite row_major_enum.
  - rewrite map_map, extents_rev, prodZ_rev by exact Hl. apply map_ext. intros k.
    unfold digs. rewrite <- (rev_involutive (digits _ _)) at 1.
    rewrite vadd_rev, rev_involutive; [reflexivity|].
    rewrite rev_length, digits_length, rev_length, extents_length; auto.
  - rewrite !rev_length. exact Hl.
  - intros j Hj. rewrite rev_length in Hj. rewrite !rev_nth by lia. rewrite <- Hl. apply Hle. lia.
Qed.
