(** * Lemmas about the base layer *)
From Verif Require Import Cpp.
Local Open Scope Z_scope.

Lemma bind_ok {A B} (r : res A) (k : A -> res B) b :
  bind r k = Ok b -> exists a, r = Ok a /\ k a = Ok b.
Proof. destruct r as [a|u]; simpl; intros H; [eauto|discriminate]. Qed.

Lemma bind_Ok_l {A B} (a : A) (k : A -> res B) : bind (Ok a) k = k a.
Proof. reflexivity. Qed.

(** Machine integers *)
Lemma two64_pos : 0 < two64. Proof. reflexivity. Qed.
Lemma two32_pos : 0 < two32. Proof. reflexivity. Qed.
Lemma two64_pow : two64 = 2 ^ 64. Proof. reflexivity. Qed.

Lemma u64_id z : 0 <= z < two64 -> u64 z = z.
Proof. intros H. apply Z.mod_small. exact H. Qed.

Lemma u64_range z : 0 <= u64 z < two64.
Proof. apply Z.mod_pos_bound. reflexivity. Qed.

Lemma i32_id z : - two31 <= z < two31 -> i32 z = z.
Proof.
  intros H. unfold i32. rewrite Z.mod_small; unfold two31, two32 in *; lia.
Qed.

Lemma i32_range z : - two31 <= i32 z < two31.
Proof.
  unfold i32. pose proof (Z.mod_pos_bound (z + two31) two32 ltac:(reflexivity)).
  unfold two31, two32 in *. lia.
Qed.

Lemma int_range_spec z : int_range z = true <-> - two31 <= z < two31.
Proof.
  unfold int_range, int_max, two31.
  rewrite Bool.andb_true_iff, !Z.leb_le. lia.
Qed.

Lemma int_op_ok z : - two31 <= z < two31 -> int_op z = Ok z.
Proof.
  intros H. unfold int_op. apply int_range_spec in H. rewrite H. reflexivity.
Qed.

Lemma udiv_ok a b : b <> 0 -> udiv a b = Ok (a / b).
Proof. intros H. unfold udiv. apply Z.eqb_neq in H. rewrite H. reflexivity. Qed.
Lemma umod_ok a b : b <> 0 -> umod a b = Ok (a mod b).
Proof. intros H. unfold umod. apply Z.eqb_neq in H. rewrite H. reflexivity. Qed.

(** Vectors *)
Lemma vget_ok {A} (v : list A) i d :
  0 <= i < vlen v -> vget v i = Ok (nth (Z.to_nat i) v d).
Proof.
  intros [H1 H2]. unfold vget.
  apply Z.leb_le in H1. apply Z.ltb_lt in H2. rewrite H1, H2. simpl.
  apply Z.leb_le in H1. apply Z.ltb_lt in H2.
  rewrite (nth_error_nth' v d); [reflexivity|]. unfold vlen in H2. lia.
Qed.

Lemma vget_nat {A} (v : list A) (i : nat) d :
  (i < length v)%nat -> vget v (Z.of_nat i) = Ok (nth i v d).
Proof.
  intros H. rewrite (vget_ok v (Z.of_nat i) d).
  - rewrite Nat2Z.id. reflexivity.
  - unfold vlen. lia.
Qed.

Lemma vget_oob {A} (v : list A) i : ~ (0 <= i < vlen v) -> vget v i = Undef OobRead.
Proof.
  intros H. unfold vget.
  destruct (Z.leb_spec 0 i); destruct (Z.ltb_spec i (vlen v)); simpl; auto. lia.
Qed.

Lemma vget_inv {A} (v : list A) i a :
  vget v i = Ok a -> 0 <= i < vlen v /\ nth_error v (Z.to_nat i) = Some a.
Proof.
  unfold vget. destruct (Z.leb_spec 0 i); destruct (Z.ltb_spec i (vlen v)); simpl; try discriminate.
  destruct (nth_error v (Z.to_nat i)) eqn:E; intros H1; inversion H1; subst; auto.
Qed.

Lemma upd_length {A} (v : list A) n a : length (upd v n a) = length v.
Proof. revert n; induction v as [|h t IH]; intros [|n]; simpl; auto. Qed.

Lemma upd_nth {A} (v : list A) n a m d :
  (n < length v)%nat -> nth m (upd v n a) d = if Nat.eqb m n then a else nth m v d.
Proof.
  revert n m; induction v as [|h t IH]; intros n m H; simpl in H; [lia|].
  destruct n as [|n]; destruct m as [|m]; simpl; auto.
  apply IH. lia.
Qed.

Lemma vset_nat {A} (v : list A) (i : nat) a :
  (i < length v)%nat -> vset v (Z.of_nat i) a = Ok (upd v i a).
Proof.
  intros H. unfold vset, vlen.
  assert (E1 : 0 <=? Z.of_nat i = true) by (apply Z.leb_le; lia).
  assert (E2 : Z.of_nat i <? Z.of_nat (length v) = true) by (apply Z.ltb_lt; lia).
  rewrite E1, E2, Nat2Z.id. reflexivity.
Qed.

Lemma vset_ok {A} (v : list A) i a :
  0 <= i < vlen v -> vset v i a = Ok (upd v (Z.to_nat i) a).
Proof.
  intros H. unfold vlen in H. rewrite <- (Z2Nat.id i) at 1 by lia. apply vset_nat. lia.
Qed.

Lemma nth_ext' {A} (d : A) (l l' : list A) :
  length l = length l' -> (forall i, (i < length l)%nat -> nth i l d = nth i l' d) -> l = l'.
Proof. intros H1 H2. apply (nth_ext l l' d d H1). exact H2. Qed.

(** Loops *)
Lemma for_from_inv {St} (I : nat -> St -> Prop) body k cnt s :
  I k s ->
  (forall i s, (k <= i < k + cnt)%nat -> I i s ->
     exists s', body (Z.of_nat i) s = Ok s' /\ I (S i) s') ->
  exists s', for_from k cnt body s = Ok s' /\ I (k + cnt)%nat s'.
Proof.
  revert k s; induction cnt as [|c IH]; intros k s H0 Hstep; simpl.
  - exists s. rewrite Nat.add_0_r. auto.
  - destruct (Hstep k s) as (s1 & E1 & H1); [lia|exact H0|].
    rewrite E1; simpl.
    destruct (IH (S k) s1 H1) as (s2 & E2 & H2).
    + intros i s' Hi. apply Hstep. lia.
    + exists s2. split; [exact E2|]. replace (k + S c)%nat with (S k + c)%nat by lia. exact H2.
Qed.

Lemma for_upto_inv {St} (I : nat -> St -> Prop) body n s :
  I O s ->
  (forall i s, (i < Z.to_nat n)%nat -> I i s ->
     exists s', body (Z.of_nat i) s = Ok s' /\ I (S i) s') ->
  exists s', for_upto n body s = Ok s' /\ I (Z.to_nat n) s'.
Proof.
  intros H0 Hs. unfold for_upto.
  destruct (for_from_inv I body 0 (Z.to_nat n) s H0) as (s' & E & H).
  - intros i s1 Hi. apply Hs. lia.
  - exists s'. split; assumption.
Qed.

(** When every iteration is [Ok] the loop is a fold. *)
Lemma for_from_fold {St} (g : Z -> St -> St) body k cnt s :
  (forall i s, (k <= i < k + cnt)%nat -> body (Z.of_nat i) s = Ok (g (Z.of_nat i) s)) ->
  for_from k cnt body s = Ok (fold_left (fun a i => g (Z.of_nat i) a) (seq k cnt) s).
Proof.
  revert k s; induction cnt as [|c IH]; intros k s H; simpl; auto.
  rewrite H by lia. simpl. apply IH. intros i s' Hi. apply H. lia.
Qed.

Lemma for_from_app {St} (body : Z -> St -> res St) k c1 c2 s :
  for_from k (c1 + c2) body s = (s' <- for_from k c1 body s ;; for_from (k + c1) c2 body s').
Proof.
  revert k s; induction c1 as [|c IH]; intros k s; simpl.
  - rewrite Nat.add_0_r. reflexivity.
  - destruct (body (Z.of_nat k) s) as [s1|u]; simpl; auto.
    rewrite IH. replace (k + S c)%nat with (S k + c)%nat by lia. reflexivity.
Qed.

Lemma for_from_ext {St} (b1 b2 : Z -> St -> res St) k cnt s :
  (forall i s, (k <= i < k + cnt)%nat -> b1 (Z.of_nat i) s = b2 (Z.of_nat i) s) ->
  for_from k cnt b1 s = for_from k cnt b2 s.
Proof.
  revert k s; induction cnt as [|c IH]; intros k s H; simpl; auto.
  rewrite H by lia. destruct (b2 (Z.of_nat k) s) as [s1|u]; simpl; auto.
  apply IH. intros i s' Hi. apply H. lia.
Qed.

Lemma tab_from_ok {A} (g : nat -> A) f k cnt :
  (forall i, (k <= i < k + cnt)%nat -> f (Z.of_nat i) = Ok (g i)) ->
  tab_from k cnt f = Ok (map g (seq k cnt)).
Proof.
  revert k; induction cnt as [|c IH]; intros k H; simpl; auto.
  rewrite H by lia. simpl. rewrite IH; [reflexivity|]. intros i Hi. apply H. lia.
Qed.

Lemma tabulate_ok {A} (g : nat -> A) f n :
  (forall i, (i < Z.to_nat n)%nat -> f (Z.of_nat i) = Ok (g i)) ->
  tabulate n f = Ok (map g (seq 0 (Z.to_nat n))).
Proof. intros H. apply tab_from_ok. intros i Hi. apply H. lia. Qed.

Lemma tab_from_undef {A} (f : Z -> res A) k cnt j u :
  (j < cnt)%nat -> (forall i, (k <= i < k + j)%nat -> is_ok (f (Z.of_nat i)) = true) ->
  f (Z.of_nat (k + j)) = Undef u -> tab_from k cnt f = Undef u.
Proof.
  revert k j; induction cnt as [|c IH]; intros k j Hj Hok Hu; [lia|]. simpl.
  destruct j as [|j].
  - rewrite Nat.add_0_r in Hu. rewrite Hu. reflexivity.
  - specialize (Hok k ltac:(lia)) as Hk.
    destruct (f (Z.of_nat k)) as [a|u']; [|discriminate]. simpl.
    rewrite (IH (S k) j); auto; try lia.
    + intros i Hi. apply Hok. lia.
    + replace (S k + j)%nat with (k + S j)%nat by lia. exact Hu.
Qed.

Lemma map_seq_nth {A} (g : nat -> A) n i d :
  (i < n)%nat -> nth i (map g (seq 0 n)) d = g i.
Proof.
  intros H. rewrite (nth_indep _ d (g 0%nat)).
  - rewrite map_nth, seq_nth by exact H. reflexivity.
  - rewrite map_length, seq_length. exact H.
Qed.

Lemma list_as_map_seq {A} (l : list A) d : l = map (fun i => nth i l d) (seq 0 (length l)).
Proof.
  apply (nth_ext' d).
  - rewrite map_length, seq_length. reflexivity.
  - intros i Hi. rewrite map_seq_nth by exact Hi. reflexivity.
Qed.

Lemma tab_from_length {A} (f : Z -> res A) k cnt l : tab_from k cnt f = Ok l -> length l = cnt.
Proof.
  revert k l; induction cnt as [|c IH]; intros k l H; simpl in H.
  - inversion H; reflexivity.
  - apply bind_ok in H as (a & Ha & H). apply bind_ok in H as (t & Ht & H).
    inversion H; subst. simpl. f_equal. eapply IH; eauto.
Qed.

Lemma mapM_ok {A B} (f : A -> res B) (g : A -> B) l :
  (forall a, In a l -> f a = Ok (g a)) -> mapM f l = Ok (map g l).
Proof.
  induction l as [|a t IH]; intros H; simpl; auto.
  rewrite H by (left; reflexivity). simpl. rewrite IH; auto. intros b Hb. apply H. right; exact Hb.
Qed.

Lemma mapM_Forall2 {A B} (f : A -> res B) l l' :
  mapM f l = Ok l' -> Forall2 (fun a b => f a = Ok b) l l'.
Proof.
  revert l'; induction l as [|a t IH]; intros l' H; simpl in H.
  - inversion H; constructor.
  - apply bind_ok in H as (b & Hb & H). apply bind_ok in H as (r & Hr & H).
    inversion H; subst. constructor; auto.
Qed.

Lemma for_each_inv {A St} (I : list A -> St -> Prop) (body : A -> St -> res St) l s :
  I [] s ->
  (forall pre a s, I pre s -> In a l -> (exists suf, l = pre ++ a :: suf) ->
     exists s', body a s = Ok s' /\ I (pre ++ [a]) s') ->
  exists s', for_each l body s = Ok s' /\ I l s'.
Proof.
  intros H0 Hs.
  assert (G : forall suf pre s, l = pre ++ suf -> I pre s ->
             exists s', for_each suf body s = Ok s' /\ I l s').
  { induction suf as [|a t IH]; intros pre s1 El HI; simpl.
    - exists s1. rewrite app_nil_r in El. subst. auto.
    - destruct (Hs pre a s1) as (s2 & E2 & H2); auto.
      + subst l. apply in_or_app. right; left; reflexivity.
      + exists t. exact El.
      + rewrite E2. simpl. apply (IH (pre ++ [a])); auto.
        rewrite <- app_assoc. exact El. }
  apply (G l [] s); auto.
Qed.

Lemma for_each_fold {A St} (g : A -> St -> St) (body : A -> St -> res St) l s :
  (forall a s, In a l -> body a s = Ok (g a s)) ->
  for_each l body s = Ok (fold_left (fun s a => g a s) l s).
Proof.
  revert s; induction l as [|a t IH]; intros s H; simpl; auto.
  rewrite H by (left; reflexivity). simpl. apply IH. intros b s' Hb. apply H. right; exact Hb.
Qed.

(** Ordered maps *)
Lemma lexcmp_eq a b : lexcmp a b = Eq <-> a = b.
Proof.
  revert b; induction a as [|x a IH]; intros [|y b]; simpl; split; intros H; try discriminate; auto.
  - destruct (Z.compare_spec x y); try discriminate. subst. f_equal. apply IH. exact H.
  - inversion H; subst. rewrite Z.compare_refl. apply IH. reflexivity.
Qed.

Lemma lexcmp_antisym a b : lexcmp b a = CompOpp (lexcmp a b).
Proof.
  revert b; induction a as [|x a IH]; intros [|y b]; simpl; auto.
  rewrite Z.compare_antisym. destruct (Z.compare x y); simpl; auto.
Qed.

Lemma lexcmp_trans a b c : lexcmp a b = Lt -> lexcmp b c = Lt -> lexcmp a c = Lt.
Proof.
  revert b c; induction a as [|x a IH]; intros [|y b] [|z c]; simpl; intros H1 H2;
    try discriminate; auto.
  destruct (Z.compare_spec x y); try discriminate; destruct (Z.compare_spec y z); try discriminate;
    subst.
  - rewrite Z.compare_refl. eapply IH; eauto.
  - rewrite (proj2 (Z.compare_lt_iff y z)) by assumption. reflexivity.
  - rewrite (proj2 (Z.compare_lt_iff x z)) by assumption. reflexivity.
  - rewrite (proj2 (Z.compare_lt_iff x z)) by lia. reflexivity.
Qed.
