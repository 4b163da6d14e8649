(** * Lemmas about ordered maps (std::map as a sorted association list) *)
From Coq Require Import Sorted.
From Verif Require Import Cpp CppProof.

Section OMapProof.
  Context {K V : Type} (cmp : K -> K -> comparison).
  Hypothesis cmp_eq : forall a b, cmp a b = Eq <-> a = b.
  Hypothesis cmp_antisym : forall a b, cmp b a = CompOpp (cmp a b).
  Hypothesis cmp_trans : forall a b c, cmp a b = Lt -> cmp b c = Lt -> cmp a c = Lt.

  Definition klt (a b : K * V) : Prop := cmp (fst a) (fst b) = Lt.
  Definition osorted (m : list (K * V)) : Prop := StronglySorted klt m.

  Lemma cmp_gt a b : cmp a b = Gt -> cmp b a = Lt.
  Proof. intros H. rewrite cmp_antisym, H. reflexivity. Qed.

  Lemma cmp_refl a : cmp a a = Eq.
  Proof. apply cmp_eq. reflexivity. Qed.

  Lemma osorted_nil : osorted [].
  Proof. constructor. Qed.

  Lemma omap_find_In k v m : osorted m -> (omap_find cmp k m = Some v <-> In (k, v) m).
  Proof.
    induction 1 as [|[k' v'] m Hs IH Hall]; simpl; [split; [discriminate|tauto]|].
    rewrite Forall_forall in Hall. destruct (cmp k k') eqn:E.
    - apply cmp_eq in E; subst k'. split.
      + intros H; inversion H; subst. left; reflexivity.
      + intros [H|H]; [inversion H; reflexivity|]. specialize (Hall _ H). unfold klt in Hall; simpl in Hall.
        rewrite cmp_refl in Hall. discriminate.
    - split; [discriminate|]. intros [H|H].
      + inversion H; subst. rewrite cmp_refl in E. discriminate.
      + specialize (Hall _ H). unfold klt in Hall; simpl in Hall.
        apply cmp_trans with (1 := E) in Hall. rewrite cmp_refl in Hall. discriminate.
    - rewrite IH. split; [tauto|]. intros [H|H]; [|exact H].
      inversion H; subst. rewrite cmp_refl in E. discriminate.
  Qed.

  Lemma omap_find_None k m : osorted m -> (omap_find cmp k m = None <-> ~ In k (map fst m)).
  Proof.
    intros Hs. destruct (omap_find cmp k m) eqn:E.
    - split; [discriminate|]. intros H. exfalso. apply H.
      apply omap_find_In in E; auto. apply in_map_iff. exists (k, v). split; auto.
    - split; auto. intros _ H. apply in_map_iff in H as ([k' v] & <- & H). simpl in E.
      apply omap_find_In in H; auto. simpl in H. congruence.
  Qed.

  Lemma in_set k v (m : list (K * V)) x : In x (omap_set cmp k v m) -> x = (k, v) \/ In x m.
  Proof.
    induction m as [|[k' v'] m IH]; simpl.
    - intros [H|[]]; auto.
    - destruct (cmp k k') eqn:E; simpl.
      + apply cmp_eq in E; subst k'. intros [H|H]; auto.
      + intros [H|H]; auto.
      + intros [H|H]; auto. apply IH in H. tauto.
  Qed.

  Lemma in_insert k v (m : list (K * V)) x : In x (omap_insert cmp k v m) -> x = (k, v) \/ In x m.
  Proof.
    induction m as [|[k' v'] m IH]; simpl.
    - intros [H|[]]; auto.
    - destruct (cmp k k') eqn:E; simpl.
      + intros [H|H]; auto.
      + intros [H|H]; auto.
      + intros [H|H]; auto. apply IH in H. tauto.
  Qed.

  Lemma osorted_set k v m : osorted m -> osorted (omap_set cmp k v m).
  Proof.
    induction 1 as [|[k' v'] m Hs IH Hall]; simpl; [constructor; [constructor|constructor]|].
    destruct (cmp k k') eqn:E.
    - constructor; auto.
    - constructor; [constructor; auto|]. constructor; [exact E|].
      rewrite Forall_forall in *. intros x Hx. specialize (Hall x Hx). unfold klt in *; simpl in *. eauto.
    - constructor; [exact IH|]. rewrite Forall_forall in *. intros x Hx. apply in_set in Hx as [->|Hx]; auto.
      unfold klt; simpl. apply cmp_gt. exact E.
  Qed.

  Lemma osorted_insert k v m : osorted m -> osorted (omap_insert cmp k v m).
  Proof.
    induction 1 as [|[k' v'] m Hs IH Hall]; simpl; [constructor; [constructor|constructor]|].
    destruct (cmp k k') eqn:E.
    - constructor; auto.
    - constructor; [constructor; auto|]. constructor; [exact E|].
      rewrite Forall_forall in *. intros x Hx. specialize (Hall x Hx). unfold klt in *; simpl in *. eauto.
    - constructor; [exact IH|]. rewrite Forall_forall in *. intros x Hx. apply in_insert in Hx as [->|Hx]; auto.
      unfold klt; simpl. apply cmp_gt. exact E.
  Qed.

  Lemma find_set_same k v (m : list (K * V)) : omap_find cmp k (omap_set cmp k v m) = Some v.
  Proof.
    induction m as [|[k' v'] m IH]; simpl; [rewrite cmp_refl; reflexivity|].
    destruct (cmp k k') eqn:E; simpl; rewrite ?cmp_refl, ?E; auto.
  Qed.

  Lemma find_set_other k k' v (m : list (K * V)) : k <> k' -> omap_find cmp k' (omap_set cmp k v m) = omap_find cmp k' m.
  Proof.
    intros Hne. induction m as [|[k1 v1] m IH]; simpl.
    - destruct (cmp k' k) eqn:E; auto. apply cmp_eq in E. congruence.
    - destruct (cmp k k1) eqn:E; simpl.
      + apply cmp_eq in E; subst k1. destruct (cmp k' k) eqn:E; auto. apply cmp_eq in E. congruence.
      + destruct (cmp k' k) eqn:E2.
        * apply cmp_eq in E2. congruence.
        * rewrite (cmp_trans _ _ _ E2 E). reflexivity.
        * reflexivity.
      + destruct (cmp k' k1); auto.
  Qed.

  Lemma find_insert_same k v m :
    osorted m -> omap_find cmp k (omap_insert cmp k v m) = Some (match omap_find cmp k m with Some v' => v' | None => v end).
  Proof.
    induction 1 as [|[k' v'] m Hs IH Hall]; simpl; [rewrite cmp_refl; reflexivity|].
    destruct (cmp k k') eqn:E; simpl; rewrite ?cmp_refl, ?E; auto.
  Qed.

  Lemma find_insert_other k k' v (m : list (K * V)) : k <> k' -> omap_find cmp k' (omap_insert cmp k v m) = omap_find cmp k' m.
  Proof.
    intros Hne. induction m as [|[k1 v1] m IH]; simpl.
    - destruct (cmp k' k) eqn:E; auto. apply cmp_eq in E. congruence.
    - destruct (cmp k k1) eqn:E; simpl; auto.
      + destruct (cmp k' k) eqn:E2.
        * apply cmp_eq in E2. congruence.
        * rewrite (cmp_trans _ _ _ E2 E). reflexivity.
        * reflexivity.
      + destruct (cmp k' k1); auto.
  Qed.

  Lemma osorted_NoDup m : osorted m -> NoDup (map fst m).
  Proof.
    induction 1 as [|[k v] m Hs IH Hall]; simpl; constructor; auto.
    intros H. apply in_map_iff in H as (x & Ex & Hx). rewrite Forall_forall in Hall.
    specialize (Hall x Hx). unfold klt in Hall. simpl in *. rewrite Ex, cmp_refl in Hall. discriminate.
  Qed.

  Lemma keys_set k v (m : list (K * V)) x : In x (map fst (omap_set cmp k v m)) <-> x = k \/ In x (map fst m).
  Proof.
    induction m as [|[k' v'] m IH]; simpl; [intuition|].
    destruct (cmp k k') eqn:E; simpl.
    - apply cmp_eq in E; subst k'. intuition.
    - intuition.
    - rewrite IH. intuition.
  Qed.

  Lemma keys_insert k v (m : list (K * V)) x : In x (map fst (omap_insert cmp k v m)) <-> x = k \/ In x (map fst m).
  Proof.
    induction m as [|[k' v'] m IH]; simpl; [intuition|].
    destruct (cmp k k') eqn:E; simpl.
    - apply cmp_eq in E; subst k'. intuition.
    - intuition.
    - rewrite IH. intuition.
  Qed.

  Lemma set_of_In k m : In k (map fst m) -> osorted m -> exists v, omap_find cmp k m = Some v.
  Proof.
    intros H Hs. apply in_map_iff in H as ([k' v] & E & H). simpl in E; subst k'. exists v. apply omap_find_In; auto.
  Qed.
End OMapProof.

(** Maps with the same keys are sorted alike. *)
Lemma osorted_keys {K V W} (cmp : K -> K -> comparison) (m : list (K * V)) (m' : list (K * W)) :
  map fst m = map fst m' -> osorted cmp m -> osorted cmp m'.
Proof.
  revert m'; induction m as [|[k v] m IH]; intros [|[k' w] m'] E Hs; simpl in E; try discriminate; [constructor|].
  inversion E; subst. inversion Hs as [|x y Hs' Hall]; subst. constructor; [apply IH; auto|].
  rewrite Forall_forall in *. intros [k w'] Hk.
  assert (Hin : In k (map fst m)) by (rewrite H1; apply in_map_iff; exists (k, w'); auto).
  apply in_map_iff in Hin as ([k1 v1] & Ek & Hin). specialize (Hall _ Hin). unfold klt in *. simpl in *. subst. exact Hall.
Qed.
