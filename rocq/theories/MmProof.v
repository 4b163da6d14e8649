(** * matmult: proofs *)
From Verif Require Import Cpp CppProof ParModel ParSpec ParProof FortModel MmModel MmSpec.
From Coq Require Import ZArith Lia List Permutation Bool.
Import ListNotations.
Local Open Scope Z_scope.
Local Arguments Z.of_nat : simpl never.

Lemma upto_S k : upto (Z.of_nat (S k)) = upto (Z.of_nat k) ++ [Z.of_nat k + 1].
Proof. unfold upto. rewrite !Nat2Z.id, seq_S, map_app. reflexivity. Qed.

Lemma nth_error_ext' {X} (l : list X) : forall l', (forall p, nth_error l p = nth_error l' p) -> l = l'.
Proof.
  induction l as [|x l IH]; intros [|y l'] H; auto; try (specialize (H O); discriminate).
  pose proof (H O) as H0. injection H0 as ->. f_equal. apply IH. intros p. apply (H (S p)).
Qed.

(** ** Positions *)
Lemma pos_range n m i j : 1 <= i <= n -> 1 <= j <= m -> 0 <= (i - 1) + n * (j - 1) < n * m.
Proof. intros. nia. Qed.
Lemma pos_inj n i j i' j' : 1 <= i <= n -> 1 <= i' <= n -> (i - 1) + n * (j - 1) = (i' - 1) + n * (j' - 1) -> i = i' /\ j = j'.
Proof.
  intros H H' E. assert (j - 1 = j' - 1).
  { transitivity (((i - 1) + n * (j - 1)) / n).
    - rewrite Z.mul_comm, Z.div_add by lia. rewrite Z.div_small by lia. lia.
    - rewrite E, Z.mul_comm, Z.div_add by lia. rewrite Z.div_small by lia. lia. }
  assert (j = j') by lia. subst j'. split; lia.
Qed.

Lemma mm_pos_ok n m i j : 1 <= i <= n -> 1 <= j <= m -> mm_pos n m i j = Ok ((i - 1) + n * (j - 1)).
Proof.
  intros. unfold mm_pos. rewrite (proj2 (Z.leb_le 1 i)), (proj2 (Z.leb_le i n)), (proj2 (Z.leb_le 1 j)), (proj2 (Z.leb_le j m)) by lia. reflexivity.
Qed.

Section Mm.
  Context {D : Type} (ar : arith D).
  Implicit Types (a b c : mat D) (A B C : Z -> Z -> D).

  Definition shaped (n m : Z) c : Prop := mm_rows c = n /\ mm_cols c = m /\ vlen (mm_data c) = n * m.
  Definition holds (n m : Z) A c : Prop := mm_rows c = n /\ mm_cols c = m /\ by_columns n m A (mm_data c).

  Lemma holds_shaped n m A c : holds n m A c -> shaped n m c.
  Proof. intros (H1 & H2 & H3 & _). repeat split; auto. Qed.

  Lemma mm_get_shaped n m c i j : shaped n m c -> 1 <= i <= n -> 1 <= j <= m ->
    mm_get c i j = Ok (nth (Z.to_nat ((i - 1) + n * (j - 1))) (mm_data c) (a_zero ar)).
  Proof.
    intros (H1 & H2 & H3) Hi Hj. unfold mm_get. rewrite H1, H2, mm_pos_ok by assumption. cbn [bind]. apply vget_ok. rewrite H3. apply pos_range; assumption.
  Qed.

  Lemma holds_get n m A c i j : holds n m A c -> 1 <= i <= n -> 1 <= j <= m -> mm_get c i j = Ok (A i j).
  Proof.
    intros H Hi Hj. rewrite (mm_get_shaped n m) by (auto; apply (holds_shaped n m A); exact H). destruct H as (_ & _ & _ & H).
    f_equal. apply nth_error_nth. apply H; assumption.
  Qed.

  Lemma get_holds n m A c : shaped n m c -> (forall i j, 1 <= i <= n -> 1 <= j <= m -> mm_get c i j = Ok (A i j)) -> holds n m A c.
  Proof.
    intros Hs H. pose proof Hs as (H1 & H2 & H3). split; [exact H1|]. split; [exact H2|]. split; [exact H3|]. intros i j Hi Hj.
    specialize (H i j Hi Hj). rewrite (mm_get_shaped n m) in H by assumption. injection H as <-. apply nth_error_nth'.
    pose proof (pos_range n m i j Hi Hj). unfold vlen in H3. lia.
  Qed.

  Lemma mm_set_ok n m c i j x : shaped n m c -> 1 <= i <= n -> 1 <= j <= m ->
    exists c', mm_set c i j x = Ok c' /\ shaped n m c' /\
      forall i' j', 1 <= i' <= n -> 1 <= j' <= m -> mm_get c' i' j' = if (i' =? i) && (j' =? j) then Ok x else mm_get c i' j'.
  Proof.
    intros Hs Hi Hj. pose proof Hs as (H1 & H2 & H3). unfold mm_set. rewrite H1, H2, mm_pos_ok by assumption. cbn [bind].
    pose proof (pos_range n m i j Hi Hj) as R. rewrite vset_ok by lia. cbn [bind]. eexists; split; [reflexivity|].
    assert (Hs' : shaped n m (mm_with c (upd (mm_data c) (Z.to_nat (i - 1 + n * (j - 1))) x))).
    { split; [exact H1|]. split; [exact H2|]. cbn [mm_with mm_data]. unfold vlen. rewrite upd_length. exact H3. }
    split; [exact Hs'|]. intros i' j' Hi' Hj'. rewrite !(mm_get_shaped n m) by assumption. cbn [mm_with mm_data].
    pose proof (pos_range n m i' j' Hi' Hj') as R'. unfold vlen in H3. rewrite upd_nth by lia.
    destruct (Nat.eqb_spec (Z.to_nat (i' - 1 + n * (j' - 1))) (Z.to_nat (i - 1 + n * (j - 1)))) as [E|E].
    - destruct (pos_inj n i' j' i j Hi' Hi ltac:(lia)) as [-> ->]. rewrite !Z.eqb_refl. reflexivity.
    - destruct (Z.eqb_spec i' i) as [->|]; cbn [andb]; auto. destruct (Z.eqb_spec j' j) as [->|]; cbn [andb]; auto. exfalso. apply E. reflexivity.
  Qed.

  Lemma mm_alloc_shaped junk n m : 0 <= n -> 0 <= m -> shaped n m (mm_alloc (D := D) junk n m).
  Proof.
    intros. unfold shaped, mm_alloc. cbn [mm_rows mm_cols mm_data]. rewrite !Z.max_r by lia. repeat split. unfold vlen. rewrite map_length, seq_length. nia.
  Qed.

  (** Two matrices with the same elements are equal. *)
  Lemma by_columns_eq n m A l l' : 0 <= n -> 0 <= m -> by_columns n m A l -> by_columns n m A l' -> l = l'.
  Proof.
    intros Hn Hm (L & H) (L' & H'). apply nth_error_ext'. intros p.
    destruct (Nat.lt_ge_cases p (List.length l)) as [Hp|Hp].
    - assert (0 < n) by nia. set (i := Z.of_nat p mod n + 1). set (j := Z.of_nat p / n + 1).
      assert (Hi : 1 <= i <= n) by (unfold i; pose proof (Z.mod_pos_bound (Z.of_nat p) n); lia).
      assert (Hj : 1 <= j <= m).
      { unfold j. pose proof (Z.div_pos (Z.of_nat p) n). assert (Z.of_nat p / n < m) by (apply Z.div_lt_upper_bound; lia). lia. }
      assert (Ep : p = Z.to_nat (i - 1 + n * (j - 1))).
      { unfold i, j. pose proof (Z.div_mod (Z.of_nat p) n). lia. }
      rewrite Ep, H, H' by assumption. reflexivity.
    - rewrite (proj2 (nth_error_None l p)) by lia. symmetry. apply nth_error_None. lia.
  Qed.

  (** ** One column *)
  Lemma inner_loop n m el A B a b c i k : holds n m A a -> holds m el B b -> shaped n el c -> 1 <= i <= n -> 1 <= k <= el -> mm_get c i k = Ok (a_ofZ ar 0) ->
    exists c', f_do m (fun j c =>
        x <- mm_get c i k ;; p <- mm_get a i j ;; q <- mm_get b j k ;; mm_set c i k (a_add ar x (a_mul ar p q))) c = Ok c' /\ shaped n el c' /\
      forall i' k', 1 <= i' <= n -> 1 <= k' <= el -> mm_get c' i' k' = if (i' =? i) && (k' =? k) then Ok (dot_product ar m A B i k) else mm_get c i' k'.
  Proof.
    intros Ha Hb Hc Hi Hk H0. unfold f_do.
    match goal with |- context [for_upto ?t ?bd ?s] =>
      destruct (for_upto_inv (fun j c1 => shaped n el c1 /\ forall i' k', 1 <= i' <= n -> 1 <= k' <= el ->
        mm_get c1 i' k' = if (i' =? i) && (k' =? k) then Ok (dot_product ar (Z.of_nat j) A B i k) else mm_get c i' k') bd t s) as (c' & -> & Hc' & H) end.
    - split; [exact Hc|]. intros i' k' Hi' Hk'. destruct (Z.eqb_spec i' i) as [->|]; cbn [andb]; auto. destruct (Z.eqb_spec k' k) as [->|]; auto.
    - intros j c1 Hj (Hs & H). rewrite (H i k Hi Hk), !Z.eqb_refl. cbn [andb bind].
      rewrite (holds_get n m A) by (auto; lia). rewrite (holds_get m el B) by (auto; lia). cbn [bind].
      destruct (mm_set_ok n el c1 i k (a_add ar (dot_product ar (Z.of_nat j) A B i k) (a_mul ar (A i (Z.of_nat j + 1)) (B (Z.of_nat j + 1) k))) Hs Hi Hk) as (c2 & E2 & S2 & G2).
      exists c2. split; [exact E2|]. split; [exact S2|]. intros i' k' Hi' Hk'. rewrite G2 by assumption. rewrite (H i' k' Hi' Hk').
      destruct ((i' =? i) && (k' =? k)); [|reflexivity]. unfold dot_product. rewrite upto_S, fold_left_app. reflexivity.
    - exists c'. split; [reflexivity|]. split; [exact Hc'|]. intros i' k' Hi' Hk'. rewrite (H i' k' Hi' Hk').
      destruct ((i' =? i) && (k' =? k)); [|reflexivity]. unfold dot_product, upto. rewrite Nat2Z.id. reflexivity.
  Qed.

  Lemma column_ok n m el A B a b c k : holds n m A a -> holds m el B b -> shaped n el c -> 1 <= k <= el ->
    exists c', mm_column ar a b k c = Ok c' /\ shaped n el c' /\
      forall i' k', 1 <= i' <= n -> 1 <= k' <= el -> mm_get c' i' k' = if k' =? k then Ok (dot_product ar m A B i' k) else mm_get c i' k'.
  Proof.
    intros Ha Hb Hc Hk. unfold mm_column. pose proof Ha as (-> & _). pose proof Hb as (-> & _). unfold f_do at 1.
    match goal with |- context [for_upto ?t ?bd ?s] =>
      destruct (for_upto_inv (fun i c1 => shaped n el c1 /\ forall i' k', 1 <= i' <= n -> 1 <= k' <= el ->
        mm_get c1 i' k' = if (i' <=? Z.of_nat i) && (k' =? k) then Ok (dot_product ar m A B i' k) else mm_get c i' k') bd t s) as (c' & -> & Hc' & H) end.
    - split; [exact Hc|]. intros i' k' Hi' Hk'. destruct (Z.leb_spec i' (Z.of_nat 0)); [lia|reflexivity].
    - intros i c1 Hi (Hs & H). assert (Hi1 : 1 <= Z.of_nat i + 1 <= n) by lia.
      destruct (mm_set_ok n el c1 (Z.of_nat i + 1) k (a_ofZ ar 0) Hs Hi1 Hk) as (c2 & E2 & S2 & G2). rewrite E2. cbn [bind].
      destruct (inner_loop n m el A B a b c2 (Z.of_nat i + 1) k Ha Hb S2 Hi1 Hk) as (c3 & E3 & S3 & G3).
      { rewrite G2 by assumption. rewrite !Z.eqb_refl. reflexivity. }
      exists c3. split; [exact E3|]. split; [exact S3|]. intros i' k' Hi' Hk'. rewrite G3 by assumption.
      destruct (Z.eqb_spec i' (Z.of_nat i + 1)) as [->|Hne]; cbn [andb].
      + destruct (Z.leb_spec (Z.of_nat i + 1) (Z.of_nat (S i))); [|lia]. cbn [andb]. destruct (Z.eqb_spec k' k) as [->|]; [reflexivity|].
        rewrite G2, H by assumption. rewrite Z.eqb_refl. cbn [andb]. destruct (Z.eqb_spec k' k); [contradiction|]. rewrite andb_false_r. reflexivity.
      + rewrite G2, H by assumption. destruct (Z.eqb_spec i' (Z.of_nat i + 1)); [contradiction|]. cbn [andb].
        destruct (Z.leb_spec i' (Z.of_nat i)), (Z.leb_spec i' (Z.of_nat (S i))); try lia; reflexivity.
    - exists c'. split; [reflexivity|]. split; [exact Hc'|]. intros i' k' Hi' Hk'. rewrite (H i' k' Hi' Hk').
      destruct (Z.leb_spec i' (Z.of_nat (Z.to_nat n))); [|lia]. reflexivity.
  Qed.

  (** ** The product *)
  Lemma matmult0_ok n m el A B a b c : holds n m A a -> holds m el B b -> shaped n el c ->
    exists c', matmult0 ar a b c = Ok c' /\ holds n el (dot_product ar m A B) c'.
  Proof.
    intros Ha Hb Hc. unfold matmult0. pose proof Hc as (_ & -> & _). unfold f_do.
    match goal with |- context [for_upto ?t ?bd ?s] =>
      destruct (for_upto_inv (fun k c1 => shaped n el c1 /\ forall i' k', 1 <= i' <= n -> 1 <= k' <= el -> k' <= Z.of_nat k ->
        mm_get c1 i' k' = Ok (dot_product ar m A B i' k')) bd t s) as (c' & -> & Hc' & H) end.
    - split; [exact Hc|]. intros; lia.
    - intros k c1 Hk (Hs & H). destruct (column_ok n m el A B a b c1 (Z.of_nat k + 1) Ha Hb Hs ltac:(lia)) as (c2 & E2 & S2 & G2).
      exists c2. split; [exact E2|]. split; [exact S2|]. intros i' k' Hi' Hk' Hle. rewrite G2 by assumption.
      destruct (Z.eqb_spec k' (Z.of_nat k + 1)) as [->|]; [reflexivity|]. apply H; auto. lia.
    - exists c'. split; [reflexivity|]. apply get_holds; auto. intros i' k' Hi' Hk'. apply H; auto. lia.
  Qed.

  (** ** initmat *)
  Lemma fill_ok n m c s (q : nat) : shaped n m c -> 0 <= n -> 0 <= m -> s = counted ar q ->
    exists c', f_do m (fun j st => f_do n (fun i '(a, count) => a <- mm_set a i j count ;; Ok (a, a_add ar count (a_ofZ ar 1))) st) (c, s)
        = Ok (c', counted ar (q + Z.to_nat (n * m))) /\ holds n m (fun i j => counted ar (q + Z.to_nat (i - 1 + n * (j - 1)))) c'.
  Proof.
    intros Hc Hn Hm ->. unfold f_do at 1.
    match goal with |- context [for_upto ?t ?bd ?s] =>
      destruct (for_upto_inv (fun k st => shaped n m (fst st) /\ snd st = counted ar (q + Z.to_nat (n * Z.of_nat k)) /\
        forall i' k', 1 <= i' <= n -> 1 <= k' <= m -> k' <= Z.of_nat k -> mm_get (fst st) i' k' = Ok (counted ar (q + Z.to_nat (i' - 1 + n * (k' - 1))))) bd t s)
        as ([c' s'] & -> & Hc' & Hq & H) end.
    - cbn [fst snd]. split; [exact Hc|]. split; [f_equal; lia|]. intros; lia.
    - intros k [c1 s1] Hk (Hs & Hq & H). cbn [fst snd] in *. unfold f_do.
      match goal with |- context [for_upto ?t ?bd ?s] =>
        destruct (for_upto_inv (fun i st => shaped n m (fst st) /\ snd st = counted ar (q + Z.to_nat (n * Z.of_nat k) + i) /\
          forall i' k', 1 <= i' <= n -> 1 <= k' <= m -> (k' <= Z.of_nat k \/ (k' = Z.of_nat k + 1 /\ i' <= Z.of_nat i)) ->
            mm_get (fst st) i' k' = Ok (counted ar (q + Z.to_nat (i' - 1 + n * (k' - 1))))) bd t s) as ([c2 s2] & -> & S2 & Q2 & G2) end.
      + cbn [fst snd]. split; [exact Hs|]. split; [rewrite Hq; f_equal; lia|]. intros i' k' Hi' Hk' [Hle|(_ & Hle)]; [apply H; auto|lia].
      + intros i [c2 s2] Hi (S2 & Q2 & G2). cbn [fst snd] in *. 
        destruct (mm_set_ok n m c2 (Z.of_nat i + 1) (Z.of_nat k + 1) s2 S2 ltac:(lia) ltac:(lia)) as (c3 & E3 & S3 & G3). rewrite E3. cbn [bind].
        eexists; split; [reflexivity|]. cbn [fst snd]. split; [exact S3|]. split.
        * rewrite Q2. replace (q + Z.to_nat (n * Z.of_nat k) + S i)%nat with (S (q + Z.to_nat (n * Z.of_nat k) + i)) by lia. reflexivity.
        * intros i' k' Hi' Hk' Hor. rewrite G3 by assumption. destruct (Z.eqb_spec i' (Z.of_nat i + 1)) as [->|]; cbn [andb].
          { destruct (Z.eqb_spec k' (Z.of_nat k + 1)) as [->|].
            - rewrite Q2. do 2 f_equal. replace (Z.of_nat i + 1 - 1 + n * (Z.of_nat k + 1 - 1)) with (n * Z.of_nat k + Z.of_nat i) by ring.
              rewrite Z2Nat.inj_add by nia. rewrite Nat2Z.id. lia.
            - apply G2; auto. lia. }
          { apply G2; auto. lia. }
      + eexists; split; [reflexivity|]. cbn [fst snd] in *. split; [exact S2|]. split.
        * rewrite Q2. f_equal. rewrite Nat2Z.inj_succ. nia.
        * intros i' k' Hi' Hk' Hle. apply G2; auto. lia.
    - cbn [fst snd] in *. exists c'. split.
      + rewrite Hq. rewrite Z2Nat.id by lia. reflexivity.
      + apply get_holds; auto. intros i' k' Hi' Hk'. apply H; auto. lia.
  Qed.
End Mm.

(** ** The concurrent loop *)
Section Conc.
  Context {D : Type} (ar : arith D) (rows cols : Z).
  Implicit Types (a b : mat D) (B : Z -> mat D -> res (mat D)).

  Definition keeps B : Prop := forall i l c, B i (mkMat rows cols l) = Ok c -> c = mkMat rows cols (mm_data c).

  Lemma for_keeps B : keeps B -> forall cnt k l c, for_from k cnt B (mkMat rows cols l) = Ok c -> c = mkMat rows cols (mm_data c).
  Proof.
    intros HB. induction cnt as [|cnt IH]; intros k l c E; cbn [for_from] in E; [injection E as <-; reflexivity|].
    destruct (B (Z.of_nat k) (mkMat rows cols l)) as [c1|] eqn:E1; [|discriminate]. cbn [bind] in E. rewrite (HB _ _ _ E1) in E. eauto.
  Qed.

  Lemma ploop_mat body B after cnt : keeps B ->
    (forall i l k, alone (body i tt k) (l, []) = (c <- B i (mkMat rows cols l) ;; alone (k tt) (mm_data c, []))) ->
    forall k l, alone (ploop k cnt body tt after) (l, []) = (c <- for_from k cnt B (mkMat rows cols l) ;; alone (after tt) (mm_data c, [])).
  Proof.
    intros HB H. induction cnt as [|cnt IH]; intros k l; cbn [ploop for_from]; [reflexivity|]. rewrite H.
    destruct (B (Z.of_nat k) (mkMat rows cols l)) as [c1|] eqn:E1; cbn [bind]; [|reflexivity]. rewrite IH, <- (HB _ _ _ E1). reflexivity.
  Qed.

  Lemma share_mat task B n : keeps B ->
    (forall i l, alone (task i) (l, []) = (c <- B i (mkMat rows cols l) ;; Ok (mm_data c, []))) ->
    forall l, alone (share task (map Z.of_nat (seq 0 (Z.to_nat n)))) (l, []) = (c <- for_upto n B (mkMat rows cols l) ;; Ok (mm_data c, [])).
  Proof.
    intros HB H. unfold for_upto. generalize O as k. generalize (Z.to_nat n) as cnt. induction cnt as [|cnt IH]; intros k l; [reflexivity|].
    cbn [seq map share fold_right for_from]. fold (share task (map Z.of_nat (seq (S k) cnt))). rewrite alone_then, H.
    destruct (B (Z.of_nat k) (mkMat rows cols l)) as [c1|] eqn:E1; cbn [bind]; [|reflexivity]. rewrite IH, <- (HB _ _ _ E1). reflexivity.
  Qed.

  Lemma set_keeps i j x (l : list D) c : mm_set (mkMat rows cols l) i j x = Ok c -> c = mkMat rows cols (mm_data c).
  Proof.
    unfold mm_set. cbn [mm_rows mm_cols mm_data]. destruct (mm_pos rows cols i j); [|discriminate]. cbn [bind].
    destruct (vset l a x); [|discriminate]. cbn [bind]. intros E. injection E as <-. reflexivity.
  Qed.

  Definition inner a b i k : Z -> mat D -> res (mat D) := fun j c =>
    x <- mm_get c i k ;; p <- mm_get a i j ;; q <- mm_get b j k ;; mm_set c i k (a_add ar x (a_mul ar p q)).

  Lemma inner_keeps a b i k : keeps (fun j => inner a b i k (j + 1)).
  Proof.
    intros j l c. unfold inner. destruct (mm_get (mkMat rows cols l) i k); [|discriminate]. destruct (mm_get a i (j + 1)); [|discriminate].
    destruct (mm_get b (j + 1) k); [|discriminate]. cbn [bind]. apply set_keeps.
  Qed.

  Lemma middle_keeps a b k : keeps (fun i c => c <- mm_set c (i + 1) k (a_ofZ ar 0) ;; f_do (mm_rows b) (inner a b (i + 1) k) c).
  Proof.
    intros i l c. destruct (mm_set (mkMat rows cols l) (i + 1) k (a_ofZ ar 0)) as [c1|] eqn:E1; [|discriminate]. cbn [bind].
    rewrite (set_keeps _ _ _ _ _ E1). unfold f_do, for_upto. apply for_keeps. apply inner_keeps.
  Qed.

  Lemma column_keeps a b : keeps (fun k => mm_column ar a b (k + 1)).
  Proof. intros k l c. unfold mm_column, f_do at 1, for_upto at 1. apply for_keeps. apply middle_keeps. Qed.

  Lemma task_alone a b k l : alone (mm_task ar a b rows cols k) (l, []) = (c <- mm_column ar a b (k + 1) (mkMat rows cols l) ;; Ok (mm_data c, [])).
  Proof.
    unfold mm_task. rewrite (ploop_mat _ (fun i c => c <- mm_set c (i + 1) (k + 1) (a_ofZ ar 0) ;; f_do (mm_rows b) (inner a b (i + 1) (k + 1)) c)).
    - reflexivity.
    - apply middle_keeps.
    - clear l. intros i l next. unfold mm_set. cbn [mm_rows mm_cols mm_data]. destruct (mm_pos rows cols (i + 1) (k + 1)) as [p|] eqn:Ep; cbn [priv alone bind]; [|reflexivity].
      cbn [mset fst snd]. destruct (vset l p (a_ofZ ar 0)) as [l1|]; cbn [bind]; [|reflexivity]. unfold mm_with. cbn [mm_rows mm_cols].
      unfold f_do, for_upto. rewrite (ploop_mat _ (fun j => inner a b (i + 1) (k + 1) (j + 1))); [reflexivity|apply inner_keeps|].
      clear l l1. intros j l nxt. unfold inner.
      assert (Eg : mm_get (mkMat rows cols l) (i + 1) (k + 1) = vget l p) by (unfold mm_get; cbn [mm_rows mm_cols mm_data]; rewrite Ep; reflexivity). rewrite Eg.
      unfold mm_set. cbn [mm_rows mm_cols mm_data]. rewrite !Ep. cbn [priv alone bind mget fst snd].
      destruct (vget l p) as [x|]; cbn [bind]; [|reflexivity].
      destruct (mm_get a (i + 1) (j + 1)) as [x1|]; cbn [bind priv alone]; [|reflexivity].
      destruct (mm_get b (j + 1) (k + 1)) as [x2|]; cbn [bind priv alone]; [|reflexivity]. cbn [mset fst snd].
      destruct (vset l p (a_add ar x (a_mul ar x1 x2))); cbn [bind]; reflexivity.
  Qed.

  (** Iteration k writes and reads the elements of column k. *)
  Definition column_of (q : loc) : option Z := match fst q with F => Some (snd q / rows) | OldF => None end.

  Lemma task_respects a b k : respects (owned column_of k) (unowned column_of) (mm_task ar a b rows cols k).
  Proof.
    assert (HP : forall i p, mm_pos rows cols i (k + 1) = Ok p -> owned column_of k (F, p)).
    { intros i p. unfold mm_pos. destruct (Z.leb_spec 1 i); [|discriminate]. destruct (Z.leb_spec i rows); [|discriminate].
      destruct (1 <=? k + 1); [|discriminate]. destruct (k + 1 <=? cols); [|discriminate]. cbn [andb]. intros E. injection E as <-.
      unfold owned, column_of. cbn [fst snd]. f_equal. replace (k + 1 - 1) with k by ring. rewrite Z.mul_comm, Z.div_add by lia. rewrite Z.div_small by lia. lia. }
    unfold mm_task. apply ploop_respects; [intros; exact I|]. intros i s next Hn.
    destruct (mm_pos rows cols (i + 1) (k + 1)) as [p|] eqn:Ep; cbn [priv]; [|exact I]. specialize (HP _ _ Ep). cbn [respects]. split; [exact HP|].
    apply ploop_respects; [intros []; apply Hn|]. intros j t nxt Hx. cbn [priv respects]. split; [left; exact HP|]. intros x.
    apply priv_respects. intros [x1 x2]. cbn [respects]. split; [exact HP|]. apply Hx.
  Qed.

  Lemma ploop_atmost' {S} body n (after : S -> cmd D) cnt q : (forall s, atmost q (after s)) ->
    (forall i s k m, (forall s, atmost m (k s)) -> atmost (n + m) (body i s k)) -> forall k s, atmost (cnt * n + q) (ploop k cnt body s after).
  Proof. clear. intros Ha Hb. induction cnt as [|cnt IH]; intros k s; cbn [ploop Nat.mul Nat.add]; [apply Ha|]. rewrite <- Nat.add_assoc. apply Hb. intros. apply IH. Qed.

  Lemma task_atmost a b k : atmost (Z.to_nat (mm_rows a) * (1 + Z.to_nat (mm_rows b) * 2)) (mm_task ar a b rows cols k).
  Proof.
    unfold mm_task. rewrite <- (Nat.add_0_r (_ * _)). apply ploop_atmost'; [intros; exact I|]. intros i s next q Hn.
    apply priv_atmost. intros p. cbn [atmost Nat.add]. eexists; split; [reflexivity|]. apply ploop_atmost'; [exact Hn|].
    intros j t nxt r Hx. apply priv_atmost. intros p'. cbn [atmost Nat.add]. eexists; split; [reflexivity|]. intros x.
    apply priv_atmost. intros [x1 x2]. apply priv_atmost. intros p''. cbn [atmost]. eexists; split; [reflexivity|]. apply Hx.
  Qed.
End Conc.

Lemma mm_chain {D} (ar : arith D) T (a b c c' : mat D) who : matmult0 ar a b c = Ok c' -> shares T (mm_cols c) who ->
  chain T [fun t => share (mm_task ar a b (mm_rows c) (mm_cols c)) (who t)] (mm_data c, []) (mm_data c', []).
Proof.
  intros E Hw. cbn [chain]. eexists. split; [|reflexivity].
  apply (owned_good _ (column_of (mm_rows c)) (task_respects ar (mm_rows c) (mm_cols c) a b) T (mm_cols c)); [exact Hw|].
  rewrite (share_mat (mm_rows c) (mm_cols c) _ (fun k => mm_column ar a b (k + 1)) (mm_cols c)
    (column_keeps ar _ _ a b) (fun i l => task_alone ar _ _ a b i l)).
  unfold matmult0, f_do in E. destruct c as [rows cols l]. cbn [mm_rows mm_cols mm_data] in *.
  assert (E' : for_upto cols (fun k => mm_column ar a b (k + 1)) (mkMat rows cols l) = Ok c') by exact E. rewrite E'. reflexivity.
Qed.
