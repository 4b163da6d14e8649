(** * Optimality of the decomposition found by CubeDecomp *)
From Coq Require Import Floats.SpecFloat Sorted Permutation.
From Verif Require Import Cpp CppProof MaiModel MaiSpec Radix MaiProof CdModel CdSpec CdProof Ieee.
Local Open Scope Z_scope.
Local Arguments prodZ : simpl never.

Lemma half_surface_pos l : allpos l -> l <> [] -> 0 < half_surface l.
Proof.
  intros H Hne. destruct H as [|x l Hx Hl]; [contradiction|]. cbn [half_surface].
  pose proof (prodZ_pos l Hl). pose proof (half_surface_range l Hl). nia.
Qed.

Lemma local_facts n dims d :
  grid_ok dims -> 1 <= n -> is_decomp n dims d ->
  0 < half_surface (local_dims dims d) < 2 ^ 50 /\ 0 < prodZ (local_dims dims d) < two31.
Proof.
  intros Hg Hn Hd. pose proof (local_dims_pos n dims d Hg Hd) as Hp.
  pose proof (prodZ_pos _ Hp) as HP. pose proof (local_dims_prod n dims d Hd) as E.
  assert (HPb : prodZ (local_dims dims d) < two31).
  { destruct Hg as (_ & _ & _ & Hlt). change (2 ^ 31) with two31 in Hlt. nia. }
  split; [|lia]. split.
  - apply half_surface_pos; [exact Hp|]. intros E0.
    assert (length (local_dims dims d) = length dims) as L by (apply local_dims_length, Hd).
    rewrite E0 in L. destruct Hg as (Hne & _). destruct dims; [contradiction|discriminate].
  - pose proof (half_surface_range _ Hp) as HS. unfold vlen in HS.
    rewrite local_dims_length in HS by apply Hd. destruct Hg as (_ & H32 & _).
    unfold two31 in HPb. change (2 ^ 50) with 1125899906842624. nia.
Qed.

Lemma same_volume n dims d d' :
  1 <= n -> is_decomp n dims d -> is_decomp n dims d' ->
  prodZ (local_dims dims d) = prodZ (local_dims dims d').
Proof.
  intros Hn Hd Hd'. pose proof (local_dims_prod n dims d Hd). pose proof (local_dims_prod n dims d' Hd'). nia.
Qed.

Lemma cost_lt n dims d d' :
  grid_ok dims -> 1 <= n -> is_decomp n dims d -> is_decomp n dims d' ->
  dbl_lt (cost_of dims d) (cost_of dims d') =
  (half_surface (local_dims dims d) <? half_surface (local_dims dims d')).
Proof.
  intros Hg Hn Hd Hd'. unfold cost_of. rewrite (same_volume n dims d d') by assumption.
  destruct (local_facts n dims d Hg Hn Hd) as [A _]. destruct (local_facts n dims d' Hg Hn Hd') as [A' B'].
  apply dbl_quot_lt; [exact A|exact A'|]. unfold two31 in B'. change (2 ^ 53) with 9007199254740992. lia.
Qed.

Lemma cost_lt_max n dims d :
  grid_ok dims -> 1 <= n -> is_decomp n dims d -> dbl_lt (cost_of dims d) dbl_max = true.
Proof.
  intros Hg Hn Hd. destruct (local_facts n dims d Hg Hn Hd) as [A B].
  apply dbl_quot_lt_max; unfold two31 in B; change (2 ^ 53) with 9007199254740992;
    change (2 ^ 50) with 1125899906842624 in A; lia.
Qed.

(** The search returns a minimiser over all candidates but the first. *)
Lemma best_of_tail n dims v0 t :
  grid_ok dims -> 1 <= n -> (forall d, In d (v0 :: t) -> is_decomp n dims d) -> t <> [] ->
  let b := best_of dims (v0 :: t) in
  In b t /\ forall d, In d t -> half_surface (local_dims dims b) <= half_surface (local_dims dims d).
Proof.
  intros Hg Hn HV Hne. cbn [best_of]. destruct t as [|v1 t]; [contradiction|]. cbn [fold_left].
  unfold search_step at 2 4. cbn [fst].
  rewrite (cost_lt_max n) by (auto; apply HV; right; left; reflexivity).
  assert (G : forall t p b, (forall d, In d (p ++ t) -> is_decomp n dims d) -> In b p ->
     (forall d, In d p -> half_surface (local_dims dims b) <= half_surface (local_dims dims d)) ->
     let b' := snd (fold_left (search_step dims) t (cost_of dims b, b)) in
     In b' (p ++ t) /\ forall d, In d (p ++ t) -> half_surface (local_dims dims b') <= half_surface (local_dims dims d)).
  { clear - Hg Hn. induction t as [|x t IH]; intros p b HV Hb Hmin; cbn [fold_left].
    - rewrite app_nil_r. split; assumption.
    - unfold search_step at 2 4. cbn [fst].
      assert (Hx : is_decomp n dims x) by (apply HV, in_app_iff; right; left; reflexivity).
      assert (Hbd : is_decomp n dims b) by (apply HV, in_app_iff; left; exact Hb).
      rewrite (cost_lt n) by assumption.
      replace (p ++ x :: t) with ((p ++ [x]) ++ t) in * by (rewrite <- app_assoc; reflexivity).
      destruct (Z.ltb_spec (half_surface (local_dims dims x)) (half_surface (local_dims dims b))).
      + apply (IH (p ++ [x]) x); [exact HV|apply in_app_iff; right; left; reflexivity|].
        intros d Hd. apply in_app_iff in Hd as [Hd|[<-|[]]]; [specialize (Hmin d Hd); lia|lia].
      + apply (IH (p ++ [x]) b); [exact HV|apply in_app_iff; left; exact Hb|].
        intros d Hd. apply in_app_iff in Hd as [Hd|[<-|[]]]; [apply Hmin, Hd|lia]. }
  apply (G t [v1] v1).
  - intros d Hd. apply HV. right. exact Hd.
  - left; reflexivity.
  - intros d [<-|[]]. lia.
Qed.

(** ** Equal extents *)
Lemma half_surface_perm l l' : Permutation l l' -> half_surface l = half_surface l' /\ prodZ l = prodZ l'.
Proof.
  induction 1 as [|x l l' _ [IH1 IH2]|x y l|l l' l'' _ [IH1 IH2] _ [IH3 IH4]].
  - split; reflexivity.
  - cbn [half_surface]. rewrite !prodZ_cons, IH1, IH2. split; reflexivity.
  - cbn [half_surface]. rewrite !prodZ_cons. split; ring.
  - split; congruence.
Qed.

Lemma local_dims_repeat n d : local_dims (repeat n (length d)) d = map (fun x => n / x) d.
Proof. induction d as [|x d IH]; auto. cbn [length repeat map]. rewrite <- IH. reflexivity. Qed.

Lemma nth_repeat' (n : Z) m j : (j < m)%nat -> nth j (repeat n m) 0 = n.
Proof. revert j; induction m as [|m IH]; intros [|j] H; simpl; try lia; auto. apply IH. lia. Qed.

Lemma is_decomp_repeat p n m d :
  is_decomp p (repeat n m) d <-> length d = m /\ (forall x, In x d -> 0 < x /\ (x | n)) /\ prodZ d = p.
Proof.
  unfold is_decomp. rewrite repeat_length. split; intros (H1 & H2 & H3); (split; [exact H1|split; [|exact H3]]).
  - intros x Hx. apply (In_nth _ _ 0) in Hx as (j & Hj & <-). rewrite H1 in Hj.
    specialize (H2 j Hj). rewrite nth_repeat' in H2 by exact Hj. exact H2.
  - intros j Hj. rewrite nth_repeat' by exact Hj. apply H2. apply nth_In. lia.
Qed.

Lemma is_decomp_perm p n m d d' : Permutation d d' -> is_decomp p (repeat n m) d -> is_decomp p (repeat n m) d'.
Proof.
  intros HP H. apply is_decomp_repeat in H as (H1 & H2 & H3). apply is_decomp_repeat.
  split; [rewrite <- (Permutation_length HP); exact H1|]. split.
  - intros x Hx. apply H2. apply (Permutation_in _ (Permutation_sym HP) Hx).
  - destruct (half_surface_perm _ _ HP) as [_ <-]. exact H3.
Qed.

Lemma hs_local_perm p n m d d' :
  Permutation d d' -> is_decomp p (repeat n m) d ->
  half_surface (local_dims (repeat n m) d) = half_surface (local_dims (repeat n m) d').
Proof.
  intros HP H. assert (length d = m) as L by (apply is_decomp_repeat in H; apply H).
  pose proof (Permutation_length HP) as L'.
  rewrite <- L at 1. rewrite local_dims_repeat. replace m with (length d') by lia. rewrite local_dims_repeat.
  apply half_surface_perm. apply Permutation_map, HP.
Qed.

(** The first candidate has the smallest last component. *)
Definition hdle (u v : list Z) : Prop := hd 0 u <= hd 0 v.

Lemma SS_app {A} (R : A -> A -> Prop) l1 l2 :
  StronglySorted R l1 -> StronglySorted R l2 -> (forall x y, In x l1 -> In y l2 -> R x y) ->
  StronglySorted R (l1 ++ l2).
Proof.
  induction 1 as [|x l1 H1 IH Hx]; intros H2 H; simpl; auto. constructor.
  - apply IH; auto. intros a b Ha Hb. apply H; [right; exact Ha|exact Hb].
  - apply Forall_app. split; [exact Hx|]. apply Forall_forall. intros y Hy. apply H; [left; reflexivity|exact Hy].
Qed.

Lemma SS_flat_map_cons l (R : list (list Z)) :
  StronglySorted Z.le l -> StronglySorted hdle (flat_map (fun x => map (cons x) R) l).
Proof.
  induction 1 as [|x l H1 IH Hx]; simpl; [constructor|]. apply SS_app.
  - clear. induction R as [|r R IH]; simpl; constructor; auto. apply Forall_forall.
    intros y Hy. apply in_map_iff in Hy as (z & <- & _). unfold hdle; simpl. lia.
  - exact IH.
  - intros u v Hu Hv. apply in_map_iff in Hu as (u' & <- & _).
    apply in_flat_map in Hv as (y & Hy & Hv). apply in_map_iff in Hv as (v' & <- & _).
    rewrite Forall_forall in Hx. unfold hdle; simpl. apply Hx, Hy.
Qed.

Lemma SS_filter {A} (R : A -> A -> Prop) f l : StronglySorted R l -> StronglySorted R (filter f l).
Proof.
  induction 1 as [|x l H IH Hx]; simpl; [constructor|]. destruct (f x); [|exact IH].
  constructor; auto. apply Forall_forall. intros y Hy. apply filter_In in Hy.
  rewrite Forall_forall in Hx. apply Hx, Hy.
Qed.

Lemma filter_map {A B} (f : B -> bool) (g : A -> B) l : filter f (map g l) = map g (filter (fun x => f (g x)) l).
Proof. induction l as [|x l IH]; simpl; auto. destruct (f (g x)); simpl; rewrite IH; reflexivity. Qed.

Lemma getPrimeFactors_sorted_le n : 0 < n < two64 -> StronglySorted Z.le (cd_getPrimeFactors n).
Proof.
  intros Hn. destruct (Z.eq_dec n 1) as [->|N].
  - vm_compute. repeat constructor; discriminate.
  - pose proof (getPrimeFactors_sorted n ltac:(lia)) as H.
    induction H as [|x l H IH Hx]; constructor; auto.
    eapply Forall_impl; [|exact Hx]. intros a Ha. simpl in Ha. lia.
Qed.

Lemma first_last_le p n m v0 t d :
  grid_ok (repeat n m) -> decomps p (repeat n m) = v0 :: t -> In d (v0 :: t) -> last v0 0 <= last d 0.
Proof.
  intros Hg E Hd.
  assert (Hm : exists m', m = S m').
  { destruct m as [|m']; [|eauto]. destruct Hg as (H & _). contradiction. }
  destruct Hm as (m' & ->).
  assert (Hn : 0 < n < two31).
  { pose proof (grid_dim_range _ O Hg ltac:(rewrite repeat_length; lia)) as H. exact H. }
  unfold decomps, col_prod in E. rewrite filter_map in E.
  assert (Emap : rev (map cd_getPrimeFactors (repeat n (S m'))) = cd_getPrimeFactors n :: repeat (cd_getPrimeFactors n) m').
  { replace (map cd_getPrimeFactors (repeat n (S m'))) with (repeat (cd_getPrimeFactors n) (S m')).
    - rewrite rev_repeat. reflexivity.
    - generalize (S m'). clear. induction n0 as [|k IH]; simpl; [reflexivity|rewrite IH; reflexivity]. }
  rewrite Emap in E. cbn [row_prod] in E.
  match type of E with map _ (filter ?f ?L) = _ =>
    assert (HS : StronglySorted hdle (filter f L)) end.
  { apply SS_filter, SS_flat_map_cons, getPrimeFactors_sorted_le. unfold two31, two64 in *. lia. }
  assert (Hlast : forall u : list Z, last (rev u) 0 = hd 0 u).
  { intros [|x u]; [reflexivity|]. simpl. apply last_last. }
  destruct (filter _ _) as [|u0 us]; [discriminate|]. cbn [map] in E. inversion E as [[E0 Et]].
  rewrite <- E0, <- Et in Hd. rewrite Hlast.
  destruct Hd as [<-|Hd]; [rewrite Hlast; lia|].
  apply in_map_iff in Hd as (u & <- & Hu). rewrite Hlast.
  inversion HS as [|? ? _ HF]; subst. rewrite Forall_forall in HF. apply HF, Hu.
Qed.

Lemma prod_ge_all_eq k d : 0 < k -> (forall x, In x d -> k <= x) -> prodZ d = k ^ Z.of_nat (length d) -> forall x, In x d -> x = k.
Proof.
  intros Hk. induction d as [|y d IH]; intros H E x Hx; [destruct Hx|].
  assert (Hge : forall d, (forall x, In x d -> k <= x) -> k ^ Z.of_nat (length d) <= prodZ d).
  { clear - Hk. induction d as [|y d IH]; intros H; [simpl; unfold prodZ; simpl; lia|].
    cbn [length]. rewrite Nat2Z.inj_succ, Z.pow_succ_r, prodZ_cons by lia.
    specialize (IH ltac:(intros; apply H; right; assumption)). pose proof (H y ltac:(left; reflexivity)).
    assert (0 < k ^ Z.of_nat (length d)) by (apply Z.pow_pos_nonneg; lia). nia. }
  cbn [length] in E. rewrite Nat2Z.inj_succ, Z.pow_succ_r, prodZ_cons in E by lia.
  pose proof (Hge d ltac:(intros; apply H; right; assumption)) as G.
  pose proof (H y ltac:(left; reflexivity)) as Hy.
  assert (P : 0 < k ^ Z.of_nat (length d)) by (apply Z.pow_pos_nonneg; lia).
  assert (y = k) by nia. subst y.
  destruct Hx as [<-|Hx]; [reflexivity|]. apply IH; auto; [intros; apply H; right; assumption|]. nia.
Qed.

Lemma all_eq_or_diff (d : list Z) :
  (exists k, forall x, In x d -> x = k) \/
  (exists a x y c, d = a ++ x :: y :: c /\ x <> y).
Proof.
  induction d as [|x d IH]; [left; exists 0; intros x []|].
  destruct IH as [(k & Hk)|(a & u & v & c & -> & N)].
  - destruct d as [|y d]; [left; exists x; intros z [<-|[]]; reflexivity|].
    destruct (Z.eq_dec x y) as [->|N].
    + left. exists y. intros z [<-|Hz]; [reflexivity|]. rewrite (Hk z Hz).
      symmetry. apply Hk. left; reflexivity.
    + right. exists [], x, y, d. split; [reflexivity|exact N].
  - right. exists (x :: a), u, v, c. split; [reflexivity|exact N].
Qed.

Lemma cubic_optimal p n m d :
  grid_ok (repeat n m) -> 1 <= p -> is_decomp p (repeat n m) d ->
  let b := best_of (repeat n m) (decomps p (repeat n m)) in
  half_surface (local_dims (repeat n m) b) <= half_surface (local_dims (repeat n m) d).
Proof.
  intros Hg Hp Hd. set (dims := repeat n m) in *.
  assert (HV : forall d, In d (decomps p dims) <-> is_decomp p dims d) by (intros; apply in_decomps; exact Hg).
  destruct (decomps p dims) as [|v0 t] eqn:E.
  { exfalso. apply HV in Hd. destruct Hd. }
  destruct t as [|v1 t].
  { apply HV in Hd. destruct Hd as [<-|[]]. cbn. lia. }
  assert (HV' : forall d, In d (v0 :: v1 :: t) -> is_decomp p dims d) by (intros; apply HV; assumption).
  destruct (best_of_tail p dims v0 (v1 :: t) Hg Hp HV' ltac:(discriminate)) as [_ Hmin].
  set (b := best_of dims (v0 :: v1 :: t)) in *. cbv zeta.
  pose proof (proj2 (HV d) Hd) as Hin. destruct Hin as [<-|Hin]; [|apply Hmin, Hin].
  destruct (all_eq_or_diff v0) as [(k & Hk)|(a & x & y & c & Ev & N)].
  - (* all components equal: v0 is the only decomposition *)
    assert (Hv0 : is_decomp p dims v0) by (apply HV'; left; reflexivity).
    assert (Hv1 : is_decomp p dims v1) by (apply HV'; right; left; reflexivity).
    pose proof (proj1 (is_decomp_repeat p n m v0) Hv0) as (L0 & D0 & P0).
    pose proof (proj1 (is_decomp_repeat p n m v1) Hv1) as (L1 & D1 & P1).
    assert (Hne : v0 <> []).
    { intros E0. rewrite E0 in L0. destruct Hg as (G & _). apply G. unfold dims. rewrite <- L0. reflexivity. }
    assert (Hlast0 : last v0 0 = k).
    { destruct (exists_last Hne) as (l' & z & ->). rewrite last_last. apply Hk, in_app_iff. right; left; reflexivity. }
    assert (Hkpos : 0 < k).
    { destruct v0 as [|z ?]; [contradiction|]. rewrite <- (Hk z ltac:(left; reflexivity)).
      apply D0. left; reflexivity. }
    assert (Ev0 : v0 = repeat k m).
    { clear - Hk L0. revert m L0. induction v0 as [|z v IH]; intros m L0; simpl in L0; subst m; [reflexivity|].
      simpl. rewrite (Hk z) by (left; reflexivity). f_equal. apply IH; [|reflexivity].
      intros x Hx. apply Hk. right; exact Hx. }
    assert (Hge : forall z, In z v1 -> k <= z).
    { intros z Hz. apply in_split in Hz as (l1 & l2 & El).
      assert (HP : Permutation v1 ((l1 ++ l2) ++ [z])).
      { rewrite El. rewrite <- app_assoc. apply Permutation_app_head.
        apply (Permutation_app_comm [z] l2). }
      pose proof (is_decomp_perm p n m _ _ HP Hv1) as Hz.
      pose proof (first_last_le p n m v0 (v1 :: t) ((l1 ++ l2) ++ [z]) Hg E (proj2 (HV _) Hz)) as HL.
      rewrite Hlast0, last_last in HL. exact HL. }
    assert (Hall : forall z, In z v1 -> z = k).
    { apply prod_ge_all_eq; auto. rewrite P1, L1, <- P0, Ev0.
      clear. induction m as [|m IH]; [reflexivity|]. cbn [repeat]. rewrite prodZ_cons, IH, Nat2Z.inj_succ, Z.pow_succ_r by lia.
      reflexivity. }
    assert (Ev1 : v1 = v0).
    { rewrite Ev0. clear - Hall L1. revert m L1. induction v1 as [|z v IH]; intros m L1; simpl in L1; subst m; [reflexivity|].
      simpl. rewrite (Hall z) by (left; reflexivity). f_equal. apply IH; [|reflexivity].
      intros x Hx. apply Hall. right; exact Hx. }
    rewrite <- Ev1. apply Hmin. left; reflexivity.
  - (* two different components: exchange them *)
    assert (Hv0 : is_decomp p dims v0) by (apply HV'; left; reflexivity).
    assert (HP : Permutation v0 (a ++ y :: x :: c)).
    { rewrite Ev. apply Permutation_app_head. apply perm_swap. }
    pose proof (is_decomp_perm p n m _ _ HP Hv0) as Hw.
    unfold dims. rewrite (hs_local_perm p n m _ _ HP Hv0). apply Hmin.
    apply HV in Hw. destruct Hw as [Hw|Hw]; [|exact Hw].
    exfalso. rewrite Ev in Hw. apply app_inv_head in Hw. inversion Hw. auto.
Qed.
