(** * Exactly which decomposition build() returns (C13) *)
From Coq Require Import List ZArith Bool Lia Sorted.
From Verif Require Import Cpp CppProof MaiModel MaiSpec Radix MaiProof CdModel CdSpec CdProof CdOpt CdProps.
From Coq Require Import List.
Import ListNotations.
Local Open Scope Z_scope.

(** ** Specification *)

(** [d] comes before [e] in the order that compares the last axis first. *)
Definition before (d e : list Z) : Prop :=
  length d = length e /\
  exists k, (k < length d)%nat /\ nth k d 0 < nth k e 0 /\ forall j, (k < j < length d)%nat -> nth j d 0 = nth j e 0.

(** The valid decomposition that comes before all the others. *)
Definition first_decomp (nprocs : Z) (dims d0 : list Z) : Prop :=
  is_decomp nprocs dims d0 /\ forall d, is_decomp nprocs dims d -> d = d0 \/ before d0 d.

(** ** Proofs *)
Definition lex (a b : list Z) : Prop := exists p x y s t, a = p ++ x :: s /\ b = p ++ y :: t /\ x < y.

Lemma lex_cons_eq z a b : lex a b -> lex (z :: a) (z :: b).
Proof. intros (p & x & y & s & t & -> & -> & H). exists (z :: p), x, y, s, t. repeat split; auto. Qed.
Lemma lex_cons_lt x y a b : x < y -> lex (x :: a) (y :: b).
Proof. intros H. exists [], x, y, a, b. repeat split; auto. Qed.

Lemma row_prod_lex ls : Forall (StronglySorted Z.lt) ls -> StronglySorted lex (row_prod ls).
Proof.
  induction 1 as [|l ls Hl _ IH]; [repeat constructor|]. cbn [row_prod]. set (R := row_prod ls) in *.
  assert (M : forall x, StronglySorted lex (map (cons x) R)).
  { intros x. clear Hl. induction IH as [|r R' H1 IH' HF]; cbn [map]; constructor; auto. apply Forall_forall. intros y Hy.
    apply in_map_iff in Hy as (z & <- & Hz). rewrite Forall_forall in HF. apply lex_cons_eq, HF, Hz. }
  induction Hl as [|x l Hl IHl HF]; cbn [flat_map]; [constructor|]. apply SS_app; [apply M|exact IHl|]. intros u w Hu Hw.
  apply in_map_iff in Hu as (u' & <- & _). apply in_flat_map in Hw as (y & Hy & Hw). apply in_map_iff in Hw as (w' & <- & _).
  rewrite Forall_forall in HF. apply lex_cons_lt, HF, Hy.
Qed.

Lemma lex_before a b : length a = length b -> lex a b -> before (rev a) (rev b).
Proof.
  intros L (p & x & y & s & t & -> & -> & H). rewrite !app_length in L. cbn [length] in L. assert (Lst : length s = length t) by lia.
  split; [rewrite !rev_length, !app_length; cbn [length]; lia|]. exists (length s). rewrite rev_length, app_length. cbn [length]. split; [lia|].
  rewrite !rev_app_distr. cbn [rev]. rewrite <- !app_assoc. cbn [app]. split.
  - rewrite !app_nth2 by (rewrite rev_length; lia). rewrite !rev_length, Lst, Nat.sub_diag. exact H.
  - intros j Hj. rewrite !app_nth2 by (rewrite rev_length; lia). rewrite !rev_length, <- Lst.
    destruct (j - length s)%nat as [|k] eqn:E; [lia|]. reflexivity.
Qed.

Lemma before_irrefl d : ~ before d d.
Proof. intros (_ & k & _ & H & _). lia. Qed.

Lemma SS_map {A B} (R : A -> A -> Prop) (S : B -> B -> Prop) (g : A -> B) l :
  (forall x y, In x l -> In y l -> R x y -> S (g x) (g y)) -> StronglySorted R l -> StronglySorted S (map g l).
Proof.
  intros H HS. induction HS as [|x l HS IH HF]; cbn [map]; [constructor|]. constructor.
  - apply IH. intros; apply H; auto; right; assumption.
  - apply Forall_forall. intros y Hy. apply in_map_iff in Hy as (z & <- & Hz). rewrite Forall_forall in HF. apply H; [left; reflexivity|right; exact Hz|apply HF, Hz].
Qed.

Lemma row_prod_length ls v : In v (row_prod ls) -> length v = length ls.
Proof.
  revert v. induction ls as [|l ls IH]; intros v H; cbn [row_prod] in H; [destruct H as [<-|[]]; reflexivity|].
  apply in_flat_map in H as (x & _ & H). apply in_map_iff in H as (w & <- & H). cbn [length]. rewrite (IH w H). reflexivity.
Qed.

Lemma decomps_sorted n dims : grid_ok dims -> ~ In 1 dims -> StronglySorted before (decomps n dims).
Proof.
  intros Hg H1. unfold decomps. apply SS_filter. unfold col_prod. apply (SS_map lex).
  - intros x y Hx Hy H. apply lex_before; [|exact H]. rewrite (row_prod_length _ _ Hx), (row_prod_length _ _ Hy). reflexivity.
  - apply row_prod_lex. rewrite <- map_rev. apply Forall_forall. intros l Hl. apply in_map_iff in Hl as (m & <- & Hm). apply in_rev in Hm.
    assert (m <> 1) by (intros ->; contradiction). apply (In_nth _ _ 0) in Hm as (j & Hj & <-). pose proof (grid_dim_range dims j Hg Hj).
    apply getPrimeFactors_sorted. unfold two31, two64 in *. lia.
Qed.

(** ** An axis with one cell *)
Definition twice {A} (v : A) (l : list A) : Prop := exists a b c, l = a ++ v :: b ++ v :: c.

Lemma twice_app_l {A} (v : A) l l' : twice v l' -> twice v (l ++ l').
Proof. intros (a & b & c & ->). exists (l ++ a), b, c. rewrite <- app_assoc. reflexivity. Qed.
Lemma twice_app_r {A} (v : A) l l' : twice v l -> twice v (l ++ l').
Proof. intros (a & b & c & ->). exists a, b, (c ++ l'). rewrite <- app_assoc. cbn [app]. rewrite <- app_assoc. reflexivity. Qed.
Lemma twice_map {A B} (g : A -> B) v l : twice v l -> twice (g v) (map g l).
Proof. intros (a & b & c & ->). exists (map g a), (map g b), (map g c). rewrite map_app. cbn [map]. rewrite map_app. reflexivity. Qed.
Lemma twice_filter {A} (f : A -> bool) v l : f v = true -> twice v l -> twice v (filter f l).
Proof. intros Hf (a & b & c & ->). exists (filter f a), (filter f b), (filter f c). rewrite filter_app. cbn [filter]. rewrite Hf, filter_app. cbn [filter]. rewrite Hf. reflexivity. Qed.
Lemma twice_tail {A} (v : A) t : twice v (v :: t) -> In v t.
Proof.
  intros ([|x a] & b & c & E); cbn [app] in E; injection E.
  - intros ->. apply in_or_app. right. left. reflexivity.
  - intros -> _. apply in_or_app. right. left. reflexivity.
Qed.

Lemma row_prod_twice ls v : In [1; 1] ls -> In v (row_prod ls) -> twice v (row_prod ls).
Proof.
  revert v. induction ls as [|l ls IH]; intros v H1 Hv; [destruct H1|]. cbn [row_prod] in *. set (R := row_prod ls) in *.
  destruct H1 as [->|H1].
  - cbn [flat_map] in *. rewrite app_nil_r in *. assert (Hm : In v (map (cons 1) R)) by (apply in_app_or in Hv; tauto).
    apply in_split in Hm as (a & c & E). rewrite E. exists a, (c ++ a), c. rewrite <- !app_assoc. reflexivity.
  - apply in_flat_map in Hv as (x & Hx & Hv). apply in_map_iff in Hv as (w & <- & Hw). specialize (IH w H1 Hw).
    apply in_split in Hx as (l1 & l2 & ->). rewrite flat_map_app. cbn [flat_map]. apply twice_app_l, twice_app_r, twice_map, IH.
Qed.

Lemma decomps_twice n dims d : grid_ok dims -> In 1 dims -> In d (decomps n dims) -> twice d (decomps n dims).
Proof.
  intros Hg H1 Hd. unfold decomps in *. apply filter_In in Hd as (Hd & Hp). apply twice_filter; [exact Hp|]. unfold col_prod in *.
  apply in_map_iff in Hd as (w & <- & Hw). apply twice_map, row_prod_twice; [|exact Hw]. apply (proj1 (in_rev _ _)). apply in_map_iff. exists 1. split; [reflexivity|exact H1].
Qed.

(** ** The search, with the choice among equals *)
Definition precedes (dims b d : list Z) : Prop :=
  half_surface (local_dims dims b) < half_surface (local_dims dims d) \/
  half_surface (local_dims dims b) = half_surface (local_dims dims d) /\ before b d.

Lemma best_of_first n dims v0 t :
  grid_ok dims -> 1 <= n -> (forall d, In d (v0 :: t) -> is_decomp n dims d) -> t <> [] -> StronglySorted before t ->
  let b := best_of dims (v0 :: t) in In b t /\ forall d, In d t -> d = b \/ precedes dims b d.
Proof.
  intros Hg Hn HV Hne HS. cbn [best_of]. destruct t as [|v1 t]; [contradiction|]. cbn [fold_left].
  assert (E1 : search_step dims (dbl_max, v0) v1 = (cost_of dims v1, v1)).
  { unfold search_step. cbn [fst]. rewrite (cost_lt_max n) by (auto; apply HV; right; left; reflexivity). reflexivity. }
  rewrite E1.
  assert (G : forall t p b, (forall d, In d (p ++ t) -> is_decomp n dims d) -> StronglySorted before (p ++ t) -> In b p ->
     (forall d, In d p -> d = b \/ precedes dims b d) ->
     let b' := snd (fold_left (search_step dims) t (cost_of dims b, b)) in
     In b' (p ++ t) /\ forall d, In d (p ++ t) -> d = b' \/ precedes dims b' d).
  { clear - Hg Hn. induction t as [|x t IH]; intros p b HV HS Hb Hmin; cbn [fold_left].
    - rewrite app_nil_r. split; assumption.
    - assert (Hx : is_decomp n dims x) by (apply HV, in_app_iff; right; left; reflexivity).
      assert (Hbd : is_decomp n dims b) by (apply HV, in_app_iff; left; exact Hb).
      assert (Es : search_step dims (cost_of dims b, b) x =
        if half_surface (local_dims dims x) <? half_surface (local_dims dims b) then (cost_of dims x, x) else (cost_of dims b, b)).
      { unfold search_step. cbn [fst]. rewrite (cost_lt n) by assumption. reflexivity. }
      rewrite Es. clear Es.
      assert (Hbx : before b x).
      { clear - HS Hb. induction p as [|y p IHp]; [destruct Hb|]. cbn [app] in HS. inversion HS as [|? ? HS' HF]; subst. destruct Hb as [->|Hb]; [|apply IHp; auto].
        rewrite Forall_forall in HF. apply HF, in_or_app. right. left. reflexivity. }
      replace (p ++ x :: t) with ((p ++ [x]) ++ t) in * by (rewrite <- app_assoc; reflexivity).
      destruct (Z.ltb_spec (half_surface (local_dims dims x)) (half_surface (local_dims dims b))).
      + apply (IH (p ++ [x]) x); [exact HV|exact HS|apply in_app_iff; right; left; reflexivity|].
        intros d Hd. apply in_app_iff in Hd as [Hd|[<-|[]]]; [|left; reflexivity]. right. left. destruct (Hmin d Hd) as [->|[Hlt|[Heq _]]]; unfold precedes in *; lia.
      + apply (IH (p ++ [x]) b); [exact HV|exact HS|apply in_app_iff; left; exact Hb|].
        intros d Hd. apply in_app_iff in Hd as [Hd|[<-|[]]]; [apply Hmin, Hd|]. right.
        destruct (Z.eq_dec (half_surface (local_dims dims b)) (half_surface (local_dims dims x))); [right; split; assumption|left; lia]. }
  apply (G t [v1] v1).
  - intros d Hd. apply HV. right. exact Hd.
  - exact HS.
  - left; reflexivity.
  - intros d [<-|[]]. left. reflexivity.
Qed.

(** ** C13 *)

(** No axis has one cell only.  [d0] is the first valid decomposition.  When it is the only one, it is returned; otherwise
    the one returned is the best of all the others, the first of them in case of a tie.  This determines the result. *)
Theorem C13_exact :
  forall c nprocs dims c', grid_ok dims -> 1 <= nprocs < 2 ^ 31 -> ~ In 1 dims -> cd_build c nprocs dims = Ok (true, c') ->
  exists d0, first_decomp nprocs dims d0 /\
    (((forall d, is_decomp nprocs dims d -> d = d0) /\ cd_getDecomp c' = d0) \/
     (is_decomp nprocs dims (cd_getDecomp c') /\ cd_getDecomp c' <> d0 /\
      forall d, is_decomp nprocs dims d -> d <> d0 -> d <> cd_getDecomp c' ->
        half_surface (local_dims dims (cd_getDecomp c')) < half_surface (local_dims dims d) \/
        half_surface (local_dims dims (cd_getDecomp c')) = half_surface (local_dims dims d) /\ before (cd_getDecomp c') d)).
Proof.
  intros c n dims c' Hg Hn H1 H. rewrite cd_build_eq in H by assumption.
  assert (HV : forall d, In d (decomps n dims) <-> is_decomp n dims d) by (intros; apply in_decomps; exact Hg).
  pose proof (decomps_sorted n dims Hg H1) as HS.
  destruct (decomps n dims) as [|v0 t] eqn:E; [discriminate|]. inversion H; subst c'. unfold cd_getDecomp, cube_of; cbn [c_decomp].
  inversion HS as [|? ? HS' HF]; subst. rewrite Forall_forall in HF.
  exists v0. split.
  { split; [apply HV; left; reflexivity|]. intros d Hd. apply HV in Hd as [->|Hd]; [left; reflexivity|right; apply HF, Hd]. }
  destruct t as [|v1 t].
  { left. split; [|reflexivity]. intros d Hd. apply HV in Hd as [<-|[]]. reflexivity. }
  right. destruct (best_of_first n dims v0 (v1 :: t) Hg ltac:(lia) (fun d => proj1 (HV d)) ltac:(discriminate) HS') as [Hb Hmin].
  split; [apply HV; right; exact Hb|]. split; [intros Eb; apply (before_irrefl v0), HF; rewrite <- Eb; exact Hb|].
  intros d Hd N0 Nb. apply HV in Hd as [Hd|Hd]; [congruence|]. destruct (Hmin d Hd) as [Hd'|Hp]; [contradiction|exact Hp].
Qed.
Print Assumptions C13_exact.

(** An axis has one cell: every valid decomposition is listed twice, the first one takes part in the search, and the claim
    holds. *)
Theorem C13_one_cell_axis :
  forall c nprocs dims c' d, grid_ok dims -> 1 <= nprocs < 2 ^ 31 -> In 1 dims -> cd_build c nprocs dims = Ok (true, c') ->
  is_decomp nprocs dims d -> ratio_le (local_dims dims (cd_getDecomp c')) (local_dims dims d).
Proof.
  intros c n dims c' d Hg Hn H1 H Hd. rewrite cd_build_eq in H by assumption.
  assert (HV : forall d, In d (decomps n dims) <-> is_decomp n dims d) by (intros; apply in_decomps; exact Hg).
  pose proof (fun d => decomps_twice n dims d Hg H1) as H2.
  destruct (decomps n dims) as [|v0 t] eqn:E; [discriminate|]. inversion H; subst c'. unfold cd_getDecomp, cube_of; cbn [c_decomp].
  assert (Hall : forall d, is_decomp n dims d -> In d t).
  { intros e He. apply HV in He as [<-|He]; [|exact He]. apply twice_tail, H2. left. reflexivity. }
  assert (Ht : t <> []) by (specialize (Hall d Hd); intros ->; destruct Hall).
  destruct (best_of_tail n dims v0 t Hg ltac:(lia) (fun d => proj1 (HV d)) Ht) as [Hb Hmin]. specialize (Hmin d (Hall d Hd)). unfold ratio_le.
  assert (Hb' : is_decomp n dims (best_of dims (v0 :: t))) by (apply HV; right; exact Hb).
  rewrite (same_volume n dims d (best_of dims (v0 :: t))) by (try assumption; lia).
  apply Z.mul_le_mono_nonneg_r; [|exact Hmin]. destruct (local_facts n dims _ Hg (proj1 Hn) Hb') as [_ [P _]]. apply Z.lt_le_incl, P.
Qed.
Print Assumptions C13_one_cell_axis.

(** Exactly when the claim holds: an axis has one cell, or there is only one valid decomposition, or another one is at
    least as good as the first. *)
Theorem C13_optimal_iff :
  forall c nprocs dims c', grid_ok dims -> 1 <= nprocs < 2 ^ 31 -> cd_build c nprocs dims = Ok (true, c') ->
  ((forall d, is_decomp nprocs dims d -> ratio_le (local_dims dims (cd_getDecomp c')) (local_dims dims d)) <->
   In 1 dims \/
   exists d0, first_decomp nprocs dims d0 /\
     ((forall d, is_decomp nprocs dims d -> d = d0) \/
      exists d, is_decomp nprocs dims d /\ d <> d0 /\ ratio_le (local_dims dims d) (local_dims dims d0))).
Proof.
  intros c n dims c' Hg Hn H. destruct (in_dec Z.eq_dec 1 dims) as [H1|H1].
  { split; [left; exact H1|]. intros _ d Hd. apply (C13_one_cell_axis c n dims c' d); assumption. }
  destruct (C13_exact c n dims c' Hg Hn H1 H) as (d0 & H0 & HC).
  assert (HR : forall d e, is_decomp n dims d -> is_decomp n dims e -> (ratio_le (local_dims dims d) (local_dims dims e) <-> half_surface (local_dims dims d) <= half_surface (local_dims dims e))).
  { intros d e Hd He. unfold ratio_le. rewrite (same_volume n dims e d) by (try assumption; lia). destruct (local_facts n dims d Hg (proj1 Hn) Hd) as [_ [P _]]. nia. }
  split.
  - intros Hopt. right. exists d0. split; [exact H0|]. destruct HC as [(Hs & _)|(Hb & Nb & _)]; [left; exact Hs|right]. exists (cd_getDecomp c'). split; [exact Hb|]. split; [exact Nb|]. apply Hopt, H0.
  - intros [|(d0' & H0' & HC')] d Hd; [contradiction|].
    assert (E0 : d0' = d0).
    { destruct (proj2 H0 d0' (proj1 H0')) as [E|B1]; [exact E|]. destruct (proj2 H0' d0 (proj1 H0)) as [E|B2]; [symmetry; exact E|exfalso].
      destruct B1 as (L & k & Hk & Hlt & Heq), B2 as (_ & k' & Hk' & Hlt' & Heq'). destruct (Nat.lt_trichotomy k k') as [C|[->|C]].
      - rewrite (Heq k') in Hlt' by lia. lia.
      - lia.
      - rewrite (Heq' k) in Hlt by lia. lia. }
    subst d0'. destruct HC as [(Hs & Eb)|(Hb & Nb & Hmin)].
    { rewrite Eb, (Hs d Hd). apply Z.le_refl. }
    destruct HC' as [Hs|(e & He & Ne & Hle)]; [elim Nb; apply Hs, Hb|].
    assert (Hall : forall f, is_decomp n dims f -> f <> d0 -> half_surface (local_dims dims (cd_getDecomp c')) <= half_surface (local_dims dims f)).
    { intros f Hf Nf. destruct (list_eq_dec Z.eq_dec f (cd_getDecomp c')) as [->|N]; [lia|]. destruct (Hmin f Hf Nf N) as [|[? _]]; lia. }
    apply HR; auto. destruct (list_eq_dec Z.eq_dec d d0) as [->|N]; [|apply Hall; assumption].
    apply HR in Hle; [|assumption|apply H0]. specialize (Hall e He Ne). lia.
Qed.
Print Assumptions C13_optimal_iff.

(** ** C06 without a bound on the number of cells *)
Lemma tab_from_at {A} (f : Z -> res A) dflt : forall cnt k l i, tab_from k cnt f = Ok l -> (i < cnt)%nat -> f (Z.of_nat (k + i)) = Ok (nth i l dflt).
Proof.
  induction cnt as [|cnt IH]; intros k l i E Hi; [lia|]. cbn [tab_from] in E. apply bind_ok in E as (x & Ex & E). apply bind_ok in E as (t & Et & E). injection E as <-.
  destruct i as [|i]; [rewrite Nat.add_0_r; exact Ex|]. rewrite <- Nat.add_succ_comm. cbn [nth]. apply (IH (S k) t i Et). lia.
Qed.
Lemma for_run {St} (I : St -> Prop) body : (forall j s s', body j s = Ok s' -> I s -> I s') -> forall cnt k s s', for_from k cnt body s = Ok s' -> I s -> I s'.
Proof.
  intros H. induction cnt as [|cnt IH]; intros k s s' E Hs; cbn [for_from] in E; [injection E as <-; exact Hs|].
  apply bind_ok in E as (s1 & E1 & E). apply (IH _ _ _ E). apply (H _ _ _ E1 Hs).
Qed.

Lemma i32_mod x : i32 x mod 2 ^ 32 = x mod 2 ^ 32.
Proof.
  unfold i32, two31, two32. change 4294967296 with (2 ^ 32). rewrite Zminus_mod, Zmod_mod, <- Zminus_mod. f_equal. lia.
Qed.
Lemma u64_mod32 x : u64 x mod 2 ^ 32 = x mod 2 ^ 32.
Proof.
  unfold u64, two64. rewrite (Z.div_mod x 18446744073709551616) at 2 by lia. set (q := x / 18446744073709551616). set (r := x mod 18446744073709551616).
  replace (18446744073709551616 * q + r) with (r + (2 ^ 32 * q) * 2 ^ 32) by lia. rewrite Z_mod_plus_full. reflexivity.
Qed.
Lemma accumulate_mod d : cd_accumulate d mod 2 ^ 32 = prodZ d mod 2 ^ 32.
Proof.
  unfold cd_accumulate. rewrite u64_mod32.
  assert (K : forall d a, fold_left (fun acc d => i32 (u64 (u64 acc * d))) d a mod 2 ^ 32 = (a * prodZ d) mod 2 ^ 32).
  { clear. induction d as [|x d IH]; intros a; cbn [fold_left]; [change (prodZ []) with 1; rewrite Z.mul_1_r; reflexivity|]. rewrite IH, prodZ_cons.
    rewrite Zmult_mod, i32_mod, u64_mod32. rewrite <- Zmult_mod. rewrite <- Z.mul_assoc. rewrite Zmult_mod, u64_mod32, <- Zmult_mod. reflexivity. }
  rewrite K. f_equal. lia.
Qed.

(** Axes of any size: whatever build() returns with success has one entry per axis, each dividing the number of cells of the
    axis, and the product of the entries is the number of processes up to a multiple of 2^32. *)
Theorem C06_modulo :
  forall c nprocs dims c', (forall j, (j < length dims)%nat -> 0 < nth j dims 0 < 2 ^ 64) -> 0 <= nprocs < 2 ^ 31 ->
  cd_build c nprocs dims = Ok (true, c') ->
  length (cd_getDecomp c') = length dims /\
  (forall j, (j < length dims)%nat -> 0 < nth j (cd_getDecomp c') 0 /\ (nth j (cd_getDecomp c') 0 | nth j dims 0)) /\
  prodZ (cd_getDecomp c') mod 2 ^ 32 = nprocs.
Proof.
  intros c n dims c' Hd Hn H. unfold cd_build in H. apply bind_ok in H as ([om b] & Ho & H).
  destruct (vlen b =? 0) eqn:Eb; [discriminate|]. apply bind_ok in H as (l & _ & H). injection H as <-. unfold cd_getDecomp. cbn [c_decomp].
  unfold cd_computeOptimalDecomp in Ho. apply bind_ok in Ho as (V & HV & Ho). destruct (vlen V =? 0) eqn:EV; [injection Ho as _ <-; discriminate|].
  apply bind_ok in Ho as (best & Hbest & Ho). apply bind_ok in Ho as (m & _ & Ho). injection Ho as _ <-.
  set (good := fun d : list Z => length d = length dims /\ (forall j, (j < length dims)%nat -> 0 < nth j d 0 /\ (nth j d 0 | nth j dims 0)) /\ prodZ d mod 2 ^ 32 = n).
  assert (HG : Forall good V).
  { unfold cd_candidates in HV. apply bind_ok in HV as (P & HP & HV). apply bind_ok in HV as (ns & _ & HV). apply bind_ok in HV as (it & _ & HV).
    apply bind_ok in HV as ([it' V'] & HF & HV). injection HV as ->. unfold for_upto in HF.
    refine (for_run (fun '(_, V) => Forall good V) _ _ _ _ _ _ HF (Forall_nil _)). clear HF. intros _ [i1 V1] [i2 V2] E HV1.
    apply bind_ok in E as (ix & _ & E). apply bind_ok in E as (d & Ed & E). injection E as _ <-.
    destruct (cd_accumulate d =? u64 n) eqn:Ea; [|exact HV1]. apply Forall_app. split; [exact HV1|]. constructor; [|constructor].
    unfold tabulate, vlen in Ed, HP. rewrite Nat2Z.id in Ed, HP. pose proof (tab_from_length _ _ _ _ Ed) as Ld. split; [exact Ld|]. split.
    - intros j Hj. pose proof (tab_from_at _ 0 _ _ _ j Ed Hj) as Ej. cbn [Nat.add] in Ej. pose proof (tab_from_at _ [] _ _ _ j HP Hj) as Pj. cbn [Nat.add] in Pj.
      rewrite (vget_nat dims j 0) in Pj by exact Hj. cbn [bind] in Pj. injection Pj as Pj.
      rewrite (vget_nat P j []) in Ej by (rewrite (tab_from_length _ _ _ _ HP); exact Hj). cbn [bind] in Ej. apply bind_ok in Ej as (k & _ & Ej).
      apply vget_inv in Ej. rewrite <- Pj in Ej. apply in_getPrimeFactors; [unfold two64; specialize (Hd j Hj); lia|].
      destruct Ej as (Rk & Ek). apply nth_error_In in Ek. exact Ek.
    - apply Z.eqb_eq in Ea. rewrite <- accumulate_mod, Ea, u64_mod32. apply Z.mod_small. lia. }
  assert (HI : In best V).
  { unfold cd_search in Hbest. apply bind_ok in Hbest as (v0 & H0 & Hbest). apply bind_ok in Hbest as ([mc b'] & HF & Hbest). injection Hbest as ->.
    apply vget_inv in H0 as (_ & H0). apply nth_error_In in H0. unfold for_upto in HF.
    refine (for_run (fun '(_, b) => In b V) _ _ _ _ _ _ HF H0). clear HF. intros j [m1 b1] [m2 b2] E Hb1. cbv zeta in E.
    apply bind_ok in E as (d & Ed & E). apply bind_ok in E as (cost & _ & E). apply vget_inv in Ed as (_ & Ed). apply nth_error_In in Ed.
    destruct (dbl_lt cost m1); injection E as _ <-; assumption. }
  rewrite Forall_forall in HG. apply (HG best HI).
Qed.
Print Assumptions C06_modulo.

(** So the claim holds up to 2^32 cells, not just below 2^31; and a wrong decomposition is one of at least 2^32 parts. *)
Theorem C06_four_billion :
  forall c nprocs dims c', (forall j, (j < length dims)%nat -> 0 < nth j dims 0 < 2 ^ 64) -> 0 <= nprocs < 2 ^ 31 -> prodZ dims < 2 ^ 32 + nprocs ->
  cd_build c nprocs dims = Ok (true, c') -> is_decomp nprocs dims (cd_getDecomp c').
Proof.
  intros c n dims c' Hd Hn Hp H. destruct (C06_modulo c n dims c' Hd Hn H) as (L & Hj & Hm). split; [exact L|]. split; [exact Hj|].
  set (d := cd_getDecomp c') in *. assert (Hle : prodZ d <= prodZ dims).
  { apply divisors_prod_le; [exact L|]. intros j Hj'. destruct (Hj j Hj') as (P & Q). specialize (Hd j Hj'). split; [exact P|]. apply Z.divide_pos_le; [lia|exact Q]. }
  assert (P : 0 < prodZ d) by (apply prodZ_pos, allpos_nth; intros j Hj'; apply Hj; lia).
  pose proof (Z.div_mod (prodZ d) (2 ^ 32) ltac:(lia)) as E. rewrite Hm in E. assert (prodZ d / 2 ^ 32 < 1) by nia. assert (0 <= prodZ d / 2 ^ 32) by (apply Z.div_pos; lia). lia.
Qed.
Print Assumptions C06_four_billion.

(** ** Examples *)

(** Six processes, 4 x 6 cells: the valid decompositions are 2 x 3 and 1 x 6; the first one, 2 x 3, has squares of two by
    two cells and is left out.  With an axis of one cell added it is found. *)
Example C13_exact_example :
  grid_ok [4; 6] /\ first_decomp 6 [4; 6] [2; 3] /\
  match cd_build cd_empty 6 [4; 6] with Ok (b, c) => b = true /\ cd_getDecomp c = [1; 6] | Undef _ => False end /\
  match cd_build cd_empty 6 [4; 6; 1] with Ok (b, c) => b = true /\ cd_getDecomp c = [2; 3; 1] | Undef _ => False end.
Proof.
  split; [split; [discriminate|]; split; [simpl; lia|]; split; [|reflexivity]; intros [|[|j]] Hj; simpl in *; lia|].
  split; [|split; vm_compute; split; reflexivity]. assert (Hg : grid_ok [4; 6]) by (split; [discriminate|]; split; [simpl; lia|]; split; [|reflexivity]; intros [|[|j]] Hj; simpl in *; lia).
  split; [apply in_decomps; [exact Hg|vm_compute; auto]|]. intros d Hd. apply in_decomps in Hd; [|exact Hg]. vm_compute in Hd. destruct Hd as [<-|[<-|[]]]; [left; reflexivity|right].
  split; [reflexivity|]. exists 1%nat. split; [cbn; lia|]. split; [reflexivity|]. intros j Hj. cbn [length] in Hj. lia.
Qed.

(** 1300 cells along each of three axes: more than 2^31 cells, fewer than 2^32. *)
Example C06_four_billion_example : 2 ^ 31 < prodZ [1300; 1300; 1300] < 2 ^ 32 + 20 /\
  match cd_build cd_empty 20 [1300; 1300; 1300] with Ok (b, c) => b = true /\ cd_getDecomp c = [5; 2; 2] | Undef _ => False end.
Proof. split; [split; reflexivity|]. vm_compute. split; reflexivity. Qed.
