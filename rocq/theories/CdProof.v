(** * Proofs about CubeDecomp *)
From Coq Require Import Floats.SpecFloat Sorted.
From Verif Require Import Cpp CppProof MaiModel MaiSpec Radix MaiProof CdModel CdSpec.
Local Open Scope Z_scope.
Local Arguments prodZ : simpl never.

(** ** getPrimeFactors lists the divisors *)
Definition divb (n k : Z) : bool := n mod k =? 0.

Lemma div_mul_eqb n k : 0 < k -> 0 <= n < two64 -> (u64 (n / k * k) =? n) = divb n k.
Proof.
  intros Hk Hn. unfold divb.
  pose proof (Z.div_mod n k ltac:(lia)) as E. pose proof (Z.mod_pos_bound n k Hk) as B.
  assert (0 <= n / k) by (apply Z.div_pos; lia).
  rewrite u64_id by nia.
  destruct (Z.eqb_spec (n mod k) 0); destruct (Z.eqb_spec (n / k * k) n); nia.
Qed.

Lemma getPrimeFactors_eq n :
  0 <= n < two64 ->
  cd_getPrimeFactors n = 1 :: filter (divb n) (range 2 (n / 2 + 1)) ++ [n].
Proof.
  intros Hn. unfold cd_getPrimeFactors.
  match goal with |- context [for_upto ?c ?b ?s] =>
    destruct (for_upto_inv (fun k r => r = 1 :: filter (divb n) (map (fun j => 2 + Z.of_nat j) (seq 0 k)))
                b c s) as (r & -> & Hr) end.
  - reflexivity.
  - intros i s Hi ->. eexists; split; [reflexivity|]. cbv zeta.
    rewrite div_mul_eqb by lia. rewrite seq_S, map_app, filter_app. cbn [map filter Nat.add].
    destruct (divb n (2 + Z.of_nat i)); [reflexivity|]. rewrite app_nil_r. reflexivity.
  - subst r. unfold range. rewrite <- app_comm_cons. f_equal. f_equal. f_equal. f_equal. f_equal.
    lia.
Qed.

Lemma in_getPrimeFactors n d :
  0 < n < two64 -> (In d (cd_getPrimeFactors n) <-> 0 < d /\ (d | n)).
Proof.
  intros Hn. rewrite getPrimeFactors_eq by lia. simpl. rewrite in_app_iff, filter_In, in_range.
  unfold divb. rewrite Z.eqb_eq. split.
  - intros [<-|[[H1 H2]|[<-|[]]]].
    + split; [lia|apply Z.divide_1_l].
    + split; [lia|]. apply Z.mod_divide; [lia|exact H2].
    + split; [lia|apply Z.divide_refl].
  - intros [H1 H2]. destruct (Z.eq_dec d 1) as [->|N1]; [left; reflexivity|].
    destruct (Z.eq_dec d n) as [->|N2]; [right; right; left; reflexivity|].
    right; left. split; [|apply Z.mod_divide; [lia|exact H2]].
    destruct H2 as [q Hq]. assert (q <> 1) by (intros ->; lia). assert (0 < q) by nia. assert (2 <= q) by lia.
    assert (d <= n / 2) by (apply Z.div_le_lower_bound; nia). lia.
Qed.

Lemma getPrimeFactors_length n :
  0 < n < two64 -> (2 <= length (cd_getPrimeFactors n))%nat /\ Z.of_nat (length (cd_getPrimeFactors n)) <= 2 * n.
Proof.
  intros Hn. rewrite getPrimeFactors_eq by lia. cbn [length]. rewrite app_length. cbn [length].
  split; [lia|].
  assert (H : (length (filter (divb n) (range 2 (n / 2 + 1))) <= length (range 2 (n / 2 + 1)))%nat).
  { generalize (range 2 (n / 2 + 1)). induction l as [|x l IH]; simpl; auto.
    destruct (divb n x); simpl; lia. }
  rewrite range_length in H. pose proof (Z.mul_div_le n 2 ltac:(lia)). lia.
Qed.

Lemma StronglySorted_app_lt (l1 l2 : list Z) :
  StronglySorted Z.lt l1 -> StronglySorted Z.lt l2 ->
  (forall x y, In x l1 -> In y l2 -> x < y) -> StronglySorted Z.lt (l1 ++ l2).
Proof.
  induction 1 as [|x l1 H1 IH Hx]; intros H2 H; simpl; auto. constructor.
  - apply IH; auto. intros a b Ha Hb. apply H; [right; exact Ha|exact Hb].
  - apply Forall_app. split; [exact Hx|]. apply Forall_forall. intros y Hy.
    apply H; [left; reflexivity|exact Hy].
Qed.

Lemma range_sorted l h : StronglySorted Z.lt (range l h).
Proof.
  unfold range. generalize (Z.to_nat (h - l)). intros n. generalize 0%nat.
  induction n as [|n IH]; intros k; simpl; constructor; auto.
  apply Forall_forall. intros x Hx. apply in_map_iff in Hx as (j & <- & Hj). apply in_seq in Hj. lia.
Qed.

Lemma filter_sorted f (l : list Z) : StronglySorted Z.lt l -> StronglySorted Z.lt (filter f l).
Proof.
  induction 1 as [|x l H IH Hx]; simpl; [constructor|]. destruct (f x); [|exact IH].
  constructor; auto. apply Forall_forall. intros y Hy. apply filter_In in Hy.
  rewrite Forall_forall in Hx. apply Hx, Hy.
Qed.

Lemma getPrimeFactors_sorted n : 2 <= n < two64 -> StronglySorted Z.lt (cd_getPrimeFactors n).
Proof.
  intros Hn. rewrite getPrimeFactors_eq by lia.
  assert (n / 2 < n) by (apply Z.div_lt; lia).
  apply (StronglySorted_app_lt [1]).
  - repeat constructor.
  - apply StronglySorted_app_lt.
    + apply filter_sorted, range_sorted.
    + repeat constructor.
    + intros x y Hx [<-|[]]. apply filter_In in Hx as [Hx _]. apply in_range in Hx. lia.
  - intros x y [<-|[]] Hy. apply in_app_iff in Hy as [Hy|[<-|[]]]; [|lia].
    apply filter_In in Hy as [Hy _]. apply in_range in Hy. lia.
Qed.

(** ** Products of lists *)
Fixpoint row_prod (ls : list (list Z)) : list (list Z) :=
  match ls with
  | [] => [[]]
  | l :: t => flat_map (fun x => map (cons x) (row_prod t)) l
  end.
Definition col_prod (ls : list (list Z)) : list (list Z) := map (@rev Z) (row_prod (rev ls)).

Fixpoint lookup (ls : list (list Z)) (ix : list Z) : list Z :=
  match ls, ix with
  | l :: ls', i :: ix' => nth (Z.to_nat i) l 0 :: lookup ls' ix'
  | _, _ => []
  end.

Lemma lookup_row ls :
  map (lookup ls) (row_major (repeat 0 (length ls)) (map vlen ls)) = row_prod ls.
Proof.
  induction ls as [|l ls IH]; auto.
  cbn [length repeat map row_major row_prod].
  rewrite flat_map_concat_map, concat_map, map_map, <- flat_map_concat_map.
  unfold range, vlen. rewrite Z.sub_0_r, Nat2Z.id.
  rewrite flat_map_concat_map, map_map, <- flat_map_concat_map.
  rewrite (flat_map_ext _ (fun k => map (cons (nth k l 0)) (row_prod ls))).
  - rewrite (list_as_map_seq l 0) at 2. rewrite (flat_map_concat_map _ (map _ _)), map_map.
    rewrite flat_map_concat_map. reflexivity.
  - intros k. rewrite map_map, <- IH, map_map. apply map_ext. intros v. cbn [lookup].
    rewrite Z.add_0_l, Nat2Z.id. reflexivity.
Qed.

Lemma lookup_length ls ix : length ls = length ix -> length (lookup ls ix) = length ls.
Proof. revert ix; induction ls as [|l ls IH]; intros [|i ix] H; simpl in *; try discriminate; auto. Qed.

Lemma lookup_nth ls ix j :
  length ls = length ix -> (j < length ls)%nat ->
  nth j (lookup ls ix) 0 = nth (Z.to_nat (nth j ix 0)) (nth j ls []) 0.
Proof.
  revert ix j; induction ls as [|l ls IH]; intros [|i ix] j H Hj; simpl in *; try discriminate; try lia.
  destruct j; auto. apply IH; lia.
Qed.

Lemma lookup_rev ls ix : length ls = length ix -> lookup (rev ls) (rev ix) = rev (lookup ls ix).
Proof.
  intros H. apply (nth_ext' 0).
  - rewrite lookup_length by (rewrite !rev_length; exact H).
    rewrite !rev_length, lookup_length by exact H. reflexivity.
  - intros j Hj. rewrite lookup_length, rev_length in Hj by (rewrite !rev_length; exact H).
    rewrite lookup_nth by (rewrite ?rev_length; auto).
    rewrite !rev_nth by (rewrite ?lookup_length; lia).
    rewrite lookup_nth by (rewrite ?lookup_length; lia). rewrite lookup_length by exact H.
    rewrite <- H. reflexivity.
Qed.

Lemma rev_repeat {A} (x : A) n : rev (repeat x n) = repeat x n.
Proof.
  induction n as [|n IH]; auto. simpl. rewrite IH.
  clear IH. induction n as [|n IH]; auto. simpl. rewrite IH. reflexivity.
Qed.

Lemma row_major_length lo hi v : length lo = length hi -> In v (row_major lo hi) -> length v = length lo.
Proof. intros H Hv. apply in_row_major in Hv; [|exact H]. apply Hv. Qed.

Lemma lookup_col ls :
  map (lookup ls) (nested_loops false (repeat 0 (length ls)) (map vlen ls)) = col_prod ls.
Proof.
  unfold nested_loops, col_major, col_prod. rewrite rev_repeat.
  rewrite <- map_rev. rewrite <- (lookup_row (rev ls)), rev_length.
  rewrite !map_map. apply map_ext_in. intros v Hv.
  apply row_major_length in Hv; [|rewrite repeat_length, map_length, rev_length; reflexivity].
  rewrite repeat_length in Hv.
  rewrite <- (rev_involutive v) at 2. rewrite lookup_rev by (rewrite rev_length; lia).
  rewrite rev_involutive. reflexivity.
Qed.

Lemma in_row_prod ls v : In v (row_prod ls) <-> Forall2 (@In Z) v ls.
Proof.
  revert v; induction ls as [|l ls IH]; intros v; cbn [row_prod].
  - split.
    + intros [<-|[]]. constructor.
    + intros H. inversion H. left; reflexivity.
  - rewrite in_flat_map. split.
    + intros (x & Hx & Hv). apply in_map_iff in Hv as (w & <- & Hw). constructor; [exact Hx|]. apply IH, Hw.
    + intros H. inversion H as [|x ? w ? Hx Hw]; subst. exists x. split; [exact Hx|]. apply in_map, IH, Hw.
Qed.

Lemma Forall2_rev {A B} (R : A -> B -> Prop) l l' : Forall2 R l l' -> Forall2 R (rev l) (rev l').
Proof.
  induction 1 as [|x y l l' H _ IH]; simpl; [constructor|]. apply Forall2_app; auto.
Qed.

Lemma in_col_prod ls v : In v (col_prod ls) <-> Forall2 (@In Z) v ls.
Proof.
  unfold col_prod. rewrite in_map_iff. split.
  - intros (w & <- & Hw). apply in_row_prod, Forall2_rev in Hw. rewrite rev_involutive in Hw. exact Hw.
  - intros H. exists (rev v). rewrite rev_involutive. split; [reflexivity|]. apply in_row_prod, Forall2_rev, H.
Qed.

(** ** The list of valid decompositions *)
Definition decomps (nprocs : Z) (dims : list Z) : list (list Z) :=
  filter (fun d => prodZ d =? nprocs) (col_prod (map cd_getPrimeFactors dims)).

Lemma grid_allpos dims : grid_ok dims -> allpos dims.
Proof. intros (_ & _ & H & _). apply allpos_nth, H. Qed.

Lemma prodZ_ge e j : allpos e -> (j < length e)%nat -> nth j e 0 <= prodZ e.
Proof.
  intros H Hj. pose proof (strd_le true e j H Hj).
  pose proof (proj1 (allpos_nth _) (strd_pos true e H) j ltac:(rewrite strd_length; exact Hj)).
  pose proof (proj1 (allpos_nth _) H j Hj). nia.
Qed.

Lemma grid_dim_range dims j : grid_ok dims -> (j < length dims)%nat -> 0 < nth j dims 0 < two31.
Proof.
  intros H Hj. pose proof (grid_allpos _ H) as Hp. pose proof (prodZ_ge dims j Hp Hj).
  destruct H as (_ & _ & Hpos & Hlt). specialize (Hpos j Hj). change (2 ^ 31) with two31 in Hlt. lia.
Qed.

Lemma Forall2_nth {A B} (R : A -> B -> Prop) l l' da db :
  Forall2 R l l' <-> length l = length l' /\ forall j, (j < length l)%nat -> R (nth j l da) (nth j l' db).
Proof.
  split.
  - induction 1 as [|x y l l' H _ [IH1 IH2]]; simpl; [split; [reflexivity|lia]|].
    split; [lia|]. intros [|j] Hj; auto. apply IH2. lia.
  - revert l'; induction l as [|x l IH]; intros [|y l'] [H1 H2]; simpl in *; try discriminate; constructor.
    + apply (H2 O). lia.
    + apply IH. split; [lia|]. intros j Hj. apply (H2 (S j)). lia.
Qed.

Lemma in_decomps nprocs dims d :
  grid_ok dims -> (In d (decomps nprocs dims) <-> is_decomp nprocs dims d).
Proof.
  intros Hg. unfold decomps, is_decomp. rewrite filter_In, Z.eqb_eq, in_col_prod.
  rewrite (Forall2_nth _ _ _ 0 []). rewrite map_length.
  assert (E : length d = length dims ->
    ((forall j, (j < length d)%nat -> In (nth j d 0) (nth j (map cd_getPrimeFactors dims) [])) <->
     (forall j, (j < length dims)%nat -> 0 < nth j d 0 /\ (nth j d 0 | nth j dims 0)))).
  { intros Hl. split; intros H j Hj; rewrite ?Hl in *.
    - specialize (H j Hj). rewrite (nth_indep _ [] (cd_getPrimeFactors 0)) in H by (rewrite map_length; exact Hj).
      rewrite map_nth in H. pose proof (grid_dim_range dims j Hg Hj).
      apply in_getPrimeFactors in H; [exact H|]. unfold two31, two64 in *. lia.
    - specialize (H j Hj). rewrite (nth_indep _ [] (cd_getPrimeFactors 0)) by (rewrite map_length; exact Hj).
      rewrite map_nth. pose proof (grid_dim_range dims j Hg Hj).
      apply in_getPrimeFactors; [|exact H]. unfold two31, two64 in *. lia. }
  split.
  - intros [[H1 H2] H3]. split; [exact H1|]. split; [apply E; assumption|exact H3].
  - intros (H1 & H2 & H3). split; [split; [exact H1|]|exact H3]. apply E; assumption.
Qed.

Lemma divisors_prod_le d dims :
  length d = length dims ->
  (forall j, (j < length dims)%nat -> 0 < nth j d 0 <= nth j dims 0) -> prodZ d <= prodZ dims.
Proof.
  revert dims; induction d as [|x d IH]; intros [|n dims] Hl H; try discriminate.
  rewrite !prodZ_cons. simpl in Hl.
  assert (H' : forall j, (j < length dims)%nat -> 0 < nth j d 0 <= nth j dims 0)
    by (intros j Hj; apply (H (S j)); simpl; lia).
  specialize (IH dims ltac:(lia) H'). pose proof (H O ltac:(simpl; lia)) as H0. simpl in H0.
  assert (0 < prodZ d).
  { apply prodZ_pos, allpos_nth. intros j Hj. specialize (H' j ltac:(lia)). lia. }
  nia.
Qed.

Lemma fold_accumulate d a :
  allpos d -> 0 < a -> a * prodZ d < two31 ->
  fold_left (fun acc x => i32 (u64 (u64 acc * x))) d a = a * prodZ d.
Proof.
  intros Hp. revert a; induction Hp as [|x d Hx Hd IH]; intros a Ha Hb.
  - simpl. change (prodZ []) with 1. lia.
  - rewrite prodZ_cons in Hb. pose proof (prodZ_pos d Hd). unfold two31 in Hb.
    assert (a * x <= a * (x * prodZ d)) by nia.
    assert (0 < a * x) by nia. assert (a <= a * x) by nia.
    cbn [fold_left]. rewrite (u64_id a) by (unfold two64; lia).
    rewrite (u64_id (a * x)) by (unfold two64; lia). rewrite i32_id by (unfold two31; lia).
    rewrite IH; rewrite ?prodZ_cons; unfold two31; nia.
Qed.

Lemma accumulate_eq d :
  allpos d -> prodZ d < two31 -> cd_accumulate d = prodZ d.
Proof.
  intros Hp Hb. unfold cd_accumulate. rewrite fold_accumulate by (try assumption; lia).
  pose proof (prodZ_pos d Hp). rewrite u64_id; unfold two64, two31 in *; lia.
Qed.

Lemma prodZ_lengths dims :
  (forall j, (j < length dims)%nat -> 0 < nth j dims 0 < two64) ->
  allpos (map vlen (map cd_getPrimeFactors dims)) /\
  prodZ (map vlen (map cd_getPrimeFactors dims)) <= 2 ^ Z.of_nat (length dims) * prodZ dims.
Proof.
  induction dims as [|n dims IH]; intros H.
  - split; [constructor|]. simpl. unfold prodZ; simpl. lia.
  - assert (H' : forall j, (j < length dims)%nat -> 0 < nth j dims 0 < two64)
      by (intros j Hj; apply (H (S j)); simpl; lia).
    destruct (IH H') as [IH1 IH2].
    pose proof (H O ltac:(simpl; lia)) as H0. simpl in H0.
    destruct (getPrimeFactors_length n H0) as [L1 L2].
    cbn [map]. split.
    + constructor; [unfold vlen; lia|exact IH1].
    + rewrite !prodZ_cons. cbn [length]. rewrite Nat2Z.inj_succ, Z.pow_succ_r by lia.
      pose proof (prodZ_pos _ IH1). unfold vlen at 1.
      assert (0 < 2 ^ Z.of_nat (length dims)) by (apply Z.pow_pos_nonneg; lia).
      nia.
Qed.

Lemma tab_map {A B} (f : A -> B) (l : list A) (body : Z -> res B) d n :
  n = vlen l ->
  (forall j, (j < length l)%nat -> body (Z.of_nat j) = Ok (f (nth j l d))) ->
  tabulate n body = Ok (map f l).
Proof.
  intros -> H. rewrite (tabulate_ok (fun i => f (nth i l d))).
  - unfold vlen. rewrite Nat2Z.id. f_equal.
    rewrite (list_as_map_seq l d) at 2. rewrite map_map. reflexivity.
  - intros i Hi. unfold vlen in Hi. rewrite Nat2Z.id in Hi. apply H, Hi.
Qed.

Lemma cd_search_box dims :
  grid_ok dims ->
  good_box (repeat 0 (length dims)) (map vlen (map cd_getPrimeFactors dims)) /\
  extents (repeat 0 (length dims)) (map vlen (map cd_getPrimeFactors dims)) =
  map vlen (map cd_getPrimeFactors dims).
Proof.
  intros Hg. set (ns := map vlen (map cd_getPrimeFactors dims)).
  assert (Hl : length ns = length dims) by (unfold ns; rewrite !map_length; reflexivity).
  assert (Hr : forall j, (j < length dims)%nat -> 0 < nth j dims 0 < two64).
  { intros j Hj. pose proof (grid_dim_range dims j Hg Hj). unfold two31, two64 in *. lia. }
  destruct (prodZ_lengths dims Hr) as [Hp Hle]. fold ns in Hp, Hle.
  assert (Hext : extents (repeat 0 (length dims)) ns = ns).
  { apply (nth_ext' 0).
    - rewrite extents_length; rewrite repeat_length; auto.
    - intros j Hj. rewrite extents_length in Hj by (rewrite repeat_length; auto).
      rewrite repeat_length in Hj.
      rewrite extents_nth by (rewrite repeat_length; auto). rewrite nth_repeat0. lia. }
  split; [|exact Hext].
  destruct Hg as (Hne & H32 & Hpos & Hlt).
  assert (Hlt2 : 2 ^ Z.of_nat (length dims) * prodZ dims < 2 ^ 63).
  { change (2 ^ 63) with (2 ^ 32 * 2 ^ 31).
    assert (2 ^ Z.of_nat (length dims) <= 2 ^ 32) by (apply Z.pow_le_mono_r; lia).
    assert (0 < 2 ^ Z.of_nat (length dims)) by (apply Z.pow_pos_nonneg; lia).
    assert (0 < prodZ dims) by (apply prodZ_pos, allpos_nth, Hpos).
    change (2 ^ 32) with 4294967296 in *. change (2 ^ 31) with 2147483648 in *. nia. }
  assert (Hns : prodZ ns < 2 ^ 63) by lia.
  assert (Hbig : forall j, (j < length dims)%nat -> 0 < nth j ns 0 <= prodZ ns).
  { intros j Hj. split; [apply (proj1 (allpos_nth _) Hp); lia|apply prodZ_ge; [exact Hp|lia]]. }
  change (2 ^ 63) with 9223372036854775808 in Hns.
  repeat split.
  - rewrite repeat_length. auto.
  - destruct dims; [contradiction|discriminate].
  - rewrite repeat_length. change (2 ^ 31) with 2147483648. lia.
  - rewrite nth_repeat0. lia.
  - rewrite nth_repeat0. rewrite repeat_length in H. specialize (Hbig j H). lia.
  - rewrite repeat_length in H. specialize (Hbig j H). change (2 ^ 64) with 18446744073709551616. lia.
  - intros j Hj. rewrite repeat_length in Hj. rewrite nth_repeat0. specialize (Hbig j Hj). lia.
  - rewrite Hext. change (2 ^ 64) with 18446744073709551616. lia.
Qed.

Lemma filter_snoc {A} (f : A -> bool) l x : filter f (l ++ [x]) = if f x then filter f l ++ [x] else filter f l.
Proof. rewrite filter_app. simpl. destruct (f x); [reflexivity|apply app_nil_r]. Qed.

Lemma cd_candidates_eq nprocs dims :
  grid_ok dims -> 1 <= nprocs < two31 ->
  cd_candidates (vlen dims) nprocs dims = Ok (decomps nprocs dims).
Proof.
  intros Hg Hn. destruct (cd_search_box dims Hg) as [Hbox Hext].
  unfold cd_candidates.
  rewrite (tab_map cd_getPrimeFactors dims _ 0) by
    (auto; intros j Hj; rewrite (vget_nat dims j 0) by exact Hj; reflexivity).
  cbn [bind]. set (ls := map cd_getPrimeFactors dims) in *.
  assert (Hls : length ls = length dims) by (unfold ls; apply map_length).
  rewrite (tab_map vlen ls _ []);
    [|unfold vlen; rewrite Hls; reflexivity|intros j Hj; rewrite (vget_nat ls j []) by exact Hj; reflexivity].
  cbn [bind]. unfold vlen at 1. rewrite Nat2Z.id.
  rewrite mai_build_good by exact Hbox. cbn [bind]. unfold mai_getNumberOfTerms.
  change (m_ntot (mai_of ?a ?b ?c ?d)) with (prodZ (extents a b)).
  rewrite (mai_loop (fun inds V =>
     decomp <- tabulate (vlen dims) (fun j =>
                  p <- vget ls j ;; k <- vget inds j ;; vget p k) ;;
     Ok (if cd_accumulate decomp =? u64 nprocs then V ++ [decomp] else V))); [|exact Hbox|].
  2:{ intros k it s. unfold mai_loop_body. destruct (mai_getIndices it); cbn [bind]; auto.
      destruct (tabulate _ _); cbn [bind]; auto. }
  assert (HV : for_each (nested_loops false (repeat 0 (length dims)) (map vlen ls))
    (fun inds V => decomp <- tabulate (vlen dims) (fun j =>
                  p <- vget ls j ;; k <- vget inds j ;; vget p k) ;;
     Ok (if cd_accumulate decomp =? u64 nprocs then V ++ [decomp] else V)) [] = Ok (decomps nprocs dims)).
  { match goal with |- for_each ?l ?b ?s = _ =>
      destruct (for_each_inv (fun pre V => V = filter (fun d => prodZ d =? nprocs) (map (lookup ls) pre)) b l s)
        as (V & -> & HV) end.
    - reflexivity.
    - intros pre v V -> Hv _.
      apply in_nested_loops in Hv; [|rewrite repeat_length, map_length; auto].
      destruct Hv as (Hv1 & Hv2 & Hv3). rewrite repeat_length in Hv1.
      rewrite (tabulate_ok (fun j => nth j (lookup ls v) 0)).
      2:{ intros j Hj. unfold vlen in Hj. rewrite Nat2Z.id in Hj.
          rewrite (vget_nat ls j []) by lia. cbn [bind]. rewrite (vget_nat v j 0) by lia. cbn [bind].
          specialize (Hv3 j ltac:(lia)). rewrite nth_repeat0 in Hv3.
          rewrite (nth_indep (map vlen ls) 0 (vlen (@nil Z))) in Hv3 by (rewrite map_length; lia).
          rewrite map_nth in Hv3.
          rewrite (vget_ok _ _ 0) by exact Hv3. rewrite lookup_nth by lia. reflexivity. }
      cbn [bind]. unfold vlen. rewrite Nat2Z.id.
      pose proof (list_as_map_seq (lookup ls v) 0) as E. rewrite lookup_length, Hls in E by lia.
      rewrite <- E. clear E.
      eexists; split; [reflexivity|]. rewrite map_app; cbn [map]; rewrite filter_snoc.
      (* the candidate consists of divisors *)
      assert (Hcand : Forall2 (@In Z) (lookup ls v) ls).
      { apply (Forall2_nth _ _ _ 0 []). rewrite lookup_length by lia. split; [reflexivity|].
        intros j Hj. rewrite lookup_nth by lia. apply nth_In.
        specialize (Hv3 j ltac:(lia)). rewrite nth_repeat0 in Hv3.
        rewrite (nth_indep (map vlen ls) 0 (vlen (@nil Z))) in Hv3 by (rewrite map_length; lia).
        rewrite map_nth in Hv3. unfold vlen in Hv3. lia. }
      apply in_col_prod in Hcand.
      assert (Hd : is_decomp (prodZ (lookup ls v)) dims (lookup ls v)).
      { apply in_decomps; [exact Hg|]. apply filter_In. split; [exact Hcand|]. apply Z.eqb_refl. }
      destruct Hd as (Hd1 & Hd2 & _).
      assert (Hle : prodZ (lookup ls v) <= prodZ dims).
      { apply divisors_prod_le; [exact Hd1|]. intros j Hj. destruct (Hd2 j Hj) as [P1 P2].
        split; [exact P1|]. apply Z.divide_pos_le; [|exact P2].
        pose proof (grid_dim_range dims j Hg Hj). lia. }
      rewrite accumulate_eq.
      + rewrite (u64_id nprocs) by (unfold two31, two64 in *; lia). reflexivity.
      + apply allpos_nth. intros j Hj. apply Hd2. lia.
      + destruct Hg as (_ & _ & _ & Hlt). change (2 ^ 31) with two31 in Hlt. lia.
    - subst V. unfold decomps. fold ls. rewrite <- Hls. rewrite lookup_col. reflexivity. }
  rewrite HV. reflexivity.
Qed.

(** ** Pointwise combination *)
Definition zipmap (f : Z -> Z -> Z) (a b : list Z) : list Z :=
  map (fun p => f (fst p) (snd p)) (combine a b).

Lemma zipmap_length f a b : length a = length b -> length (zipmap f a b) = length a.
Proof. intros H. unfold zipmap. rewrite map_length, combine_length. lia. Qed.

Lemma zipmap_nth f a b j :
  length a = length b -> (j < length a)%nat -> nth j (zipmap f a b) 0 = f (nth j a 0) (nth j b 0).
Proof.
  revert b j; induction a as [|x a IH]; intros [|y b] j Hl Hj; simpl in *; try lia.
  destruct j; auto. apply IH; lia.
Qed.

Lemma tab_eq (l : list Z) (body : Z -> res Z) n :
  n = vlen l ->
  (forall j, (j < length l)%nat -> body (Z.of_nat j) = Ok (nth j l 0)) ->
  tabulate n body = Ok l.
Proof.
  intros -> H. rewrite (tabulate_ok (fun i => nth i l 0)).
  - unfold vlen. rewrite Nat2Z.id. rewrite <- list_as_map_seq. reflexivity.
  - intros i Hi. unfold vlen in Hi. rewrite Nat2Z.id in Hi. apply H, Hi.
Qed.

Lemma local_dims_length dims d : length d = length dims -> length (local_dims dims d) = length dims.
Proof. intros H. apply (zipmap_length Z.div dims d). auto. Qed.
Lemma local_dims_nth dims d j :
  length d = length dims -> (j < length dims)%nat -> nth j (local_dims dims d) 0 = nth j dims 0 / nth j d 0.
Proof. intros H Hj. apply (zipmap_nth Z.div dims d); auto. Qed.

Lemma local_dims_mul n dims d j :
  is_decomp n dims d -> (j < length dims)%nat ->
  nth j (local_dims dims d) 0 * nth j d 0 = nth j dims 0.
Proof.
  intros (H1 & H2 & _) Hj. rewrite local_dims_nth by assumption. destruct (H2 j Hj) as [P [q Hq]].
  rewrite Hq, Z.div_mul by lia. reflexivity.
Qed.

Lemma local_dims_pos n dims d :
  grid_ok dims -> is_decomp n dims d -> allpos (local_dims dims d).
Proof.
  intros Hg Hd. apply allpos_nth. intros j Hj.
  assert (Hl : length d = length dims) by apply Hd.
  rewrite local_dims_length in Hj by exact Hl.
  pose proof (local_dims_mul n dims d j Hd Hj). pose proof (grid_dim_range dims j Hg Hj).
  destruct Hd as (_ & H2 & _). specialize (H2 j Hj). nia.
Qed.

Lemma prodZ_zip_mul a b c :
  length a = length b -> length c = length b ->
  (forall j, (j < length b)%nat -> nth j a 0 * nth j b 0 = nth j c 0) -> prodZ a * prodZ b = prodZ c.
Proof.
  revert b c; induction a as [|x a IH]; intros [|y b] [|z c] H1 H2 H; simpl in H1, H2; try discriminate.
  - reflexivity.
  - rewrite !prodZ_cons. rewrite <- (IH b c) by (try lia; intros j Hj; apply (H (S j)); simpl; lia).
    pose proof (H O ltac:(simpl; lia)) as E. cbn [nth] in E. rewrite <- E. ring.
Qed.

Lemma local_dims_prod n dims d : is_decomp n dims d -> prodZ (local_dims dims d) * n = prodZ dims.
Proof.
  intros Hd. assert (Hl : length d = length dims) by apply Hd.
  replace n with (prodZ d) by apply Hd.
  apply prodZ_zip_mul; [rewrite local_dims_length; auto|auto|].
  intros j Hj. rewrite Hl in Hj. eapply local_dims_mul; eassumption.
Qed.

(** ** computeCost *)
Lemma half_surface_snoc l x : half_surface (l ++ [x]) = half_surface l * x + prodZ l.
Proof.
  induction l as [|y l IH].
  - cbn [app half_surface]. change (prodZ []) with 1. ring.
  - cbn [app half_surface]. rewrite prodZ_app, IH, !prodZ_cons. change (prodZ []) with 1. ring.
Qed.

Lemma half_surface_step l i :
  (i < length l)%nat ->
  half_surface (firstn (S i) l) * prodZ (skipn (S i) l) =
  half_surface (firstn i l) * prodZ (skipn i l) + prodZ (firstn i l) * prodZ (skipn (S i) l).
Proof.
  intros H. rewrite (firstn_S_nth l 0) by exact H. rewrite half_surface_snoc.
  rewrite (skipn_cons_nth l 0 i) by exact H. rewrite prodZ_cons. ring.
Qed.

Lemma half_surface_range l : allpos l -> 0 <= half_surface l <= vlen l * prodZ l.
Proof.
  induction 1 as [|x l Hx Hl IH].
  - simpl. lia.
  - cbn [half_surface]. unfold vlen in *. cbn [length]. rewrite prodZ_cons.
    pose proof (prodZ_pos l Hl). rewrite Nat2Z.inj_succ. nia.
Qed.

Definition cost_of (dims d : list Z) : spec_float :=
  dbl_div (dbl_of_Z (half_surface (local_dims dims d))) (dbl_of_Z (prodZ (local_dims dims d))).

Lemma nth_skipn' {A} (l : list A) n i d : nth i (skipn n l) d = nth (n + i) l d.
Proof.
  revert l; induction n as [|n IH]; intros l; auto. destruct l as [|x l]; simpl; [destruct i; reflexivity|]. apply IH.
Qed.

Lemma area_eq l i n :
  n = vlen l -> (i < length l)%nat ->
  for_upto n (fun j area =>
     if negb (j =? Z.of_nat i) then x <- vget l j ;; Ok (u64 (area * x)) else Ok area) 1
  = Ok (u64 (prodZ (firstn i l) * prodZ (skipn (S i) l))).
Proof.
  intros -> Hi.
  match goal with |- for_upto ?c ?b ?s = _ =>
    destruct (for_upto_inv (fun k a => a = u64 (if (k <=? i)%nat then prodZ (firstn k l)
       else prodZ (firstn i l) * prodZ (firstn (k - S i) (skipn (S i) l)))) b c s) as (a & -> & Ha) end.
  - reflexivity.
  - intros k a Hk ->. unfold vlen in Hk. rewrite Nat2Z.id in Hk.
    destruct (Z.eqb_spec (Z.of_nat k) (Z.of_nat i)) as [E|E]; cbn [negb].
    + apply Nat2Z.inj in E. subst k. eexists; split; [reflexivity|].
      rewrite Nat.leb_refl. destruct (Nat.leb_spec (S i) i); [lia|].
      rewrite Nat.sub_diag. f_equal. cbn [firstn]. change (prodZ []) with 1. ring.
    + rewrite (vget_nat l k 0) by exact Hk. cbn [bind]. eexists; split; [reflexivity|].
      rewrite u64_mul_l. f_equal.
      destruct (Nat.leb_spec k i); destruct (Nat.leb_spec (S k) i); try lia.
      * rewrite (firstn_S_nth l 0) by exact Hk. rewrite prodZ_app, prodZ_cons. change (prodZ []) with 1. ring.
      * replace (S k - S i)%nat with (S (k - S i)) by lia.
        rewrite (firstn_S_nth (skipn (S i) l) 0) by (rewrite skipn_length; lia).
        rewrite prodZ_app, prodZ_cons. change (prodZ []) with 1.
        replace (nth (k - S i) (skipn (S i) l) 0) with (nth k l 0); [ring|].
        rewrite nth_skipn'. f_equal. lia.
  - unfold vlen in Ha. rewrite Nat2Z.id in Ha. destruct (Nat.leb_spec (length l) i); [lia|].
    rewrite (firstn_all2 (skipn (S i) l)) in Ha by (rewrite skipn_length; lia). subst; reflexivity.
Qed.

Lemma cd_localDims_eq n dims d :
  is_decomp n dims d -> cd_localDims (vlen dims) dims d = Ok (local_dims dims d).
Proof.
  intros Hd. assert (Hl : length d = length dims) by apply Hd. unfold cd_localDims.
  apply tab_eq.
  - unfold vlen. rewrite local_dims_length; auto.
  - intros j Hj. rewrite local_dims_length in Hj by exact Hl.
    rewrite (vget_nat dims j 0) by exact Hj. cbn [bind].
    rewrite (vget_nat d j 0) by lia. cbn [bind].
    rewrite local_dims_nth by assumption. apply udiv_ok. destruct Hd as (_ & H2 & _). specialize (H2 j Hj). lia.
Qed.

Lemma cd_computeCost_eq n dims d :
  grid_ok dims -> 1 <= n -> is_decomp n dims d ->
  cd_computeCost (vlen dims) dims d = Ok (cost_of dims d).
Proof.
  intros Hg Hn Hd. assert (Hl : length d = length dims) by apply Hd.
  unfold cd_computeCost. rewrite (cd_localDims_eq n) by assumption. cbn [bind].
  unfold cost_of. set (l := local_dims dims d).
  assert (Hll : length l = length dims) by (apply local_dims_length; exact Hl).
  assert (Hvl : vlen dims = vlen l) by (unfold vlen; rewrite Hll; reflexivity).
  pose proof (local_dims_pos n dims d Hg Hd) as Hp. fold l in Hp.
  pose proof (prodZ_pos l Hp) as HP.
  assert (HPb : prodZ l < two31).
  { pose proof (local_dims_prod n dims d Hd) as E. fold l in E. destruct Hg as (_ & _ & _ & Hlt).
    change (2 ^ 31) with two31 in Hlt. nia. }
  match goal with |- context [for_upto ?c ?b ?s] =>
    destruct (for_upto_inv (fun k st => st = (u64 (prodZ (firstn k l)),
       u64 (half_surface (firstn k l) * prodZ (skipn k l)))) b c s) as (st & -> & Hst) end.
  - reflexivity.
  - intros i st Hi ->. rewrite Hvl in Hi. unfold vlen in Hi. rewrite Nat2Z.id in Hi.
    rewrite (vget_nat l i 0) by exact Hi. cbn [bind].
    rewrite area_eq by assumption. cbn [bind]. eexists; split; [reflexivity|].
    f_equal.
    + rewrite u64_mul_l. f_equal. rewrite (firstn_S_nth l 0) by exact Hi.
      rewrite prodZ_app, prodZ_cons. change (prodZ []) with 1. ring.
    + rewrite u64_add_l, u64_add_r. f_equal. rewrite half_surface_step by exact Hi. reflexivity.
  - rewrite Hst. rewrite Hvl. unfold vlen. rewrite Nat2Z.id.
    rewrite !firstn_all, skipn_all. change (prodZ []) with 1. rewrite Z.mul_1_r. cbn [bind].
    pose proof (half_surface_range l Hp) as HS.
    destruct Hg as (_ & H32 & _).
    assert (HSb : half_surface l < two64).
    { unfold vlen in HS. unfold two31, two64 in *. nia. }
    rewrite !u64_id by (unfold two31, two64 in *; lia). reflexivity.
Qed.

(** ** The search for the best candidate *)
Definition search_step (dims : list Z) (st : spec_float * list Z) (d : list Z) : spec_float * list Z :=
  if dbl_lt (cost_of dims d) (fst st) then (cost_of dims d, d) else st.

Definition best_of (dims : list Z) (V : list (list Z)) : list Z :=
  match V with
  | [] => []
  | v0 :: t => snd (fold_left (search_step dims) t (dbl_max, v0))
  end.

Lemma best_of_in dims V : V <> [] -> In (best_of dims V) V.
Proof.
  destruct V as [|v0 t]; [contradiction|]. intros _. cbn [best_of].
  assert (H : forall t st, In (snd (fold_left (search_step dims) t st)) (snd st :: t)).
  { clear. induction t as [|d t IH]; intros st; [left; reflexivity|]. cbn [fold_left].
    destruct (IH (search_step dims st d)) as [E|E].
    - rewrite <- E. unfold search_step. destruct (dbl_lt _ _); [right; left|left]; reflexivity.
    - right; right; exact E. }
  apply (H t (dbl_max, v0)).
Qed.

Lemma for_from_tail {A St} (f : A -> St -> res St) pre t s :
  for_from (length pre) (length t) (fun k s => x <- vget (pre ++ t) k ;; f x s) s = for_each t f s.
Proof.
  revert pre s; induction t as [|x t IH]; intros pre s; auto.
  cbn [length for_from for_each]. rewrite (vget_nat _ _ x) by (rewrite app_length; simpl; lia).
  rewrite app_nth2, Nat.sub_diag by lia. cbn [nth bind].
  destruct (f x s) as [s'|u]; cbn [bind]; [|reflexivity].
  specialize (IH (pre ++ [x]) s'). rewrite app_length, Nat.add_1_r in IH. rewrite <- IH.
  rewrite <- app_assoc. reflexivity.
Qed.

Lemma for_from_shift {St} (b1 b2 : Z -> St -> res St) k j cnt s :
  (forall i s, b1 (Z.of_nat (k + i)) s = b2 (Z.of_nat (j + i)) s) ->
  for_from k cnt b1 s = for_from j cnt b2 s.
Proof.
  revert k j s; induction cnt as [|c IH]; intros k j s H; auto. cbn [for_from].
  pose proof (H O s) as E. rewrite !Nat.add_0_r in E. rewrite E.
  destruct (b2 (Z.of_nat j) s); cbn [bind]; auto. apply IH. intros i s'.
  replace (S k + i)%nat with (k + S i)%nat by lia. replace (S j + i)%nat with (j + S i)%nat by lia. apply H.
Qed.

Lemma cd_search_eq n dims V :
  grid_ok dims -> 1 <= n -> V <> [] -> (forall d, In d V -> is_decomp n dims d) ->
  cd_search (vlen dims) dims V = Ok (best_of dims V).
Proof.
  intros Hg Hn Hne HV. destruct V as [|v0 t]; [contradiction|]. unfold cd_search.
  change (vget (v0 :: t) 0) with (Ok v0). cbn [bind best_of].
  replace (vlen (v0 :: t) - 1) with (vlen t) by (unfold vlen; simpl length; lia).
  unfold for_upto, vlen at 1. rewrite Nat2Z.id.
  rewrite (for_from_shift _ (fun k st => d <- vget ([v0] ++ t) k ;;
      (cost <- cd_computeCost (vlen dims) dims d ;;
       Ok (if dbl_lt cost (fst st) then (cost, d) else st))) 0 1).
  2:{ intros i [mc b]. cbv zeta. replace (1 + Z.of_nat (0 + i)) with (Z.of_nat (1 + i)) by lia. cbn [app].
      destruct (vget (v0 :: t) (Z.of_nat (1 + i))); cbn [bind]; auto. }
  rewrite (for_from_tail (fun d st => cost <- cd_computeCost (vlen dims) dims d ;;
       Ok (if dbl_lt cost (fst st) then (cost, d) else st)) [v0] t).
  rewrite (for_each_fold (fun d st => search_step dims st d)).
  - cbn [bind]. destruct (fold_left _ t _) as [mc b]. reflexivity.
  - intros d st Hd. rewrite (cd_computeCost_eq n) by (auto; apply HV; right; exact Hd). reflexivity.
Qed.

(** ** build *)
Definition cube_of (nprocs : Z) (dims b : list Z) (k : Z) : cube :=
  mkCube nprocs (vlen dims) b dims (local_dims dims b)
    (Some (mai_of (repeat 0 (length dims)) b true k)).

Lemma decomp_box nprocs dims b :
  grid_ok dims -> nprocs < two31 -> is_decomp nprocs dims b ->
  good_box (repeat 0 (length dims)) b /\ extents (repeat 0 (length dims)) b = b.
Proof.
  intros Hg Hn (Hl & Hd & Hp). change two31 with 2147483648 in Hn.
  assert (Hpos : allpos b) by (apply allpos_nth; intros j Hj; apply Hd; lia).
  assert (Hext : extents (repeat 0 (length dims)) b = b).
  { apply (nth_ext' 0).
    - rewrite extents_length; rewrite repeat_length; auto.
    - intros j Hj. rewrite extents_length in Hj by (rewrite repeat_length; auto).
      rewrite repeat_length in Hj.
      rewrite extents_nth by (rewrite repeat_length; auto). rewrite nth_repeat0. lia. }
  split; [|exact Hext].
  assert (Hbig : forall j, (j < length dims)%nat -> 0 < nth j b 0 <= nprocs).
  { intros j Hj. split; [apply Hd; exact Hj|]. rewrite <- Hp. apply prodZ_ge; [exact Hpos|lia]. }
  destruct Hg as (Hne & H32 & _).
  repeat split.
  - rewrite repeat_length. auto.
  - destruct dims; [contradiction|discriminate].
  - rewrite repeat_length. change (2 ^ 31) with 2147483648. lia.
  - rewrite nth_repeat0. lia.
  - rewrite nth_repeat0. rewrite repeat_length in H. specialize (Hbig j H). lia.
  - rewrite repeat_length in H. specialize (Hbig j H). change (2 ^ 64) with 18446744073709551616. lia.
  - intros j Hj. rewrite repeat_length in Hj. rewrite nth_repeat0. specialize (Hbig j Hj). lia.
  - rewrite Hext, Hp. change (2 ^ 64) with 18446744073709551616. lia.
Qed.

Lemma cd_build_eq c nprocs dims :
  grid_ok dims -> 1 <= nprocs < two31 ->
  cd_build c nprocs dims =
  Ok (match decomps nprocs dims with
      | [] => (false, mkCube nprocs (vlen dims) [] dims (c_localDims c) (c_mit c))
      | _ => (true, cube_of nprocs dims (best_of dims (decomps nprocs dims)) 0)
      end).
Proof.
  intros Hg Hn. unfold cd_build, cd_computeOptimalDecomp.
  rewrite cd_candidates_eq by assumption. cbn [bind].
  assert (HV : forall d, In d (decomps nprocs dims) -> is_decomp nprocs dims d)
    by (intros d Hd; apply in_decomps in Hd; assumption).
  destruct (decomps nprocs dims) as [|v0 t] eqn:EV; [reflexivity|]. rewrite <- EV in *.
  assert (Hne : decomps nprocs dims <> []) by (rewrite EV; discriminate).
  replace (vlen (decomps nprocs dims) =? 0) with false by (rewrite EV; reflexivity).
  rewrite (cd_search_eq nprocs) by (auto; lia). cbn [bind].
  pose proof (HV _ (best_of_in dims _ Hne)) as Hb. set (b := best_of dims (decomps nprocs dims)) in *.
  destruct (decomp_box nprocs dims b Hg ltac:(lia) Hb) as [Hbox Hext].
  unfold vlen at 1. rewrite Nat2Z.id. rewrite mai_build_good by exact Hbox. cbn [bind].
  assert (Hl : length b = length dims) by apply Hb.
  assert (Hlne : (vlen b =? 0) = false).
  { unfold vlen. rewrite Hl. destruct Hg as (Hd & _). destruct dims; [contradiction|reflexivity]. }
  rewrite Hlne. replace (vlen b) with (vlen dims) by (unfold vlen; rewrite Hl; reflexivity).
  rewrite (cd_localDims_eq nprocs) by exact Hb. reflexivity.
Qed.

Lemma cd_build_true c nprocs dims c' :
  grid_ok dims -> 1 <= nprocs < two31 -> cd_build c nprocs dims = Ok (true, c') ->
  exists b, is_decomp nprocs dims b /\ c' = cube_of nprocs dims b 0.
Proof.
  intros Hg Hn H. rewrite cd_build_eq in H by assumption.
  destruct (decomps nprocs dims) as [|v0 t] eqn:EV; [discriminate|]. rewrite <- EV in *.
  inversion H. eexists. split; [|reflexivity].
  apply in_decomps; [exact Hg|]. apply best_of_in. rewrite EV. discriminate.
Qed.

(** ** Queries *)
Lemma mai_of_move lo hi rm k k' : mai_move (mai_of lo hi rm k) k' = mai_of lo hi rm k'.
Proof. reflexivity. Qed.

Lemma vadd_zeros v n : length v = n -> vadd (repeat 0 n) v = v.
Proof. intros <-. induction v as [|x v IH]; auto. simpl. rewrite IH. reflexivity. Qed.
Lemma vsub_zeros v n : length v = n -> vsub v (repeat 0 n) = v.
Proof. intros <-. induction v as [|x v IH]; auto. simpl. rewrite IH. f_equal. lia. Qed.

(** Position of a rank in the process grid. *)
Definition coords (b : list Z) (rk : Z) : list Z := digits b rk.

Lemma cd_moveTo_of nprocs dims b k rk :
  grid_ok dims -> nprocs < two31 -> is_decomp nprocs dims b ->
  cd_moveTo (cube_of nprocs dims b k) rk = Ok (coords b (u64 rk), cube_of nprocs dims b (u64 rk)).
Proof.
  intros Hg Hn Hd. destruct (decomp_box nprocs dims b Hg Hn Hd) as [Hbox Hext].
  unfold cd_moveTo, cube_of. cbn [c_mit]. rewrite mai_of_move.
  rewrite mai_getIndices_of by exact Hbox. cbn [bind]. rewrite Hext. cbn [digs].
  rewrite vadd_zeros; [reflexivity|]. rewrite digits_length. apply Hd.
Qed.

Lemma decomp_allpos nprocs dims b : is_decomp nprocs dims b -> allpos b.
Proof. intros (Hl & Hd & _). apply allpos_nth. intros j Hj. apply Hd. lia. Qed.

Lemma coords_range nprocs dims b rk j :
  is_decomp nprocs dims b -> (j < length dims)%nat -> 0 <= nth j (coords b rk) 0 < nth j b 0.
Proof.
  intros Hd Hj. apply digits_range; [eapply decomp_allpos; eassumption|]. destruct Hd as (-> & _). exact Hj.
Qed.

Lemma coords_length nprocs dims b rk : is_decomp nprocs dims b -> length (coords b rk) = length dims.
Proof. intros (Hl & _). unfold coords. rewrite digits_length. exact Hl. Qed.

Definition beg_of (dims b : list Z) (rk : Z) : list Z :=
  zipmap (fun x l => x * l) (coords b rk) (local_dims dims b).
Definition end_of (dims b : list Z) (rk : Z) : list Z :=
  zipmap (fun x l => (x + 1) * l) (coords b rk) (local_dims dims b).

Lemma beg_of_length nprocs dims b rk : is_decomp nprocs dims b -> length (beg_of dims b rk) = length dims.
Proof.
  intros Hd. unfold beg_of. rewrite zipmap_length; rewrite (coords_length nprocs dims b) by exact Hd; [reflexivity|].
  symmetry. apply local_dims_length, Hd.
Qed.
Lemma end_of_length nprocs dims b rk : is_decomp nprocs dims b -> length (end_of dims b rk) = length dims.
Proof.
  intros Hd. unfold end_of. rewrite zipmap_length; rewrite (coords_length nprocs dims b) by exact Hd; [reflexivity|].
  symmetry. apply local_dims_length, Hd.
Qed.
Lemma beg_of_nth nprocs dims b rk j :
  is_decomp nprocs dims b -> (j < length dims)%nat ->
  nth j (beg_of dims b rk) 0 = nth j (coords b rk) 0 * nth j (local_dims dims b) 0.
Proof.
  intros Hd Hj. unfold beg_of. apply zipmap_nth; rewrite (coords_length nprocs dims b) by exact Hd; [|exact Hj].
  symmetry. apply local_dims_length, Hd.
Qed.
Lemma end_of_nth nprocs dims b rk j :
  is_decomp nprocs dims b -> (j < length dims)%nat ->
  nth j (end_of dims b rk) 0 = (nth j (coords b rk) 0 + 1) * nth j (local_dims dims b) 0.
Proof.
  intros Hd Hj. unfold end_of. apply zipmap_nth; rewrite (coords_length nprocs dims b) by exact Hd; [|exact Hj].
  symmetry. apply local_dims_length, Hd.
Qed.

(** The box of a rank lies in the grid. *)
Lemma box_in_grid nprocs dims b rk j :
  grid_ok dims -> is_decomp nprocs dims b -> (j < length dims)%nat ->
  0 <= nth j (beg_of dims b rk) 0 < nth j (end_of dims b rk) 0 /\
  nth j (end_of dims b rk) 0 <= nth j dims 0.
Proof.
  intros Hg Hd Hj. rewrite (beg_of_nth nprocs), (end_of_nth nprocs) by assumption.
  pose proof (coords_range nprocs dims b rk j Hd Hj).
  pose proof (local_dims_mul nprocs dims b j Hd Hj).
  pose proof (proj1 (allpos_nth _) (local_dims_pos nprocs dims b Hg Hd) j
                ltac:(rewrite local_dims_length by apply Hd; exact Hj)). nia.
Qed.

Lemma cd_getBegIndices_of nprocs dims b k rk :
  grid_ok dims -> nprocs < two31 -> is_decomp nprocs dims b ->
  cd_getBegIndices (cube_of nprocs dims b k) rk =
  Ok (beg_of dims b (u64 rk), cube_of nprocs dims b (u64 rk)).
Proof.
  intros Hg Hn Hd. unfold cd_getBegIndices. rewrite cd_moveTo_of by assumption. cbn [bind].
  change (c_ndims (cube_of nprocs dims b k)) with (vlen dims).
  change (c_localDims (cube_of nprocs dims b k)) with (local_dims dims b).
  rewrite (tab_eq (beg_of dims b (u64 rk))); [reflexivity| |].
  - unfold vlen. rewrite (beg_of_length nprocs) by exact Hd. reflexivity.
  - intros j Hj. rewrite (beg_of_length nprocs) in Hj by exact Hd.
    rewrite (vget_nat _ j 0) by (rewrite (coords_length nprocs dims) by exact Hd; exact Hj). cbn [bind].
    rewrite (vget_nat _ j 0) by (rewrite local_dims_length by apply Hd; exact Hj). cbn [bind].
    rewrite <- (beg_of_nth nprocs) by assumption. f_equal. apply u64_id.
    pose proof (box_in_grid nprocs dims b (u64 rk) j Hg Hd Hj). pose proof (grid_dim_range dims j Hg Hj).
    unfold two31, two64 in *. lia.
Qed.

Lemma cd_getEndIndices_of nprocs dims b k rk :
  grid_ok dims -> nprocs < two31 -> is_decomp nprocs dims b ->
  cd_getEndIndices (cube_of nprocs dims b k) rk =
  Ok (end_of dims b (u64 rk), cube_of nprocs dims b (u64 rk)).
Proof.
  intros Hg Hn Hd. unfold cd_getEndIndices. rewrite cd_moveTo_of by assumption. cbn [bind].
  change (c_ndims (cube_of nprocs dims b k)) with (vlen dims).
  change (c_localDims (cube_of nprocs dims b k)) with (local_dims dims b).
  rewrite (tab_eq (end_of dims b (u64 rk))); [reflexivity| |].
  - unfold vlen. rewrite (end_of_length nprocs) by exact Hd. reflexivity.
  - intros j Hj. rewrite (end_of_length nprocs) in Hj by exact Hd.
    rewrite (vget_nat _ j 0) by (rewrite (coords_length nprocs dims) by exact Hd; exact Hj). cbn [bind].
    rewrite (vget_nat _ j 0) by (rewrite local_dims_length by apply Hd; exact Hj). cbn [bind].
    rewrite u64_mul_l. rewrite <- (end_of_nth nprocs) by assumption. f_equal. apply u64_id.
    pose proof (box_in_grid nprocs dims b (u64 rk) j Hg Hd Hj). pose proof (grid_dim_range dims j Hg Hj).
    unfold two31, two64 in *. lia.
Qed.

(** ** Neighbours *)
Definition nb_coords (b : list Z) (rk : Z) (dir : list Z) : list Z :=
  zipmap (fun x n => x mod n) (vadd (coords b rk) dir) b.
Definition nb_of (b : list Z) (rk : Z) (dir : list Z) : Z := dot (strides b) (nb_coords b rk dir).

Lemma nb_coords_nth nprocs dims b rk dir j :
  is_decomp nprocs dims b -> length dir = length dims -> (j < length dims)%nat ->
  nth j (nb_coords b rk dir) 0 = (nth j (coords b rk) 0 + nth j dir 0) mod nth j b 0.
Proof.
  intros Hd Hdir Hj. pose proof (coords_length nprocs dims b rk Hd) as Hc.
  unfold nb_coords. rewrite zipmap_nth.
  - rewrite vadd_nth by lia. reflexivity.
  - rewrite vadd_length by lia. destruct Hd as (-> & _). exact Hc.
  - rewrite vadd_length by lia. lia.
Qed.

Lemma nb_coords_digit_vec nprocs dims b rk dir :
  is_decomp nprocs dims b -> length dir = length dims -> digit_vec b (nb_coords b rk dir).
Proof.
  intros Hd Hdir. pose proof (coords_length nprocs dims b rk Hd) as Hc.
  assert (Hl : length b = length dims) by apply Hd.
  split.
  - unfold nb_coords. rewrite zipmap_length; rewrite vadd_length; lia.
  - intros j Hj. rewrite (nb_coords_nth nprocs dims) by (auto; lia). apply Z.mod_pos_bound.
    destruct Hd as (_ & H & _). apply H. lia.
Qed.

Lemma nb_of_range nprocs dims b rk dir :
  is_decomp nprocs dims b -> length dir = length dims -> 0 <= nb_of b rk dir < nprocs.
Proof.
  intros Hd Hdir. destruct Hd as (H1 & H2 & H3). rewrite <- H3.
  apply flat_range. eapply nb_coords_digit_vec; [|exact Hdir]. split; [exact H1|]. split; [exact H2|exact H3].
Qed.

Lemma coords_nb nprocs dims b rk dir :
  is_decomp nprocs dims b -> length dir = length dims ->
  coords b (nb_of b rk dir) = nb_coords b rk dir.
Proof. intros Hd Hdir. apply digits_flat. eapply nb_coords_digit_vec; eassumption. Qed.

Lemma wrap_once x n :
  0 < n <= 2 ^ 30 -> - n <= x < 2 * n ->
  (let off := i32 (u64 x) in
   if off <? 0 then i32 (u64 (u64 off + n))
   else if n <=? u64 off then i32 (u64 (u64 off - n)) else off) = x mod n.
Proof.
  intros Hn Hx. change (2 ^ 30) with 1073741824 in Hn.
  assert (E64 : forall y, - two31 <= y < two31 -> i32 (u64 y) = y).
  { intros y Hy. unfold i32, u64. rewrite <- (Zplus_mod_idemp_l (y mod two64)).
    rewrite <- (Znumtheory.Zmod_div_mod two32 two64 y); [|reflexivity|reflexivity|exists two32; reflexivity].
    rewrite Zplus_mod_idemp_l. fold (i32 y). apply i32_id. exact Hy. }
  assert (E0 : i32 (u64 x) = x) by (apply E64; unfold two31; lia).
  cbv zeta. rewrite E0. destruct (Z.ltb_spec x 0).
  - rewrite u64_add_l. rewrite E64 by (unfold two31; lia).
    rewrite <- (Z.mod_add x 1 n) by lia. rewrite Z.mod_small; lia.
  - rewrite (u64_id x) by (unfold two64; lia). destruct (Z.leb_spec n x).
    + rewrite E64 by (unfold two31; lia). rewrite <- (Z.mod_add x (-1) n) by lia. rewrite Z.mod_small; lia.
    + rewrite Z.mod_small; lia.
Qed.

Lemma cd_getNeighborRank_of nprocs dims b k rk dir :
  grid_ok dims -> 1 <= nprocs <= 2 ^ 30 -> is_decomp nprocs dims b ->
  length dir = length dims ->
  (forall j, (j < length dims)%nat ->
     - nth j b 0 <= nth j (coords b (u64 rk)) 0 + nth j dir 0 < 2 * nth j b 0) ->
  cd_getNeighborRank (cube_of nprocs dims b k) rk dir =
  Ok (nb_of b (u64 rk) dir, cube_of nprocs dims b (u64 rk)).
Proof.
  intros Hg Hn Hd Hdir Hsafe. change (2 ^ 30) with 1073741824 in Hn.
  assert (Hn' : nprocs < two31) by (unfold two31; lia).
  destruct (decomp_box nprocs dims b Hg Hn' Hd) as [Hbox Hext].
  assert (Hl : length b = length dims) by apply Hd.
  pose proof (nb_coords_digit_vec nprocs dims b (u64 rk) dir Hd Hdir) as Hdv.
  unfold cd_getNeighborRank. rewrite cd_moveTo_of by assumption. cbn [bind].
  change (c_ndims (cube_of nprocs dims b k)) with (vlen dims).
  change (c_decomp (cube_of nprocs dims b k)) with b.
  rewrite (tab_eq (nb_coords b (u64 rk) dir)).
  - cbn [bind]. unfold cube_of at 1. cbn [c_mit]. unfold mai_computeBigIndex_int.
    rewrite mai_computeBig_of; [|exact Hbox|rewrite repeat_length; rewrite <- Hl; apply Hdv].
    cbn [bind]. rewrite Hext, vsub_zeros by (rewrite <- Hl; apply Hdv). cbn [strd].
    change (dot (strides b) (nb_coords b (u64 rk) dir)) with (nb_of b (u64 rk) dir).
    pose proof (nb_of_range nprocs dims b (u64 rk) dir Hd Hdir).
    rewrite u64_id by (unfold two64, two31 in *; lia).
    rewrite !i32_id by (rewrite ?i32_id; unfold two31 in *; lia). reflexivity.
  - unfold vlen. destruct Hdv as [-> _]. rewrite Hl. reflexivity.
  - intros j Hj. destruct Hdv as [Hdl _]. rewrite Hdl, Hl in Hj.
    rewrite (vget_nat _ j 0) by (rewrite (coords_length nprocs dims) by exact Hd; exact Hj). cbn [bind].
    rewrite (vget_nat dir j 0) by lia. cbn [bind]. rewrite u64_add_r.
    rewrite (vget_nat b j 0) by lia. cbn [bind]. f_equal.
    rewrite (nb_coords_nth nprocs dims) by assumption.
    apply wrap_once; [|apply Hsafe; exact Hj].
    pose proof (prodZ_ge b j (decomp_allpos _ _ _ Hd) ltac:(lia)) as Hle.
    destruct Hd as (_ & H2 & H3). specialize (H2 j Hj). change (2 ^ 30) with 1073741824. lia.
Qed.

(** ** Tiling *)
Definition owner_coords (dims b g : list Z) : list Z := zipmap Z.div g (local_dims dims b).
Definition owner (dims b g : list Z) : Z := dot (strides b) (owner_coords dims b g).

Lemma owner_digit_vec nprocs dims b g :
  grid_ok dims -> is_decomp nprocs dims b -> in_box (repeat 0 (length dims)) dims g ->
  digit_vec b (owner_coords dims b g).
Proof.
  intros Hg Hd (G1 & G2 & G3). rewrite repeat_length in G1.
  assert (Hl : length b = length dims) by apply Hd.
  pose proof (local_dims_length dims b Hl) as HL.
  split.
  - unfold owner_coords. rewrite zipmap_length; lia.
  - intros j Hj. rewrite Hl in Hj. unfold owner_coords. rewrite zipmap_nth by lia.
    specialize (G3 j ltac:(lia)). rewrite nth_repeat0 in G3.
    pose proof (local_dims_mul nprocs dims b j Hd Hj).
    pose proof (proj1 (allpos_nth _) (local_dims_pos nprocs dims b Hg Hd) j ltac:(lia)).
    split; [apply Z.div_pos; lia|]. apply Z.div_lt_upper_bound; lia.
Qed.

Lemma owner_range nprocs dims b g :
  grid_ok dims -> is_decomp nprocs dims b -> in_box (repeat 0 (length dims)) dims g ->
  0 <= owner dims b g < nprocs.
Proof.
  intros Hg Hd G. pose proof (flat_range b _ (owner_digit_vec nprocs dims b g Hg Hd G)) as H.
  destruct Hd as (_ & _ & <-). exact H.
Qed.

Lemma owner_iff nprocs dims b g rk :
  grid_ok dims -> is_decomp nprocs dims b -> in_box (repeat 0 (length dims)) dims g ->
  0 <= rk < nprocs ->
  (in_box (beg_of dims b rk) (end_of dims b rk) g <-> rk = owner dims b g).
Proof.
  intros Hg Hd G Hrk. pose proof (owner_digit_vec nprocs dims b g Hg Hd G) as Hdv.
  pose proof G as (G1 & G2 & G3). rewrite repeat_length in G1.
  assert (Hl : length b = length dims) by apply Hd.
  pose proof (local_dims_length dims b Hl) as HL.
  pose proof (decomp_allpos _ _ _ Hd) as Hp.
  assert (Hco : forall j, (j < length dims)%nat -> nth j (owner_coords dims b g) 0 = nth j g 0 / nth j (local_dims dims b) 0).
  { intros j Hj. unfold owner_coords. apply zipmap_nth; lia. }
  split.
  - intros (_ & _ & B). rewrite <- (Z.mod_small rk (prodZ b)) by (destruct Hd as (_ & _ & ->); exact Hrk).
    rewrite <- flat_digits by exact Hp. unfold owner. f_equal.
    apply (nth_ext' 0).
    + rewrite digits_length. destruct Hdv as [-> _]. reflexivity.
    + intros j Hj. rewrite digits_length, Hl in Hj. rewrite Hco by exact Hj.
      specialize (B j ltac:(lia)). rewrite (beg_of_nth nprocs), (end_of_nth nprocs) in B by assumption.
      unfold coords in B. symmetry.
      pose proof (proj1 (allpos_nth _) (local_dims_pos nprocs dims b Hg Hd) j ltac:(lia)).
      symmetry. apply Z.div_unique with (r := nth j g 0 - nth j (digits b rk) 0 * nth j (local_dims dims b) 0); lia.
  - intros ->. split; [rewrite (beg_of_length nprocs) by exact Hd; exact G1|].
    split; [rewrite (end_of_length nprocs) by exact Hd; exact G1|].
    intros j Hj. rewrite G1 in Hj.
    rewrite (beg_of_nth nprocs), (end_of_nth nprocs) by assumption.
    unfold coords, owner. rewrite digits_flat by exact Hdv. rewrite Hco by exact Hj.
    pose proof (proj1 (allpos_nth _) (local_dims_pos nprocs dims b Hg Hd) j ltac:(lia)) as P.
    pose proof (Z.div_mod (nth j g 0) (nth j (local_dims dims b) 0) ltac:(lia)).
    pose proof (Z.mod_pos_bound (nth j g 0) (nth j (local_dims dims b) 0) P). nia.
Qed.

Lemma coords_inj nprocs dims b r r' :
  is_decomp nprocs dims b -> 0 <= r < nprocs -> 0 <= r' < nprocs -> coords b r = coords b r' -> r = r'.
Proof.
  intros Hd Hr Hr' E. pose proof (decomp_allpos _ _ _ Hd) as Hp. destruct Hd as (_ & _ & HP).
  rewrite <- (Z.mod_small r (prodZ b)), <- (Z.mod_small r' (prodZ b)) by lia.
  rewrite <- !flat_digits by exact Hp. unfold coords in E. rewrite E. reflexivity.
Qed.
