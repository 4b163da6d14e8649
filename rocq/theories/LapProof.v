(** * Proofs about the Laplacian driver *)
From Coq Require Import Sorted Permutation Ring_theory Ring.
From Verif Require Import Cpp CppProof OMap MaiModel MaiSpec Radix MaiProof CdModel CdSpec CdProof FilterModel FilterSpec FilterProof
  FilterRank FilterWorld FilterSum FilterProg RealArith LapModel LapSpec.
Local Open Scope Z_scope.
Local Arguments prodZ : simpl never.
Local Arguments Z.of_nat : simpl never.

(** ** Insertion of entries with distinct keys *)

Definition insert_all {V} (l : list (list Z * V)) (m : list (list Z * V)) : list (list Z * V) :=
  fold_left (fun m p => omap_insert lexcmp (fst p) (snd p) m) l m.

Lemma insert_all_perm {V} (l : list (list Z * V)) : forall m, osorted lexcmp m -> NoDup (map fst (m ++ l)) ->
  Permutation (insert_all l m) (m ++ l) /\ osorted lexcmp (insert_all l m).
Proof.
  induction l as [|[k v] l IH]; intros m Hs Hnd.
  - rewrite app_nil_r. split; [reflexivity|exact Hs].
  - assert (Hk : omap_find lexcmp k m = None).
    { apply lfind_None; auto. rewrite map_app in Hnd. cbn [map fst] in Hnd. apply NoDup_remove_2 in Hnd. intros H. apply Hnd. apply in_or_app. auto. }
    pose proof (insert_perm k v m Hk) as P. unfold insert_all. cbn [fold_left fst snd].
    destruct (IH (omap_insert lexcmp k v m)) as (P' & S').
    + apply lins_sorted; auto.
    + eapply Permutation_NoDup; [|exact Hnd]. apply Permutation_map. rewrite P. cbn [app]. symmetry. apply Permutation_middle.
    + split; [|exact S']. unfold insert_all in P'. rewrite P', P. cbn [app]. apply Permutation_middle.
Qed.

(** ** Unit vectors *)

Lemma unit_vec_length n i v : length (unit_vec n i v) = n.
Proof. unfold unit_vec. rewrite map_length, seq_length. reflexivity. Qed.
Lemma unit_vec_nth n i v j : (i < n)%nat -> nth j (unit_vec n i v) 0 = if Nat.eqb j i then v else 0.
Proof.
  intros Hi. destruct (lt_dec j n) as [Hj|Hj].
  - unfold unit_vec. rewrite map_seq_nth by exact Hj. reflexivity.
  - rewrite nth_overflow by (rewrite unit_vec_length; lia). destruct (Nat.eqb_spec j i); [lia|reflexivity].
Qed.
Lemma unit_vec_upd n i v : (i < n)%nat -> upd (repeat 0 n) i v = unit_vec n i v.
Proof.
  intros Hi. apply (nth_ext' 0); [rewrite upd_length, repeat_length, unit_vec_length; auto|].
  intros j Hj. rewrite upd_nth by (rewrite repeat_length; auto). rewrite unit_vec_nth, nth_repeat0 by auto. reflexivity.
Qed.
Lemma unit_vec_upd_upd n i v v' : (i < n)%nat -> upd (unit_vec n i v) i v' = unit_vec n i v'.
Proof.
  intros Hi. apply (nth_ext' 0); [rewrite upd_length, !unit_vec_length; auto|].
  intros j Hj. rewrite upd_nth by (rewrite unit_vec_length; auto). rewrite !unit_vec_nth by auto. destruct (Nat.eqb j i); reflexivity.
Qed.
Lemma unit_vec_zero n i : unit_vec n i 0 = repeat 0 n.
Proof.
  apply (nth_ext' 0); [rewrite unit_vec_length, repeat_length; auto|].
  intros j Hj. rewrite unit_vec_length in Hj. unfold unit_vec. rewrite map_seq_nth, nth_repeat0 by auto. destruct (Nat.eqb j i); reflexivity.
Qed.

Lemma unit_vec_axis n i v : (i < n)%nat -> -1 <= v <= 1 -> unit_offset n (unit_vec n i v) /\ axis_offset (unit_vec n i v).
Proof.
  intros Hi Hv. split.
  - split; [apply unit_vec_length|]. intros j Hj. rewrite unit_vec_nth by auto. destruct (Nat.eqb j i); lia.
  - intros a b. rewrite !unit_vec_nth by auto. destruct (Nat.eqb_spec a i), (Nat.eqb_spec b i); lia.
Qed.
Lemma zero_axis n : unit_offset n (repeat 0 n) /\ axis_offset (repeat 0 n).
Proof.
  split; [split; [apply repeat_length|]; intros j Hj; rewrite nth_repeat0; lia|].
  intros i j. rewrite !nth_repeat0. lia.
Qed.

Lemma wrap_id dims g : in_grid dims g -> wrap dims (shift g (repeat 0 (length dims))) = g.
Proof.
  intros H. apply in_grid_nth in H as [L H]. assert (Ls : length (shift g (repeat 0 (length dims))) = length dims)
    by (rewrite shift_length; rewrite ?repeat_length; auto).
  apply (nth_ext' 0); [rewrite wrap_length; auto|].
  rewrite wrap_length by auto. intros j Hj. rewrite wrap_nth by lia. rewrite shift_nth by (rewrite ?repeat_length; lia).
  rewrite nth_repeat0, Z.add_0_r. apply Z.mod_small. apply H. auto.
Qed.

Lemma wrap_unit dims g j v : in_grid dims g -> (j < length dims)%nat ->
  wrap dims (shift g (unit_vec (length dims) j v)) = upd g j ((nth j g 0 + v) mod nth j dims 0).
Proof.
  intros H Hj. apply in_grid_nth in H as [L H].
  assert (Ls : length (shift g (unit_vec (length dims) j v)) = length dims) by (rewrite shift_length; rewrite ?unit_vec_length; auto).
  apply (nth_ext' 0); [rewrite wrap_length, upd_length; auto|].
  rewrite wrap_length by auto. intros i Hi. rewrite wrap_nth by lia. rewrite shift_nth by (rewrite ?unit_vec_length; lia).
  rewrite unit_vec_nth by auto. rewrite upd_nth by lia. destruct (Nat.eqb_spec i j) as [->|Hne]; [reflexivity|].
  rewrite Z.add_0_r. apply Z.mod_small. apply H. auto.
Qed.

Section Lap.
  Context {D : Type} (ar : arith D).

  (** The branches in the order in which the program inserts them. *)
  Definition lap_pair (n i : nat) : list (list Z * D) := [(unit_vec n i 1, a_dec ar 10 1); (unit_vec n i (-1), a_dec ar 10 1)].
  Definition lap_entries (n : nat) : list (list Z * D) :=
    (repeat 0 n, a_mul ar (a_neg ar (a_dec ar 20 1)) (a_ofZ ar (Z.of_nat n))) :: flat_map (lap_pair n) (seq 0 n).

  Lemma lap_stencil_eq n : lap_stencil ar (Z.of_nat n) = Ok (insert_all (lap_entries n) []).
  Proof.
    unfold lap_stencil. rewrite Nat2Z.id.
    match goal with |- context [for_upto _ ?bd ?i] => set (body := bd); set (s0 := i) end.
    destruct (for_upto_inv (fun i (p : list Z * list (list Z * D)) => fst p = repeat 0 n /\
        snd p = insert_all (flat_map (lap_pair n) (seq 0 i)) (snd s0)) body (Z.of_nat n) s0) as ([o s] & E & Eo & Es).
    - split; reflexivity.
    - intros i [o s] Hi (Eo & Es). rewrite Nat2Z.id in Hi. cbn [fst snd] in Eo, Es. subst o. unfold body.
      rewrite vset_nat by (rewrite repeat_length; auto). cbn [bind]. rewrite unit_vec_upd by auto.
      rewrite vset_nat by (rewrite unit_vec_length; auto). cbn [bind]. rewrite unit_vec_upd_upd by auto.
      rewrite vset_nat by (rewrite unit_vec_length; auto). cbn [bind]. rewrite unit_vec_upd_upd by auto.
      eexists. split; [reflexivity|]. cbn [fst snd]. split; [apply unit_vec_zero|].
      rewrite seq_S, flat_map_app. unfold insert_all. rewrite fold_left_app. cbn [plus flat_map lap_pair app fold_left fst snd]. rewrite Es. reflexivity.
    - rewrite E. cbn [bind fst snd] in *. f_equal. rewrite Es, Nat2Z.id. reflexivity.
  Qed.

  Lemma unit_vec_inj n i i' v v' : (i < n)%nat -> (i' < n)%nat -> v <> 0 -> unit_vec n i v = unit_vec n i' v' -> i = i' /\ v = v'.
  Proof.
    intros Hi Hi' Hv E. apply (f_equal (fun l => nth i l 0)) in E. rewrite !unit_vec_nth in E by auto. rewrite Nat.eqb_refl in E.
    destruct (Nat.eqb_spec i i'); auto. contradiction.
  Qed.

  Lemma lap_keys n : NoDup (map fst (lap_entries n)).
  Proof.
    cbn [lap_entries map fst]. constructor.
    - intros H. apply in_map_iff in H as ([k v] & E & H). apply in_flat_map in H as (i & Hi & H). apply in_seq in Hi.
      cbn [fst] in E. subst k. destruct H as [H|[H|[]]]; inversion H as [[E1 E2]];
        apply (f_equal (fun l => nth i l 0)) in E1; rewrite nth_repeat0, unit_vec_nth, Nat.eqb_refl in E1 by lia; lia.
    - rewrite flat_map_concat_map, concat_map, map_map, <- flat_map_concat_map.
      apply NoDup_flat_map; [apply seq_NoDup| |].
      + intros i Hi. apply in_seq in Hi. cbn [lap_pair map fst]. constructor; [|constructor; [simpl; tauto|constructor]].
        intros [E|[]]. apply unit_vec_inj in E; try lia.
      + intros i j k Hi Hj H1 H2. apply in_seq in Hi, Hj. cbn [lap_pair map fst] in H1, H2.
        destruct H1 as [<-|[<-|[]]]; destruct H2 as [E|[E|[]]]; symmetry in E; apply unit_vec_inj in E; lia.
  Qed.

  Lemma lap_perm n : Permutation (insert_all (lap_entries n) []) (lap_entries n) /\ is_map (insert_all (lap_entries n) []).
  Proof. apply (insert_all_perm (lap_entries n) []); [constructor|apply lap_keys]. Qed.

  Lemma lap_axis dims : axis_stencil dims (insert_all (lap_entries (length dims)) []).
  Proof.
    destruct (lap_perm (length dims)) as (P & S). split; [exact S|]. intros off w H. apply (Permutation_in _ P) in H.
    destruct H as [E|H].
    - inversion E; subst. apply zero_axis.
    - apply in_flat_map in H as (i & Hi & H). apply in_seq in Hi. destruct H as [E|[E|[]]]; inversion E; subst; apply unit_vec_axis; lia.
  Qed.

  Hypothesis HE : exact_numbers ar.
  Let HR' : ring_theory (a_zero ar) (a_one ar) (a_add ar) (a_mul ar) (a_sub ar) (a_neg ar) (@eq D) := en_ring ar HE.
  Add Ring Dring2 : HR'.

  Lemma stencil_sum_as_sum dims (st : list (list Z * D)) G g :
    stencil_sum ar dims st G g = sum_of ar (map (fun p => a_mul ar (snd p) (G (wrap dims (shift g (fst p))))) st).
  Proof using HE HR'.
    unfold stencil_sum.
    assert (H : forall a, fold_left (fun acc p => a_add ar acc (a_mul ar (snd p) (G (wrap dims (shift g (fst p)))))) st a =
       a_add ar a (sum_of ar (map (fun p => a_mul ar (snd p) (G (wrap dims (shift g (fst p))))) st))).
    { induction st as [|p l IH]; intros a; simpl; [ring|]. rewrite IH. ring. }
    rewrite H. ring.
  Qed.

  Lemma dec1 : a_dec ar 10 1 = a_one ar.
  Proof using HE. change 10 with (1 * 10). rewrite (en_dec ar HE). apply (en_one ar HE). Qed.
  Lemma dec2 : a_dec ar 20 1 = a_add ar (a_one ar) (a_one ar).
  Proof using HE. change 20 with (2 * 10). rewrite (en_dec ar HE). change 2 with (1 + 1). rewrite (en_add ar HE), (en_one ar HE). reflexivity. Qed.

  Lemma sum_const (A : Type) (l : list A) c : sum_of ar (map (fun _ => c) l) = a_mul ar (a_ofZ ar (Z.of_nat (length l))) c.
  Proof using HE HR'.
    induction l as [|x l IH]; cbn [map length sum_of fold_right]; [change (Z.of_nat 0) with 0; rewrite (en_zero ar HE); unfold sum_of; simpl; ring|].
    change (fold_right (a_add ar) (a_zero ar) (map (fun _ : A => c) l)) with (sum_of ar (map (fun _ : A => c) l)).
    rewrite IH. replace (Z.of_nat (S (length l))) with (1 + Z.of_nat (length l)) by lia.
    rewrite (en_add ar HE), (en_one ar HE). ring.
  Qed.

  Lemma sum_flat_map {A B} (F : B -> D) (h : A -> list B) l :
    sum_of ar (map F (flat_map h l)) = sum_of ar (map (fun x => sum_of ar (map F (h x))) l).
  Proof using HE HR'.
    induction l as [|x l IH]; [reflexivity|]. cbn [flat_map]. rewrite map_app, (sum_app ar HR'), IH. reflexivity.
  Qed.

  Lemma lap_is_laplace dims G g : in_grid dims g ->
    stencil_sum ar dims (insert_all (lap_entries (length dims)) []) G g = laplace ar dims G g.
  Proof using HE HR'.
    intros Hgr. rewrite stencil_sum_as_sum. destruct (lap_perm (length dims)) as (P & _).
    rewrite (sum_perm ar HR' _ _ (Permutation_map _ P)). cbn [lap_entries map fst snd].
    rewrite wrap_id by exact Hgr. unfold laplace. cbv zeta.
    rewrite dec2.
    assert (E : forall x l, sum_of ar (x :: l) = a_add ar x (sum_of ar l)) by reflexivity. rewrite E. clear E.
    rewrite sum_flat_map.
    set (A := fun j => a_add ar (G (wrap dims (shift g (unit_vec (length dims) j 1)))) (G (wrap dims (shift g (unit_vec (length dims) j (-1)))))).
    rewrite (map_ext (fun x => sum_of ar (map _ (lap_pair (length dims) x))) A).
    2:{ intros j. unfold A, lap_pair, sum_of. cbn [map fold_right fst snd]. rewrite dec1. ring. }
    rewrite (map_ext (fun j => a_sub ar _ _) (fun j => a_add ar (A j) (a_neg ar (a_add ar (G g) (G g))))).
    2:{ intros j. unfold A. ring. }
    rewrite (sum_add ar HR'), sum_const, seq_length. ring.
  Qed.

  Lemma lap_weights n : sum_of ar (map snd (insert_all (lap_entries n) [])) = a_zero ar.
  Proof using HE HR'.
    destruct (lap_perm n) as (P & _). rewrite (sum_perm ar HR' _ _ (Permutation_map snd P)).
    cbn [lap_entries map snd]. assert (E : forall x l, sum_of ar (x :: l) = a_add ar x (sum_of ar l)) by reflexivity. rewrite E. clear E.
    rewrite sum_flat_map. rewrite (map_ext (fun x => sum_of ar (map snd (lap_pair n x))) (fun _ => a_add ar (a_one ar) (a_one ar))).
    2:{ intros j. unfold lap_pair, sum_of. cbn [map fold_right snd]. rewrite dec1. ring. }
    rewrite sum_const, seq_length, dec2. ring.
  Qed.
End Lap.
