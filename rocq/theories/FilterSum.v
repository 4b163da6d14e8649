(** * Sums over a distributed grid in exact arithmetic *)
From Coq Require Import Permutation Ring_theory Ring.
From Verif Require Import Cpp CppProof MaiModel MaiSpec Radix MaiProof CdModel CdSpec CdProof FilterModel FilterSpec FilterProof FilterRank FilterWorld.
Local Open Scope Z_scope.
Local Arguments prodZ : simpl never.
Local Arguments Z.of_nat : simpl never.

(** Exact arithmetic: the ring laws hold. *)
Definition exact_arith {D} (ar : arith D) : Prop :=
  ring_theory (a_zero ar) (a_one ar) (a_add ar) (a_mul ar) (a_sub ar) (a_neg ar) (@eq D).

Definition sum_of {D} (ar : arith D) (l : list D) : D := fold_right (a_add ar) (a_zero ar) l.

Section Ring.
  Context {D : Type} (ar : arith D).
  Hypothesis HR : exact_arith ar.
  Let HR' : ring_theory (a_zero ar) (a_one ar) (a_add ar) (a_mul ar) (a_sub ar) (a_neg ar) (@eq D) := HR.
  Add Ring Dring : HR'.

  Declare Scope d_scope.
  Local Notation "0" := (a_zero ar) : d_scope.
  Local Infix "+" := (a_add ar) : d_scope.
  Local Infix "*" := (a_mul ar) : d_scope.
  Local Delimit Scope d_scope with d.

  Lemma sum_app l l' : sum_of ar (l ++ l') = (sum_of ar l + sum_of ar l')%d.
  Proof using HR HR'. induction l as [|x l IH]; simpl; [ring|]. rewrite IH. ring. Qed.

  Lemma sum_fold_left l a : fold_left (a_add ar) l a = (a + sum_of ar l)%d.
  Proof using HR HR'. revert a; induction l as [|x l IH]; intros a; simpl; [ring|]. rewrite IH. ring. Qed.

  Lemma sum_perm l l' : Permutation l l' -> sum_of ar l = sum_of ar l'.
  Proof using HR HR'. induction 1; simpl; [reflexivity|congruence|ring|congruence]. Qed.

  Lemma sum_reduction l x : reduction (a_add ar) l x -> x = sum_of ar l.
  Proof using HR HR'.
    induction 1 as [x|l l1 l2 a b Hp H1 IH1 H2 IH2]; simpl; [ring|].
    rewrite (sum_perm _ _ Hp), sum_app. congruence.
  Qed.

  Lemma sum_concat (ls : list (list D)) : sum_of ar (map (sum_of ar) ls) = sum_of ar (concat ls).
  Proof using HR HR'. induction ls as [|l ls IH]; simpl; [reflexivity|]. rewrite sum_app. congruence. Qed.

  Lemma sum_add {A} (F G : A -> D) l :
    sum_of ar (map (fun x => F x + G x)%d l) = (sum_of ar (map F l) + sum_of ar (map G l))%d.
  Proof using HR HR'. induction l as [|x l IH]; simpl; [ring|]. rewrite IH. ring. Qed.

  Lemma sum_scale {A} c (G : A -> D) l : sum_of ar (map (fun x => c * G x)%d l) = (c * sum_of ar (map G l))%d.
  Proof using HR HR'. induction l as [|x l IH]; simpl; [ring|]. rewrite IH. ring. Qed.

  Lemma sum_zero {A} (l : list A) : sum_of ar (map (fun _ => 0%d) l) = 0%d.
  Proof using HR HR'. induction l as [|x l IH]; simpl; [ring|]. rewrite IH. ring. Qed.

  (** Displacing all the cells of the periodic grid permutes them. *)
  Lemma shift_perm dims off :
    (forall j, (j < length dims)%nat -> 0 < nth j dims 0) -> length off = length dims ->
    Permutation (map (fun g => wrap dims (shift g off)) (col_major (repeat 0 (length dims)) dims))
                (col_major (repeat 0 (length dims)) dims).
  Proof using Type.
    intros Hp Hl. set (L := col_major (repeat 0 (length dims)) dims).
    assert (HL : forall g, In g L <-> in_grid dims g).
    { intros g. apply (in_nested_loops false). apply repeat_length. }
    assert (Hnd : NoDup L) by (apply (NoDup_nested_loops false)).
    apply NoDup_Permutation_bis.
    - assert (Hinj : forall l, (forall g, In g l -> In g L) -> NoDup l -> NoDup (map (fun g => wrap dims (shift g off)) l)).
      { induction l as [|g l IH]; intros Hin Hn; simpl; [constructor|]. inversion Hn as [|x y Hni Hnl]; subst.
        constructor; [|apply IH; auto; intros h Hh; apply Hin; right; auto].
        intros H. apply in_map_iff in H as (h & E & Hh). apply Hni. replace g with h; auto.
        assert (Hgg : in_grid dims g) by (apply HL, Hin; left; auto).
        assert (Hgh : in_grid dims h) by (apply HL, Hin; right; auto).
        apply in_grid_nth in Hgg as [L1 G1]. apply in_grid_nth in Hgh as [L2 G2].
        apply (nth_ext' 0); [congruence|]. intros j Hj.
        apply (f_equal (fun v => nth j v 0)) in E.
        rewrite !wrap_nth, !shift_nth in E by (rewrite ?shift_length; lia).
        specialize (G1 j ltac:(lia)). specialize (G2 j ltac:(lia)). specialize (Hp j ltac:(lia)).
        set (a := nth j h 0) in *. set (c := nth j g 0) in *. set (o := nth j off 0) in *. set (m := nth j dims 0) in *.
        pose proof (Z.div_mod (a + o) m ltac:(lia)). pose proof (Z.div_mod (c + o) m ltac:(lia)).
        assert (m * ((a + o) / m - (c + o) / m) = a - c) by lia.
        assert ((a + o) / m - (c + o) / m = 0) by nia. nia. }
      apply Hinj; auto.
    - rewrite map_length. lia.
    - intros h Hh. apply in_map_iff in Hh as (g & <- & Hgi). apply HL. apply HL in Hgi. apply in_grid_nth in Hgi as [L1 _].
      apply wrap_in_grid; auto. rewrite shift_length; lia.
  Qed.

  Definition grid_cells (dims : list Z) : list (list Z) := col_major (repeat 0 (length dims)) dims.

  Lemma stencil_total dims st G :
    (forall j, (j < length dims)%nat -> 0 < nth j dims 0) -> (forall off w, In (off, w) st -> length off = length dims) ->
    sum_of ar (map (stencil_sum ar dims st G) (grid_cells dims)) =
    (sum_of ar (map snd st) * sum_of ar (map G (grid_cells dims)))%d.
  Proof using HR HR'.
    intros Hp. 
    assert (H : forall (F : list Z -> D), (forall off w, In (off, w) st -> length off = length dims) ->
       sum_of ar (map (fun g => fold_left (fun acc p => a_add ar acc (a_mul ar (snd p) (G (wrap dims (shift g (fst p)))))) st (F g)) (grid_cells dims)) =
       (sum_of ar (map F (grid_cells dims)) + sum_of ar (map snd st) * sum_of ar (map G (grid_cells dims)))%d).
    { induction st as [|[off w] l IH]; intros F Hl; simpl.
      - change (map (fun g => F g) (grid_cells dims)) with (map F (grid_cells dims)). ring.
      - rewrite (IH (fun g => a_add ar (F g) (a_mul ar w (G (wrap dims (shift g off)))))) by (intros o v Ho; apply (Hl o v); right; auto).
        rewrite sum_add, sum_scale.
        rewrite <- (map_map (fun g => wrap dims (shift g off)) G). unfold grid_cells.
        rewrite (sum_perm _ _ (Permutation_map G (shift_perm dims off Hp (Hl off w (or_introl eq_refl))))).
        ring. }
    intros Hl. unfold stencil_sum. rewrite (H (fun _ => a_zero ar)) by auto. rewrite sum_zero. ring.
  Qed.

  Lemma stencil_const dims st c g :
    stencil_sum ar dims st (fun _ => c) g = (sum_of ar (map snd st) * c)%d.
  Proof using HR HR'.
    unfold stencil_sum.
    assert (H : forall a, fold_left (fun acc p => a_add ar acc (a_mul ar (snd p) c)) st a = (a + sum_of ar (map snd st) * c)%d).
    { induction st as [|[off w] l IH]; intros a; simpl; [ring|]. rewrite IH. ring. }
    rewrite H. ring.
  Qed.

  Section Dist.
    Context (dims : list Z) (n : Z) (b : list Z) (st : list (list Z * D)) (xmins xmaxs : list D).
    Hypothesis Hg : grid_ok dims.
    Hypothesis Hn : 1 <= n <= 2 ^ 30.
    Hypothesis Hb : is_decomp n dims b.

    Lemma cells_perm :
      Permutation (flat_map (fun i => nested_loops false (beg_of dims b (Z.of_nat i)) (end_of dims b (Z.of_nat i))) (seq 0 (Z.to_nat n)))
                  (grid_cells dims).
    Proof using Hg Hn Hb.
      assert (Hlen : forall r, length (beg_of dims b r) = length (end_of dims b r))
        by (intros r; rewrite (beg_of_length n), (end_of_length n); auto).
      assert (Hin : forall r g, In g (nested_loops false (beg_of dims b r) (end_of dims b r)) <-> in_box (beg_of dims b r) (end_of dims b r) g)
        by (intros r g; apply in_nested_loops; auto).
      assert (Hown : forall r g, 0 <= r < n -> In g (nested_loops false (beg_of dims b r) (end_of dims b r)) ->
         in_grid dims g /\ r = owner dims b g).
      { intros r g Hr H. apply Hin in H. pose proof (box_grid dims n b Hg Hn Hb r g H) as Hgr. split; auto.
        apply (owner_iff n); auto. }
      apply NoDup_Permutation.
      - apply NoDup_flat_map; [apply seq_NoDup|intros; apply NoDup_nested_loops|].
        intros i j g Hi Hj H1 H2. apply in_seq in Hi, Hj. apply Hown in H1; [|lia]. apply Hown in H2; [|lia]. lia.
      - apply (NoDup_nested_loops false).
      - intros g. rewrite in_flat_map. unfold grid_cells.
        rewrite (in_nested_loops false (repeat 0 (length dims)) dims g) by apply repeat_length. split.
        + intros (i & Hi & H). apply in_seq in Hi. apply Hown in H; [|lia]. apply H.
        + intros H. pose proof (owner_range n dims b g Hg Hb H) as HO. exists (Z.to_nat (owner dims b g)).
          split; [apply in_seq; lia|]. rewrite Z2Nat.id by lia. apply Hin. apply (owner_iff n); auto.
    Qed.

    Lemma localSums_ok F w (input : bool) :
      length w = Z.to_nat n ->
      (forall i f, nth_error w i = Some f -> fok dims n b st xmins xmaxs (Z.of_nat i) (sides_of st) f /\
          (if input then f_inData f else f_outData f) =
           map F (nested_loops false (beg_of dims b (Z.of_nat i)) (end_of dims b (Z.of_nat i)))) ->
      exists sums, world_localSums ar w input = Ok sums /\ length sums = length w /\
        sum_of ar sums = sum_of ar (map F (grid_cells dims)).
    Proof using HR HR' Hg Hn Hb.
      intros Hl Hw. unfold world_localSums.
      destruct (mapM_exists (fun f => ' (s, _) <- filter_localSum ar f input ;; Ok s)
        (fun i s => s = sum_of ar (map F (nested_loops false (beg_of dims b (Z.of_nat i)) (end_of dims b (Z.of_nat i)))))  w)
        as (sums & E & Hls & Hs).
      - intros i f Hi. destruct (Hw i f Hi) as (Hf & Ed).
        destruct (localSum_ok ar dims n b st xmins xmaxs Hg Hn Hb (Z.of_nat i) f input _ Hf eq_refl) as (f' & ->).
        cbn [bind]. eexists. split; [reflexivity|]. rewrite Ed, sum_fold_left. ring.
      - exists sums. split; [exact E|]. split; [exact Hls|].
        rewrite <- (sum_perm _ _ (Permutation_map F cells_perm)).
        rewrite flat_map_concat_map, concat_map, map_map, <- sum_concat, map_map.
        f_equal. apply (nth_ext' (a_zero ar)).
        + rewrite map_length, seq_length. lia.
        + intros i Hi. destruct (nth_error sums i) as [s|] eqn:Es; [|apply nth_error_None in Es; lia].
          rewrite (nth_error_nth _ _ _ Es). destruct (Hs i s Es) as (-> & _).
          rewrite map_seq_nth by lia. reflexivity.
    Qed.
  End Dist.
End Ring.
