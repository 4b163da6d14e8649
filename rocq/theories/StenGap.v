(** * Distance between a stencil applied in double precision and the same stencil with exact weights and exact arithmetic *)
From Coq Require Import Reals ZArith Lia Lra Psatz Floats.SpecFloat List Permutation.
From Flocq Require Import Core BinarySingleNaN.
From Verif Require Import Cpp CdModel MaiSpec MaiProof FilterSpec FilterProof FilterSum RealArith UpSpec UpExact Ieee Double DblSpec DblProof DblField DblSten.
Import ListNotations.
Local Open Scope R_scope.

Section StenGap.
  Variables (dims : list Z) (st : list (list Z * spec_float)).
  Hypothesis Hp : forall j, (j < length dims)%nat -> (0 < nth j dims 0)%Z.
  Hypothesis Hl : forall off w, In (off, w) st -> length off = length dims.
  Hypothesis HW : forall off w, In (off, w) st -> exists r, double_value w r /\ 0 <= r.
  Hypothesis H1 : fold_left (fun a w => rnd64 (a + w)) (map (fun p => val (snd p)) st) 0 <= 1.
  Hypothesis H4 : (length st <= 4)%nat.
  Hypothesis HD : Rabs (rsum (map (fun p => val (snd p)) st) - 1) <= / 2 * eps + / 2 * eps.
  (** the exact weights *)
  Variable e : list Z * spec_float -> R.
  Hypothesis E0 : forall p, In p st -> 0 <= e p.
  Hypothesis E1 : rsum (map e st) = 1.
  Hypothesis E2 : rsum (map (fun p => Rabs (val (snd p) - e p)) st) <= eps.
  Notation weighted w := (map (fun p => (fst p, w p)) st).
  Notation exact := (stencil_sum arR dims (weighted e)).
  Notation nb g p := (wrap dims (shift g (fst p))).
  Notation N := (INR (length (grid_cells dims))).

  Definition ggap (F H : list Z -> R) : R := rsum (map (fun g => Rabs (F g - H g)) (grid_cells dims)).

  Lemma weighted_sum w F g : stencil_sum arR dims (weighted w) F g = rsum (map (fun p => w p * F (nb g p)) st).
  Proof using Type.
    unfold stencil_sum. assert (Q : forall l a, fold_left (fun acc p => a_add arR acc (a_mul arR (snd p) (F (wrap dims (shift g (fst p))))))
      (map (fun p => (fst p, w p)) l) a = a + rsum (map (fun p => w p * F (nb g p)) l)).
    { induction l as [|p l IH]; intros a; cbn [map fold_left]; [unfold rsum; simpl; lra|]. rewrite IH. cbn [fst snd arR a_add a_mul].
      change (rsum (?x :: ?k)) with (x + rsum k). lra. }
    rewrite Q. cbn [arR a_zero]. lra.
  Qed.

  Lemma weighted_total w F : rsum (map (fun g => rsum (map (fun p => w p * F (nb g p)) st)) (grid_cells dims)) = rsum (map w st) * gtotal dims F.
  Proof using Hp Hl.
    assert (L : forall off x, In (off, x) (weighted w) -> length off = length dims).
    { intros off x Hin. apply in_map_iff in Hin as ((o & v) & E & Hin). injection E as <- _. exact (Hl o v Hin). }
    pose proof (stencil_total arR (en_ring _ arR_exact) dims (weighted w) F Hp L) as Q. cbn [arR a_mul] in Q. rewrite map_map in Q. cbn [snd] in Q.
    unfold gtotal. etransitivity; [|exact Q]. change (sum_of arR) with rsum. f_equal. apply map_ext. intros g. symmetry. apply weighted_sum.
  Qed.

  Lemma ggap_triang F G H : ggap F H <= ggap F G + ggap G H.
  Proof using Type.
    unfold ggap. rewrite <- rsum_add. apply rsum_le. intros g _. replace (F g - H g) with ((F g - G g) + (G g - H g)) by ring. apply Rabs_triang.
  Qed.

  Lemma sten_contracts F H : ggap (exact F) (exact H) <= ggap F H.
  Proof using Hp Hl E0 E1.
    unfold ggap at 2. pose proof (weighted_total e (fun g => Rabs (F g - H g))) as Q. rewrite E1, Rmult_1_l in Q. unfold gtotal in Q. rewrite <- Q.
    unfold ggap. apply rsum_le. intros g _. rewrite !weighted_sum.
    replace (rsum (map (fun p => e p * F (nb g p)) st) - rsum (map (fun p => e p * H (nb g p)) st)) with (rsum (map (fun p => e p * (F (nb g p) - H (nb g p))) st)).
    2: { replace (rsum (map (fun p => e p * F (nb g p)) st) - rsum (map (fun p => e p * H (nb g p)) st)) with (rsum (map (fun p => e p * F (nb g p)) st) + -1 * rsum (map (fun p => e p * H (nb g p)) st)) by ring.
         rewrite <- rsum_scale, <- rsum_add. f_equal. apply map_ext. intros p. ring. }
    eapply Rle_trans; [apply rsum_abs|]. apply rsum_le. intros p Hin. rewrite Rabs_mult, (Rabs_pos_eq (e p)) by (apply E0, Hin). apply Rle_refl.
  Qed.

  Lemma sten_rounds G F : field_is dims G F -> ggap (srounded dims st F) (exact F) <= 71 / 10 * eps * gtotal dims F + 16 * eta * N.
  Proof using Hp Hl HW H1 H4 HD E2.
    clear E0 E1. intros HF. pose proof eps_small as E. pose proof eta_tiny as T. pose proof (gtotal_nn dims G F HF) as T0.
    eapply Rle_trans; [apply (ggap_triang _ (stencil_sum arR dims (reals st) F))|].
    assert (A : ggap (srounded dims st F) (stencil_sum arR dims (reals st) F) <= 6 * eps * ((1 + eps) * gtotal dims F) + 16 * eta * N).
    { unfold ggap. eapply Rle_trans; [apply (rsum_le _ (fun g => 6 * eps * stencil_sum arR dims (reals st) F g + 16 * eta))|].
      - intros g Hg. apply (sten_error dims st Hp Hl HW H1 H4 G); [exact HF|apply in_cells', Hg].
      - rewrite rsum_add, rsum_scale, rsum_const. pose proof (exact_total dims st Hp Hl F) as X. unfold gtotal at 1 in X. rewrite X.
        assert (rsum (map (fun p => val (snd p)) st) * gtotal dims F <= (1 + eps) * gtotal dims F) by (apply Rmult_le_compat_r; [exact T0|apply Rabs_le_inv in HD; lra]).
        assert (6 * eps * (rsum (map (fun p => val (snd p)) st) * gtotal dims F) <= 6 * eps * ((1 + eps) * gtotal dims F)) by (apply Rmult_le_compat_l; lra). lra. }
    assert (B : ggap (stencil_sum arR dims (reals st) F) (exact F) <= eps * gtotal dims F).
    { apply Rle_trans with (rsum (map (fun g => rsum (map (fun p => Rabs (val (snd p) - e p) * F (nb g p)) st)) (grid_cells dims))).
      - unfold ggap. apply rsum_le. intros g Hg. apply (in_cells' dims) in Hg. change (reals st) with (weighted (fun p => val (snd p))). rewrite !weighted_sum.
        replace (rsum (map (fun p => val (snd p) * F (nb g p)) st) - rsum (map (fun p => e p * F (nb g p)) st)) with (rsum (map (fun p => (val (snd p) - e p) * F (nb g p)) st)).
        2: { replace (rsum (map (fun p => val (snd p) * F (nb g p)) st) - rsum (map (fun p => e p * F (nb g p)) st)) with (rsum (map (fun p => val (snd p) * F (nb g p)) st) + -1 * rsum (map (fun p => e p * F (nb g p)) st)) by ring.
             rewrite <- rsum_scale, <- rsum_add. f_equal. apply map_ext. intros p. ring. }
        eapply Rle_trans; [apply rsum_abs|]. apply rsum_le. intros p Hin. rewrite Rabs_mult, (Rabs_pos_eq (F _)); [apply Rle_refl|]. apply HF. exact (nb_in dims st Hp Hl g p Hg Hin).
      - rewrite (weighted_total (fun p => Rabs (val (snd p) - e p))). apply Rmult_le_compat_r; [exact T0|exact E2]. }
    assert (eS : 0 <= eps * gtotal dims F) by (apply Rmult_le_pos; lra).
    assert (eps * (eps * gtotal dims F) <= / 1000000 * (eps * gtotal dims F)) by (apply Rmult_le_compat_r; lra).
    replace (6 * eps * ((1 + eps) * gtotal dims F)) with (6 * (eps * gtotal dims F) + 6 * (eps * (eps * gtotal dims F))) in A by ring. lra.
  Qed.

  Lemma sten_iter_gap n G F : field_is dims G F -> gtotal dims F = 1 -> N <= 2 ^ 31 -> INR n <= 2 ^ 31 ->
    ggap (srounded_iter dims st n F) (stencil_iter arR n dims (weighted e) F) <= 8 * INR n * eps.
  Proof using Hp Hl HW H1 H4 HD E0 E1 E2.
    intros HF HT HN Hn. pose proof eps_small as E. pose proof eta_tiny as T.
    assert (T31 : 2 ^ 31 * eps <= / 1000000) by (unfold eps; simpl; lra).
    assert (ET : 16 * eta * N <= eps / 4).
    { apply Rle_trans with (16 * (eps * eps * eps) * 2 ^ 31).
      - apply Rmult_le_compat; try lra. apply pos_INR.
      - replace (16 * (eps * eps * eps) * 2 ^ 31) with (16 * eps * (eps * (2 ^ 31 * eps))) by ring.
        assert (eps * (2 ^ 31 * eps) <= / 1000000 * / 1000000) by (apply Rmult_le_compat; lra).
        apply Rle_trans with (16 * eps * (/ 1000000 * / 1000000)); [apply Rmult_le_compat_l; lra|lra]. }
    induction n as [|n IH].
    - cbn [srounded_iter stencil_iter]. unfold ggap. rewrite (map_ext _ (fun g => 0)) by (intros g; rewrite Rminus_eq_0; apply Rabs_R0). rewrite rsum_const. simpl INR. lra.
    - rewrite S_INR in *. pose proof (pos_INR n) as N0. specialize (IH ltac:(lra)). cbn [srounded_iter stencil_iter].
      pose proof (sten_iter_field dims st Hp Hl HW H1 n _ _ HF) as HFn.
      pose proof (sten_iter_total dims st Hp Hl HW H1 H4 HD n _ _ HF HT HN ltac:(lra)) as HT'.
      set (Fn := srounded_iter dims st n F) in *.
      assert (Ne : INR n * eps <= / 1000000) by (apply Rle_trans with (2 ^ 31 * eps); [apply Rmult_le_compat_r; lra|exact T31]).
      assert (B : gtotal dims Fn <= 1 + / 100000) by (apply Rabs_le_inv in HT'; lra).
      eapply Rle_trans; [apply (ggap_triang _ (exact Fn))|].
      pose proof (sten_rounds _ _ HFn) as R1. pose proof (sten_contracts Fn (stencil_iter arR n dims (weighted e) F)) as R2.
      assert (71 / 10 * eps * gtotal dims Fn <= 71 / 10 * eps * (1 + / 100000)) by (apply Rmult_le_compat_l; lra).
      lra.
  Qed.
End StenGap.
