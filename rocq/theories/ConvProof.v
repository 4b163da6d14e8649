(** * Accuracy of the upwind scheme: truncation error and stability *)
From Coq Require Import List Reals Lra Lia RealField.
From Verif Require Import Cpp CppProof MaiModel MaiSpec Radix MaiProof CdModel CdSpec FilterModel FilterSpec FilterProof
  FilterSum RealArith LapSpec LapProof UpModel UpSpec UpProof UpExact ConvSpec.
From Coq Require Import List ZArith.
Import ListNotations.
Local Open Scope R_scope.
Local Arguments prodZ : simpl never.
Local Arguments Z.of_nat : simpl never.

(** ** Sums over the axes *)
Lemma sumax_ext nd F G : (forall j, (j < nd)%nat -> F j = G j) -> sum_axes nd F = sum_axes nd G.
Proof. intros H. unfold sum_axes. f_equal. apply map_ext_in. intros j Hj. apply in_seq in Hj. apply H. lia. Qed.
Lemma sumax_le nd F G : (forall j, (j < nd)%nat -> F j <= G j) -> sum_axes nd F <= sum_axes nd G.
Proof.
  intros H. unfold sum_axes. assert (H' : forall j, In j (seq 0 nd) -> F j <= G j) by (intros j Hj; apply in_seq in Hj; apply H; lia).
  induction (seq 0 nd) as [|j l IH]; cbn [map fold_right]; [lra|].
  specialize (IH (fun k Hk => H' k (or_intror Hk))). specialize (H' j (or_introl eq_refl)). lra.
Qed.
Lemma sumax_plus nd F G : sum_axes nd (fun j => F j + G j) = sum_axes nd F + sum_axes nd G.
Proof. unfold sum_axes. induction (seq 0 nd) as [|j l IH]; cbn [map fold_right]; [ring|rewrite IH; ring]. Qed.
Lemma sumax_scal nd a F : sum_axes nd (fun j => a * F j) = a * sum_axes nd F.
Proof. unfold sum_axes. induction (seq 0 nd) as [|j l IH]; cbn [map fold_right]; [ring|rewrite IH; ring]. Qed.
Lemma sumax_zero nd F : (forall j, (j < nd)%nat -> F j = 0) -> sum_axes nd F = 0.
Proof. intros H. rewrite (sumax_ext nd F (fun _ => 0 * 0)), sumax_scal by (intros; rewrite H by auto; ring). ring. Qed.
Lemma sumax_abs nd F : Rabs (sum_axes nd F) <= sum_axes nd (fun j => Rabs (F j)).
Proof.
  unfold sum_axes. induction (seq 0 nd) as [|j l IH]; cbn [map fold_right]; [rewrite Rabs_R0; lra|].
  eapply Rle_trans; [apply Rabs_triang|]. lra.
Qed.
Lemma sumax_one nd F j : (j < nd)%nat -> (forall i, (i < nd)%nat -> i <> j -> F i = 0) -> sum_axes nd F = F j.
Proof.
  intros Hj H. unfold sum_axes. assert (H' : forall i, In i (seq 0 nd) -> i <> j -> F i = 0) by (intros i Hi; apply in_seq in Hi; apply H; lia).
  assert (Hin : In j (seq 0 nd)) by (apply in_seq; lia). pose proof (seq_NoDup nd 0) as Hd.
  induction (seq 0 nd) as [|i l IH]; [destruct Hin|]. cbn [map fold_right]. inversion Hd as [|? ? Hn Hd']; subst.
  destruct Hin as [->|Hin].
  - assert (E : fold_right Rplus 0 (map F l) = 0); [|rewrite E; ring].
    assert (Hl : forall k, In k l -> F k = 0) by (intros k Hk; apply H'; [right; auto|intros ->; contradiction]).
    clear - Hl. induction l as [|k l IH]; cbn [map fold_right]; [reflexivity|]. rewrite IH by (intros; apply Hl; right; auto).
    rewrite Hl by (left; auto). ring.
  - rewrite IH; [|intros k Hk Hne; apply H'; [right; exact Hk|exact Hne]|exact Hin|exact Hd']. rewrite (H' i) by (try (left; reflexivity); intros ->; contradiction). ring.
Qed.
Lemma sumax_sum nd F : sum_of arR (map F (seq 0 nd)) = sum_axes nd F.
Proof. reflexivity. Qed.

Lemma abs_le_inv x b : Rabs x <= b -> - b <= x <= b.
Proof. intros H. unfold Rabs in H. destruct (Rcase_abs x); lra. Qed.

(** ** Profiles *)
Lemma smooth_ext nd M u du x y : smooth nd M u du -> (forall j, (j < nd)%nat -> x j = y j) -> u x = u y.
Proof.
  intros H E. specialize (H x (fun j => y j - x j)). cbv beta in H.
  rewrite (sumax_zero nd (fun j => du x j * _)) in H by (intros j Hj; rewrite (E j Hj); ring).
  rewrite (sumax_zero nd (fun j => Rabs _)) in H by (intros j Hj; rewrite (E j Hj), Rminus_diag_eq by reflexivity; apply Rabs_R0).
  assert (E2 : u (fun j => x j + (y j - x j)) = u x).
  { replace (M / 2 * 0 ^ 2) with 0 in H by ring. pose proof (Rabs_pos (u (fun j => x j + (y j - x j)) - u x - 0)).
    assert (Z : Rabs (u (fun j => x j + (y j - x j)) - u x - 0) <= 0) by lra. apply abs_le_inv in Z. lra. }
  rewrite <- E2. clear H E2.
  (* the two points agree everywhere *)
  f_equal. apply FunctionalExtensionality.functional_extensionality. intros j. ring.
Qed.

Lemma smooth_carried nd M u du v t : smooth nd M u du -> smooth nd M (carried v t u) (fun x => du (fun j => x j - nth j v 0 * t)).
Proof.
  intros H x h. specialize (H (fun j => x j - nth j v 0 * t) h). unfold carried.
  replace (fun j => x j + h j - nth j v 0 * t) with (fun j => x j - nth j v 0 * t + h j); [exact H|].
  apply FunctionalExtensionality.functional_extensionality. intros j. ring.
Qed.

Lemma periodic_carried nd lengths u v t : periodic nd lengths u -> periodic nd lengths (carried v t u).
Proof.
  intros H x j Hj. unfold carried. rewrite <- (H (fun i => x i - nth i v 0 * t) j Hj). f_equal.
  apply FunctionalExtensionality.functional_extensionality. intros i. unfold move. destruct (Nat.eqb i j); ring.
Qed.

Lemma carried_carried v s t u : carried v s (carried v t u) = carried v (t + s) u.
Proof.
  apply FunctionalExtensionality.functional_extensionality. intros x. unfold carried. f_equal.
  apply FunctionalExtensionality.functional_extensionality. intros i. ring.
Qed.

(** ** One step *)
Section Step.
  Variables (dims : list Z) (v lengths : list R) (dt : R).
  Hypothesis Hp : pos_axes dims.
  Hypothesis HL : forall j, (j < length dims)%nat -> 0 < nth j lengths 0.
  Hypothesis Hdt : 0 <= dt.
  Let nd := length dims.
  Let dx (j : nat) : R := nth j lengths 0 / IZR (nth j dims 0%Z).
  Let w (j : nat) : R := Rabs (nth j v 0) * dt / dx j.

  Lemma dx_pos j : (j < nd)%nat -> 0 < dx j.
  Proof using Hp HL. intros Hj. apply Rdiv_lt_0_compat; [apply HL; auto|]. apply IZR_lt. apply Hp. exact Hj. Qed.

  Lemma sample_neighbour M u du x0 g j s : smooth nd M u du -> periodic nd lengths u -> in_grid dims g -> (j < nd)%nat ->
    (s = 1 \/ s = -1)%Z -> sample dims lengths x0 u (neighbour dims g j s) = u (move (place dims lengths x0 g) j (IZR s * dx j)).
  Proof using Hp.
    intros Hu Hper Hg Hj Hs. unfold neighbour. rewrite wrap_unit by auto. unfold sample. apply in_grid_nth in Hg as [Lg Hg].
    set (o := nth j g 0%Z). set (n := nth j dims 0%Z). specialize (Hg j Hj). fold o n in Hg.
    assert (Hn : IZR n <> 0) by (apply not_0_IZR; lia).
    assert (Hplace : forall m i, place dims lengths x0 (upd g j m) i = move (place dims lengths x0 g) j (IZR (m - o) * dx j) i).
    { intros m i. unfold move, place. rewrite upd_nth by (rewrite Lg; auto). destruct (Nat.eqb_spec i j) as [->|]; [|reflexivity].
      fold o. fold (dx j). rewrite minus_IZR. ring. }
    assert (Hk : exists k, (k = 0 \/ k = 1 \/ k = -1)%Z /\ ((o + s) mod n = o + s + k * n)%Z).
    { destruct (Z.eq_dec (o + s) n) as [E|E]; [exists (-1)%Z; split; [lia|rewrite E, Z_mod_same_full; lia]|].
      destruct (Z.eq_dec (o + s) (-1)) as [E'|E'].
      - exists 1%Z. split; [lia|]. rewrite E'. rewrite <- (Z.mod_add (-1) 1 n) by lia. rewrite Z.mod_small; lia.
      - exists 0%Z. split; [lia|]. rewrite Z.mod_small; lia. }
    destruct Hk as (k & Hk & ->).
    assert (E1 : IZR (o + s + k * n - o) * dx j = IZR s * dx j + IZR k * nth j lengths 0).
    { replace (o + s + k * n - o)%Z with (s + k * n)%Z by ring. rewrite plus_IZR, mult_IZR. unfold dx. fold n. field. exact Hn. }
    rewrite (smooth_ext nd M u du _ (move (move (place dims lengths x0 g) j (IZR s * dx j)) j (IZR k * nth j lengths 0)) Hu).
    2: { intros i Hi. rewrite Hplace, E1. unfold move. destruct (Nat.eqb i j); ring. }
    set (y := move (place dims lengths x0 g) j (IZR s * dx j)).
    destruct Hk as [->|[->| ->]].
    - apply (smooth_ext nd M u du _ _ Hu). intros i Hi. unfold move. destruct (Nat.eqb i j); ring.
    - rewrite <- (Hper y j Hj). apply (smooth_ext nd M u du _ _ Hu). intros i Hi. unfold move. destruct (Nat.eqb i j); ring.
    - rewrite <- (Hper (move y j (-1 * nth j lengths 0)) j Hj). apply (smooth_ext nd M u du _ _ Hu). intros i Hi.
      unfold move. destruct (Nat.eqb i j); ring.
  Qed.

  (** The truncation error. *)
  Lemma truncation M u du x0 g : smooth nd M u du -> periodic nd lengths u -> in_grid dims g ->
    Rabs (upwind_formula arR dims v lengths dt (sample dims lengths x0 u) g - sample dims lengths x0 (carried v dt u) g)
    <= M / 2 * ((dt * sum_axes nd (fun j => Rabs (nth j v 0))) ^ 2 + dt * sum_axes nd (fun j => Rabs (nth j v 0) * dx j)).
  Proof using Hp HL Hdt.
    intros Hu Hper Hg. rewrite (formula_sum arR (en_ring _ arR_exact)). fold nd. rewrite sumax_sum. cbn [arR a_sub a_mul].
    set (y := place dims lengths x0 g). unfold sample at 1 3 4. fold y.
    set (sd := fun j => upwind_side arR (axis_velocity arR v j)).
    assert (Hsd : forall j, (sd j = 1 \/ sd j = -1)%Z) by (intros j; unfold sd, upwind_side; destruct (a_lt _ _ _); auto).
    set (rho := fun j => u (move y j (IZR (sd j) * dx j)) - u y - du y j * (IZR (sd j) * dx j)).
    assert (Hrho : forall j, (j < nd)%nat -> Rabs (rho j) <= M / 2 * (dx j) ^ 2).
    { intros j Hj. specialize (Hu y (fun i => if Nat.eqb i j then IZR (sd j) * dx j else 0)). cbv beta in Hu.
      rewrite (sumax_one nd (fun i => du y i * _) j Hj) in Hu.
      2: { intros i Hi Hne. apply Nat.eqb_neq in Hne. rewrite Hne. ring. }
      rewrite (sumax_one nd (fun i => Rabs _) j Hj) in Hu.
      2: { intros i Hi Hne. apply Nat.eqb_neq in Hne. rewrite Hne. apply Rabs_R0. }
      rewrite Nat.eqb_refl in Hu.
      replace (Rabs (IZR (sd j) * dx j) ^ 2) with (dx j ^ 2) in Hu.
      2: { rewrite pow2_abs. destruct (Hsd j) as [-> | ->]; ring. }
      unfold rho. replace (move y j (IZR (sd j) * dx j)) with (fun i => y i + (if Nat.eqb i j then IZR (sd j) * dx j else 0)); [exact Hu|].
      apply FunctionalExtensionality.functional_extensionality. intros i. unfold move. destruct (Nat.eqb i j); ring. }
    rewrite (sumax_ext nd (fun j => courant arR dims v lengths dt j * _)
      (fun j => dt * (du y j * nth j v 0) + - w j * rho j)).
    2: { intros j Hj. fold (sd j). rewrite (sample_neighbour M u du x0 g j (sd j) Hu Hper Hg Hj (Hsd j)). fold y.
         replace (u (move y j (IZR (sd j) * dx j)) - u y) with (du y j * (IZR (sd j) * dx j) + rho j) by (unfold rho; ring).
         rewrite Rmult_plus_distr_l. rewrite courant_w at 2. fold (dx j). fold (w j). f_equal.
         unfold courant, cell_size, axis_velocity. cbn [arR a_mul a_div a_ofZ a_zero]. fold (dx j).
         change (upwind_side arR (nth j v 0)) with (sd j). pose proof (dx_pos j Hj).
         assert (E : IZR (sd j) * IZR (sd j) = 1) by (destruct (Hsd j) as [-> | ->]; ring).
         replace (dt * nth j v 0 * IZR (sd j) / dx j * (du y j * (IZR (sd j) * dx j)))
           with (dt * (du y j * nth j v 0) * (IZR (sd j) * IZR (sd j))) by (field; lra). rewrite E. ring. }
    rewrite sumax_plus, sumax_scal.
    set (h := fun j => - (nth j v 0 * dt)). pose proof (Hu y h) as Hlast.
    assert (Ec : sample dims lengths x0 (carried v dt u) g = u (fun j => y j + h j)).
    { unfold sample, carried. fold y. apply (smooth_ext nd M u du _ _ Hu). intros j Hj. unfold h. ring. }
    unfold sample in Ec. fold y in Ec. rewrite Ec. clear Ec.
    set (rl := u (fun j => y j + h j) - u y - sum_axes nd (fun j => du y j * h j)) in *.
    assert (Eh : sum_axes nd (fun j => du y j * h j) = - dt * sum_axes nd (fun j => du y j * nth j v 0)).
    { rewrite <- sumax_scal. apply sumax_ext. intros j Hj. unfold h. ring. }
    assert (Ea : sum_axes nd (fun j => Rabs (h j)) = dt * sum_axes nd (fun j => Rabs (nth j v 0))).
    { rewrite <- sumax_scal. apply sumax_ext. intros j Hj. unfold h. rewrite Rabs_Ropp, Rabs_mult, (Rabs_right dt) by lra. ring. }
    rewrite Ea in Hlast.
    replace (u y - (dt * sum_axes nd (fun j => du y j * nth j v 0) + sum_axes nd (fun j => - w j * rho j)) - u (fun j => y j + h j))
      with (- sum_axes nd (fun j => - w j * rho j) - rl) by (unfold rl; rewrite Eh; ring).
    assert (Hs : Rabs (sum_axes nd (fun j => - w j * rho j)) <= M / 2 * (dt * sum_axes nd (fun j => Rabs (nth j v 0) * dx j))).
    { eapply Rle_trans; [apply sumax_abs|]. rewrite <- sumax_scal, <- sumax_scal. apply sumax_le. intros j Hj.
      pose proof (dx_pos j Hj) as Hx. assert (Hw : 0 <= w j) by (apply w_nn; auto). rewrite Rabs_mult, Rabs_Ropp, (Rabs_right (w j)) by lra.
      eapply Rle_trans; [apply Rmult_le_compat_l; [exact Hw|apply Hrho; exact Hj]|]. right. unfold w. field. lra. }
    eapply Rle_trans; [unfold Rminus; apply Rabs_triang|]. rewrite !Rabs_Ropp. lra.
  Qed.

  Hypothesis HC : sum_of arR (map w (seq 0 nd)) <= 1.

  Lemma formula_sub G H g : upwind_formula arR dims v lengths dt G g - upwind_formula arR dims v lengths dt H g =
    upwind_formula arR dims v lengths dt (fun h => G h - H h) g.
  Proof using Type.
    clear Hp HL Hdt HC. rewrite !formula_convex. rewrite !sumax_sum. fold nd.
    set (nb := fun j => neighbour dims g j (upwind_side arR (axis_velocity arR v j))).
    set (ww := fun j => Rabs (nth j v 0) * dt / (nth j lengths 0 / IZR (nth j dims 0%Z))).
    rewrite (sumax_ext nd (fun j => _ * (G _ - H _)) (fun j => ww j * G (nb j) + -1 * (ww j * H (nb j)))).
    2: { intros j Hj. unfold ww, nb. ring. }
    rewrite sumax_plus, sumax_scal. fold nb. change (fun j => Rabs (nth j v 0) * dt / (nth j lengths 0 / IZR (nth j dims 0%Z)) * G (neighbour dims g j (upwind_side arR (axis_velocity arR v j)))) with (fun j => ww j * G (nb j)).
    change (fun j => Rabs (nth j v 0) * dt / (nth j lengths 0 / IZR (nth j dims 0%Z)) * H (neighbour dims g j (upwind_side arR (axis_velocity arR v j)))) with (fun j => ww j * H (nb j)).
    ring.
  Qed.

  (** Any number of steps: the errors add up. *)
  Lemma error_bound M u du x0 k : smooth nd M u du -> periodic nd lengths u -> forall g, in_grid dims g ->
    Rabs (upwind_iter arR k dims v lengths dt (sample dims lengths x0 u) g - sample dims lengths x0 (carried v (INR k * dt) u) g)
    <= INR k * (M / 2 * ((dt * sum_axes nd (fun j => Rabs (nth j v 0))) ^ 2 + dt * sum_axes nd (fun j => Rabs (nth j v 0) * dx j))).
  Proof using Hp HL Hdt HC.
    intros Hu Hper. set (T := M / 2 * _). induction k as [|k IH]; intros g Hg.
    - cbn [upwind_iter INR]. rewrite !Rmult_0_l.
      assert (E : sample dims lengths x0 (carried v 0 u) g = sample dims lengths x0 u g).
      { unfold sample, carried. apply (smooth_ext nd M u du _ _ Hu). intros j Hj. ring. }
      rewrite E, Rminus_diag_eq, Rabs_R0 by reflexivity. lra.
    - cbn [upwind_iter]. set (uk := carried v (INR k * dt) u) in *.
      set (Gk := upwind_iter arR k dims v lengths dt (sample dims lengths x0 u)) in *.
      assert (Ec : carried v (INR (S k) * dt) u = carried v dt uk).
      { unfold uk. rewrite carried_carried. f_equal. rewrite S_INR. ring. }
      rewrite Ec.
      pose proof (truncation M uk _ x0 g (smooth_carried nd M u du v (INR k * dt) Hu) (periodic_carried nd lengths u v (INR k * dt) Hper) Hg) as Ht.
      fold T in Ht.
      assert (Hd : Rabs (upwind_formula arR dims v lengths dt Gk g - upwind_formula arR dims v lengths dt (sample dims lengths x0 uk) g) <= INR k * T).
      { rewrite formula_sub. apply Rabs_le.
        apply formula_bounds; auto. intros h Hh. specialize (IH h Hh). apply abs_le_inv. exact IH. }
      rewrite S_INR. replace (upwind_formula arR dims v lengths dt Gk g - sample dims lengths x0 (carried v dt uk) g)
        with ((upwind_formula arR dims v lengths dt Gk g - upwind_formula arR dims v lengths dt (sample dims lengths x0 uk) g)
              + (upwind_formula arR dims v lengths dt (sample dims lengths x0 uk) g - sample dims lengths x0 (carried v dt uk) g)) by ring.
      eapply Rle_trans; [apply Rabs_triang|]. lra.
  Qed.
End Step.
