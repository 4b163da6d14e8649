(** * upwindMpi in IEEE double precision: property C69 *)
From Coq Require Import Reals ZArith Znumtheory Lia Lra Psatz Floats.SpecFloat List Permutation.
From Flocq Require Import Core BinarySingleNaN.
From Verif Require Import Cpp MaiSpec Radix MaiProof CdModel CdSpec FilterModel FilterSpec FilterProof FilterSum FilterProg FilterProps RealArith UpModel UpSpec UpProof UpExact UpMpiModel UpMpiSpec UpMpiProof UpMpiProps
  Ieee Double DblSpec DblProof DblField DblSten DblProps.
From Coq Require Import List.
Import ListNotations.
Local Open Scope R_scope.
Local Arguments prodZ : simpl never.
Local Arguments Z.of_nat : simpl never.

(** ** The weights of the driver *)
Notation tenth := (S754_finite false 7205759403792794 (-56)).
Notation seven := (S754_finite false 6305039478318695 (-53)).
Definition um_weights : list (list Z * spec_float) :=
  [([-1; 0; 0]%Z, tenth); ([0; -1; 0]%Z, tenth); ([0; 0; -1]%Z, tenth); ([0; 0; 0]%Z, seven)].

Lemma dv_tenth' : double_value tenth (IZR 7205759403792794 * / 2 ^ 56).
Proof. split; [reflexivity|]. split; [reflexivity|]. cbn [SF2R cond_Zopp]. unfold F2R. cbn [Fnum Fexp]. rewrite bpow_powerRZ. reflexivity. Qed.
Lemma dv_seven : double_value seven (IZR 6305039478318695 * / 2 ^ 53).
Proof. split; [reflexivity|]. split; [reflexivity|]. cbn [SF2R cond_Zopp]. unfold F2R. cbn [Fnum Fexp]. rewrite bpow_powerRZ. reflexivity. Qed.

Lemma power_sizes m : (0 < m)%Z -> (m * m * m < 2 ^ 31)%Z -> (m | 2 ^ 64)%Z -> In m [1; 2; 4; 8; 16; 32; 64; 128; 256; 512; 1024]%Z.
Proof.
  intros H0 H3 (q & Hq).
  assert (P : forall n m, (0 < m)%Z -> (m | 2 ^ Z.of_nat n)%Z -> exists j, (j <= n)%nat /\ m = (2 ^ Z.of_nat j)%Z).
  { clear. induction n as [|n IH]; intros m Hm Hd.
    - exists 0%nat. split; [lia|]. change (2 ^ Z.of_nat 0)%Z with 1%Z in *. apply Z.divide_1_r in Hd. lia.
    - destruct (Z.Even_or_Odd m) as [[h Eh]|[h Eh]].
      + destruct (IH h ltac:(lia)) as (j & Hj & Ej).
        { rewrite Nat2Z.inj_succ, Z.pow_succ_r in Hd by lia. rewrite Eh in Hd. apply Z.mul_divide_cancel_l in Hd; [exact Hd|lia]. }
        exists (S j). split; [lia|]. rewrite Nat2Z.inj_succ, Z.pow_succ_r by lia. lia.
      + destruct (IH m Hm) as (j & Hj & Ej).
        { rewrite Nat2Z.inj_succ, Z.pow_succ_r in Hd by lia. apply Gauss with 2%Z; [exact Hd|].
          apply rel_prime_sym, prime_rel_prime; [exact prime_2|]. intros (x & Hx). lia. }
        exists j. split; [lia|exact Ej]. }
  destruct (P 64%nat m H0 ltac:(exists q; exact Hq)) as (j & Hj & E).
  assert (m <= 1290)%Z by nia. assert (J : (j <= 10)%nat).
  { destruct (le_lt_dec j 10) as [L|L]; [exact L|]. exfalso. assert (2 ^ 11 <= m)%Z by (rewrite E; apply Z.pow_le_mono_r; lia). lia. }
  rewrite E. clear - J. do 11 (destruct j as [|j]; [cbv; tauto|]). lia.
Qed.

Lemma um_stencil_doubles m deltas signs dt st : (0 < m)%Z -> (m * m * m < 2 ^ 31)%Z -> (m | 2 ^ 64)%Z ->
  um_axes arD [one; one; one] [one; one; one] 3 m = Ok (deltas, signs, dt) -> um_stencil arD 3 [one; one; one] deltas signs dt = Ok st ->
  st = um_weights.
Proof.
  intros H0 H3 Hd E1 E2. pose proof (power_sizes m H0 H3 Hd) as Hin.
  assert (Q : (' (deltas, signs, dt) <- um_axes arD [one; one; one] [one; one; one] 3 m ;; um_stencil arD 3 [one; one; one] deltas signs dt) = Ok st) by (rewrite E1; exact E2).
  clear E1 E2. cbn [In] in Hin. repeat (destruct Hin as [<-|Hin]; [vm_compute in Q; injection Q as <-; reflexivity|]). destruct Hin.
Qed.

Lemma um_weights_ok : forall off w, In (off, w) um_weights -> exists r, double_value w r /\ 0 <= r.
Proof.
  intros off w Hin. unfold um_weights in Hin. cbn [In] in Hin.
  destruct Hin as [E|[E|[E|[E|[]]]]]; injection E as <- <-; [exists (IZR 7205759403792794 * / 2 ^ 56)..|exists (IZR 6305039478318695 * / 2 ^ 53)];
    (split; [try exact dv_tenth'; try exact dv_seven|]); apply Rmult_le_pos; try (apply IZR_le; discriminate); left; apply Rinv_0_lt_compat, pow_lt; lra.
Qed.

Lemma um_weights_one : fold_left (fun a w => rnd64 (a + w)) (map (fun p => val (snd p)) um_weights) 0 <= 1.
Proof.
  assert (Q : double_value (fold_left (a_add arD) (map snd um_weights) (a_zero arD)) (fold_left (fun a w => rnd64 (a + w)) (map (fun p => val (snd p)) um_weights) 0)).
  { unfold um_weights. cbn [map snd fold_left]. rewrite (fmt_val _ _ dv_tenth'), (fmt_val _ _ dv_seven).
    assert (T53 : 1000000 <= 2 ^ 53) by (simpl; lra). pose proof (rnd_error) as RE. pose proof eps_small as E. pose proof eta_tiny as T.
    assert (B1 : 0 <= IZR 7205759403792794 * / 2 ^ 56 <= 2 / 10) by (simpl; lra). assert (B2 : 0 <= IZR 6305039478318695 * / 2 ^ 53 <= 1) by (simpl; lra).
    set (c := IZR 7205759403792794 * / 2 ^ 56) in *. set (s := IZR 6305039478318695 * / 2 ^ 53) in *.
    assert (F : forall k x, fmt k -> x <= k -> rnd64 x <= k) by (intros k x Fk Hx; rewrite <- (rnd_fmt k Fk); apply rnd_le; exact Hx).
    assert (F2 : fmt 2). { change 2 with (bpow radix2 1). apply generic_format_bpow. vm_compute. discriminate. }
    assert (X1 : 0 <= rnd64 (0 + c) <= 1) by (split; [apply rnd_nn; lra|apply F; [exact fmt_1|lra]]).
    assert (X2 : 0 <= rnd64 (rnd64 (0 + c) + c) <= 2) by (split; [apply rnd_nn; lra|apply F; [exact F2|lra]]).
    assert (F4 : fmt 4). { change 4 with (bpow radix2 2). apply generic_format_bpow. vm_compute. discriminate. }
    assert (X3 : 0 <= rnd64 (rnd64 (rnd64 (0 + c) + c) + c) <= 4) by (split; [apply rnd_nn; lra|apply F; [exact F4|lra]]).
    apply dv_add; [|exact dv_seven|rewrite Rabs_pos_eq; lra]. apply dv_add; [|exact dv_tenth'|rewrite Rabs_pos_eq; lra].
    apply dv_add; [|exact dv_tenth'|rewrite Rabs_pos_eq; lra]. apply dv_add; [exact dv_azero|exact dv_tenth'|rewrite Rabs_pos_eq; lra]. }
  assert (E : fold_left (a_add arD) (map snd um_weights) (a_zero arD) = one) by (vm_compute; reflexivity).
  rewrite E in Q. right. exact (dv_unique _ _ _ Q dv_one).
Qed.

Lemma um_weights_sum : Rabs (rsum (map (fun p => val (snd p)) um_weights) - 1) <= / 2 * eps + / 2 * eps.
Proof.
  unfold um_weights. cbn [map snd]. rewrite (fmt_val _ _ dv_tenth'), (fmt_val _ _ dv_seven). unfold rsum, eps. cbn [fold_right].
  apply Rabs_le. simpl. lra.
Qed.

Lemma um_weights_length : forall off w, In (off, w) um_weights -> length off = 3%nat.
Proof. intros off w Hin. unfold um_weights in Hin. cbn [In] in Hin. destruct Hin as [E|[E|[E|[E|[]]]]]; injection E as <- <-; reflexivity. Qed.

(** ** Sums over boxes, combined in any order *)
Lemma len_rsum (lens ts : list R) : Forall2 (fun n t => 0 <= n /\ 0 <= t) lens ts -> rsum (map (fun p => fst p * snd p) (combine lens ts)) <= rsum lens * rsum ts.
Proof.
  induction 1 as [|n t lens ts (Hn & Ht) H IH]; [unfold rsum; simpl; lra|]. cbn [combine map fst snd]. change (rsum (?x :: ?l)) with (x + rsum l).
  assert (0 <= rsum lens /\ 0 <= rsum ts) as [A B].
  { clear - H. induction H as [|n t lens ts (Hn & Ht) H IH]; [unfold rsum; simpl; lra|]. change (rsum (?x :: ?l)) with (x + rsum l). lra. }
  assert (0 <= n * rsum ts) by (apply Rmult_le_pos; lra). assert (0 <= t * rsum lens) by (apply Rmult_le_pos; lra). lra.
Qed.

Lemma reduced_total dims G F boxes x : field_is dims G F -> tiling dims boxes -> reduction (a_add arD) (box_sums arD G boxes) x ->
  INR (length (grid_cells dims)) <= 2 ^ 31 -> INR (length boxes) <= 2 ^ 31 -> gtotal dims F <= 1 + / 100000 ->
  exists r, double_value x r /\ 0 <= r /\
    Rabs (r - gtotal dims F) <= (INR (length (grid_cells dims)) + INR (length boxes)) * (112 / 100 * eps * (1 + / 1000) + 2 * eta).
Proof.
  intros HF Ht Hx HN HB HT. pose proof eps_small as E. pose proof eta_tiny as T.
  set (bcells := fun b : list Z * list Z => col_major (fst b) (snd b)).
  pose proof (tiling_cells dims boxes Ht) as Hperm. fold bcells in Hperm.
  set (ts := map (fun b => rsum (map F (bcells b))) boxes). set (lens := map (fun b => INR (length (bcells b))) boxes).
  assert (Hg : forall b g, In b boxes -> In g (bcells b) -> in_grid dims g).
  { intros b g Hb Hgb. apply (in_cells' dims). apply (Permutation_in g Hperm). apply in_concat. exists (bcells b). split; [apply in_map; exact Hb|exact Hgb]. }
  assert (ET : rsum ts = gtotal dims F).
  { unfold gtotal. rewrite <- (rsum_perm _ _ (Permutation_map F Hperm)). unfold ts. clear.
    induction boxes as [|b l IH]; [reflexivity|]. cbn [map concat]. rewrite map_app, rsum_app, <- IH. reflexivity. }
  assert (EN : rsum lens = INR (length (grid_cells dims))).
  { rewrite <- (Permutation_length Hperm). unfold lens. clear. induction boxes as [|b l IH]; [reflexivity|]. cbn [map concat]. rewrite app_length, plus_INR, <- IH. reflexivity. }
  assert (Tn : forall b, In b boxes -> 0 <= rsum (map F (bcells b))).
  { intros b Hb. apply rsum_nn. intros y Hy. apply in_map_iff in Hy as (g & <- & Hgb). apply HF. exact (Hg b g Hb Hgb). }
  assert (Le : forall b, In b boxes -> rsum (map F (bcells b)) <= rsum ts /\ INR (length (bcells b)) <= rsum lens).
  { intros b Hb. split.
    - apply in_split in Hb as (l1 & l2 & Eb). unfold ts. rewrite Eb, map_app, rsum_app. cbn [map]. change (rsum (?y :: ?l)) with (y + rsum l).
      assert (0 <= rsum (map (fun b => rsum (map F (bcells b))) l1)) by (apply rsum_nn; intros y Hy; apply in_map_iff in Hy as (c & <- & Hc); apply Tn; rewrite Eb; apply in_or_app; left; exact Hc).
      assert (0 <= rsum (map (fun b => rsum (map F (bcells b))) l2)) by (apply rsum_nn; intros y Hy; apply in_map_iff in Hy as (c & <- & Hc); apply Tn; rewrite Eb; apply in_or_app; right; right; exact Hc). lra.
    - apply in_split in Hb as (l1 & l2 & Eb). unfold lens. rewrite Eb, map_app, rsum_app. cbn [map]. change (rsum (?y :: ?l)) with (y + rsum l).
      assert (0 <= rsum (map (fun b => INR (length (bcells b))) l1)) by (apply rsum_nn; intros y Hy; apply in_map_iff in Hy as (c & <- & Hc); apply pos_INR).
      assert (0 <= rsum (map (fun b => INR (length (bcells b))) l2)) by (apply rsum_nn; intros y Hy; apply in_map_iff in Hy as (c & <- & Hc); apply pos_INR). lra. }
  rewrite ET, EN in Le.
  assert (T31 : 2 ^ 31 * eps <= / 1000000) by (unfold eps; simpl; lra).
  assert (E3 : eta <= / 1000000 * eps) by nra.
  (* the sum of one process *)
  assert (SD : forall b, In b boxes -> exists r, double_value (fold_left (a_add arD) (map G (bcells b)) (a_zero arD)) r /\ 0 <= r /\
    Rabs (r - rsum (map F (bcells b))) <= INR (length (bcells b)) * (11 / 10 * eps * rsum (map F (bcells b)) + 2 * eta)).
  { intros b Hb. destruct (Le b Hb) as [L1 L2]. pose proof (sum_double (map G (bcells b)) (map F (bcells b)) (a_zero arD) 0 (rsum (map F (bcells b))) 0) as Q.
    rewrite map_length in Q. apply Q; [| |lra|lra|lra| |].
    - clear Q. assert (Hb' : forall g, In g (bcells b) -> in_grid dims g) by (intros g; apply Hg; exact Hb). revert Hb'. generalize (bcells b). clear - HF. intros l Hl.
      induction l as [|g l IH]; [constructor|]. cbn [map]. constructor; [destruct (HF g (Hl g (or_introl eq_refl))) as [V R]; split; [exact V|apply R]|].
      apply IH. intros h Hh. apply Hl. right. exact Hh.
    - exact dv_azero.
    - replace (0 - (rsum (map F (bcells b)) - rsum (map F (bcells b)))) with 0 by ring. rewrite Rabs_R0. simpl. lra.
    - simpl. lra. }
  set (vs := map val (box_sums arD G boxes)).
  assert (EV : vs = map (fun b => val (fold_left (a_add arD) (map G (bcells b)) (a_zero arD))) boxes) by (unfold vs, box_sums; rewrite map_map; reflexivity).
  (* their exact sum *)
  assert (D1 : Rabs (rsum vs - rsum ts) <= INR (length (grid_cells dims)) * (11 / 10 * eps * (1 + / 100000) + 2 * eta)).
  { rewrite EV. unfold ts. replace (rsum (map (fun b => val (fold_left (a_add arD) (map G (bcells b)) (a_zero arD))) boxes) - rsum (map (fun b => rsum (map F (bcells b))) boxes))
      with (rsum (map (fun b => val (fold_left (a_add arD) (map G (bcells b)) (a_zero arD)) + -1 * rsum (map F (bcells b))) boxes)) by (rewrite rsum_add, rsum_scale; ring).
    eapply Rle_trans; [apply rsum_abs|]. eapply Rle_trans; [apply (rsum_le _ (fun b => (11 / 10 * eps * (1 + / 100000) + 2 * eta) * INR (length (bcells b))))|].
    - intros b Hb. destruct (SD b Hb) as (r & V & _ & B). rewrite (fmt_val _ _ V). replace (r + -1 * rsum (map F (bcells b))) with (r - rsum (map F (bcells b))) by ring.
      eapply Rle_trans; [exact B|]. rewrite Rmult_comm. apply Rmult_le_compat_r; [apply pos_INR|]. destruct (Le b Hb) as [L1 _].
      assert (11 / 10 * eps * rsum (map F (bcells b)) <= 11 / 10 * eps * (1 + / 100000)) by (apply Rmult_le_compat_l; lra). lra.
    - rewrite rsum_scale. fold lens. rewrite EN. lra. }
  pose proof (pos_INR (length (grid_cells dims))) as N0. pose proof (pos_INR (length boxes)) as B0.
  assert (D2 : INR (length (grid_cells dims)) * (11 / 10 * eps * (1 + / 100000) + 2 * eta) <= / 100000).
  { apply Rle_trans with (2 ^ 31 * (2 * eps)); [apply Rmult_le_compat; lra|lra]. }
  apply Rabs_le_inv in D1 as D1'. rewrite ET in D1, D1'.
  destruct (red_double _ x Hx (1 + / 1000)) as (L1 & r & V & P & B).
  - intros y Hy. unfold box_sums in Hy. apply in_map_iff in Hy as (b & <- & Hb). destruct (SD b Hb) as (r & V & P & _). exists r. split; assumption.
  - fold vs. lra.
  - lra.
  - unfold box_sums. rewrite map_length. exact HB.
  - exists r. split; [exact V|]. split; [exact P|]. fold vs in B. unfold box_sums in B. rewrite map_length in B.
    replace (r - gtotal dims F) with ((r - rsum vs) + (rsum vs - gtotal dims F)) by ring. eapply Rle_trans; [apply Rabs_triang|].
    set (d := 112 / 100 * eps * (1 + / 1000) + 2 * eta).
    assert (INR (length (grid_cells dims)) * (11 / 10 * eps * (1 + / 100000) + 2 * eta) <= INR (length (grid_cells dims)) * d) by (apply Rmult_le_compat_l; unfold d; lra).
    assert ((INR (length boxes) - 1) * (11 / 10 * eps * (1 + / 1000) + 2 * eta) <= INR (length boxes) * d).
    { apply Rle_trans with (INR (length boxes) * (11 / 10 * eps * (1 + / 1000) + 2 * eta)); [apply Rmult_le_compat_r; lra|]. apply Rmult_le_compat_l; unfold d; lra. }
    lra.
Qed.

(** ** The driver *)
Theorem C69_upwindMpi sz m k vtk :
  let dims := [m; m; m] in let ones := repeat one 3 in
  grid_ok dims -> (1 <= sz <= 2 ^ 30)%Z -> decomposable sz dims -> (m | 2 ^ 64)%Z -> (Z.of_nat k < 2 ^ 31)%Z ->
  exists r, um_body arD ones ones sz m (Z.of_nat k) vtk = Ok (Some r) /\
    (forall lo hi data, In (lo, hi, data) (in_pieces (um_world r)) \/ In (lo, hi, data) (out_pieces (um_world r)) -> unit_values data) /\
    length (um_sums r) = k /\
    (forall i ins outs x, nth_error (um_sums r) i = Some (ins, outs) ->
       (reduction (a_add arD) ins x -> exists s, double_value x s /\ Rabs (s - 1) <= (8 * INR i + 12 / 10 * (IZR (m * m * m) + IZR sz)) * / 2 ^ 53) /\
       (reduction (a_add arD) outs x -> exists s, double_value x s /\ Rabs (s - 1) <= (8 * INR (S i) + 12 / 10 * (IZR (m * m * m) + IZR sz)) * / 2 ^ 53)) /\
    (forall x, reduction (a_add arD) (um_final r) x -> exists s, double_value x s /\
       (k = 0%nat -> x = a_zero arD) /\ ((0 < k)%nat -> Rabs (s - 1) <= (8 * INR k + 12 / 10 * (IZR (m * m * m) + IZR sz)) * / 2 ^ 53)) /\
    (forall field, um_vtk r = Some field -> unit_values field /\
       field = map (match k with O => fun _ => a_zero arD | _ => stencil_iter arD k dims um_weights (origin_field arD dims) end) (col_major [0; 0; 0]%Z dims)).
Proof.
  intros dims ones Hg Hn Hd Hm Hk.
  destruct (C49_driver_field spec_float arD ones ones sz m k vtk eq_refl eq_refl Hg Hn Hd Hm Hk)
    as (deltas & signs & dt & st & r & Eax & _ & Est & Er & Hin & Hout & Hsum & Hfin & Hvtk & Hlen). cbv zeta in *. fold dims in Hin, Hout, Hsum, Hfin, Hvtk.
  pose proof Hg as (_ & _ & Hpos & Hpr). pose proof (Hpos 0%nat ltac:(simpl; lia)) as H0. cbn [dims nth] in H0.
  assert (Ep : prodZ dims = (m * m * m)%Z) by (unfold dims; rewrite !prodZ_cons; change (prodZ []) with 1%Z; ring). rewrite Ep in Hpr.
  assert (st = um_weights) by (apply (um_stencil_doubles m deltas signs dt st H0 ltac:(lia) Hm); assumption). subst st. clear Eax Est.
  set (F0 := fun g => val (origin_field arD dims g)).
  assert (HF0 : field_is dims (origin_field arD dims) F0).
  { intros g _. unfold F0, origin_field. destruct (list_eq_dec _ _ _); [pose proof (dv_ofZ 1 ltac:(reflexivity)) as V|pose proof (dv_ofZ 0 ltac:(reflexivity)) as V];
      rewrite (fmt_val _ _ V); (split; [exact V|lra]). }
  assert (Hl : forall off w, In (off, w) um_weights -> length off = length dims) by exact um_weights_length.
  assert (H4 : (length um_weights <= 4)%nat) by (cbn; lia).
  assert (HF : forall i, field_is dims (stencil_iter arD i dims um_weights (origin_field arD dims)) (srounded_iter dims um_weights i F0))
    by (intros i; exact (sten_iter_field dims um_weights Hpos Hl um_weights_ok um_weights_one i _ _ HF0)).
  assert (NC : length (grid_cells dims) = Z.to_nat (m * m * m)) by (apply Nat2Z.inj; rewrite Z2Nat.id by nia; change (grid_cells dims) with (nested_loops false [0; 0; 0]%Z dims); rewrite (nested_loops_length false [0; 0; 0]%Z dims eq_refl);
    [unfold dims, extents; cbn [combine map fst snd]; rewrite !prodZ_cons; change (prodZ []) with 1%Z; ring|intros [|[|[|j]]] Hj; [cbn; lia..|cbn in Hj; lia]]).
  assert (NR : INR (length (grid_cells dims)) = IZR (m * m * m)) by (rewrite NC, INR_IZR_INZ, Z2Nat.id by nia; reflexivity).
  assert (N31 : IZR (m * m * m) <= 2 ^ 31) by (rewrite pow_IZR; apply IZR_le; lia).
  assert (NB : INR (length (map fst (in_pieces (um_world r)))) = IZR sz) by (rewrite Hlen, INR_IZR_INZ, Z2Nat.id by lia; reflexivity).
  assert (S31 : IZR sz <= 2 ^ 31) by (rewrite pow_IZR; apply IZR_le; lia).
  assert (T0 : gtotal dims F0 = 1).
  { unfold gtotal. assert (Hz : In [0; 0; 0]%Z (grid_cells dims)).
    { apply (in_cells' dims). apply in_grid_nth. split; [reflexivity|]. intros [|[|[|j]]] Hj; [cbn; lia..|cbn in Hj; lia]. }
    pose proof (NoDup_nested_loops false (repeat 0%Z 3) dims) as Hnd.
    apply in_split in Hz as (l1 & l2 & El). change (nested_loops false (repeat 0%Z 3) dims) with (grid_cells dims) in Hnd. rewrite El in Hnd |- *. apply NoDup_remove_2 in Hnd.
    assert (Z0 : forall l, ~ In [0; 0; 0]%Z l -> rsum (map F0 l) = 0).
    { induction l as [|g l IH]; intros Hnin; [reflexivity|]. cbn [map]. change (rsum (?x :: ?l)) with (x + rsum l). rewrite IH by (intros Hi; apply Hnin; right; exact Hi).
      unfold F0, origin_field. destruct (list_eq_dec _ _ _) as [Eg|_]; [exfalso; apply Hnin; left; exact Eg|]. rewrite (fmt_val _ _ (dv_ofZ 0 ltac:(reflexivity))). lra. }
    rewrite map_app, rsum_app. cbn [map]. change (rsum (?x :: ?l)) with (x + rsum l).
    rewrite !Z0 by (intros Hi; apply Hnd, in_or_app; auto). unfold F0, origin_field. destruct (list_eq_dec _ _ _) as [_|Ne]; [|exfalso; apply Ne; reflexivity].
    rewrite (fmt_val _ _ (dv_ofZ 1 ltac:(reflexivity))). lra. }
  assert (T31 : 2 ^ 31 * eps <= / 1000000) by (unfold eps; simpl; lra).
  pose proof eps_small as E. pose proof eta_tiny as T. assert (E3 : eta <= / 1000000 * eps) by nra.
  assert (Sum : forall i x, (i <= k)%nat -> reduction (a_add arD) (box_sums arD (stencil_iter arD i dims um_weights (origin_field arD dims)) (map fst (in_pieces (um_world r)))) x ->
    exists s, double_value x s /\ Rabs (s - 1) <= (8 * INR i + 12 / 10 * (IZR (m * m * m) + IZR sz)) * / 2 ^ 53).
  { intros i x Hi Hx. assert (I31 : INR i <= 2 ^ 31) by (rewrite INR_IZR_INZ, pow_IZR; apply IZR_le; lia).
    pose proof (sten_iter_total dims um_weights Hpos Hl um_weights_ok um_weights_one H4 um_weights_sum i _ _ HF0 T0 ltac:(rewrite NR; exact N31) I31) as B.
    pose proof (pos_INR i) as I0.
    assert (Ie : INR i * eps <= / 1000000) by (apply Rle_trans with (2 ^ 31 * eps); [apply Rmult_le_compat_r; lra|exact T31]).
    apply Rabs_le_inv in B as B'.
    destruct (reduced_total dims _ _ _ x (HF i) (proj1 Hin) Hx ltac:(rewrite NR; exact N31) ltac:(rewrite NB; exact S31) ltac:(lra)) as (s & V & _ & D).
    exists s. split; [exact V|]. rewrite NR, NB in D. change (/ 2 ^ 53) with eps.
    replace (s - 1) with ((s - gtotal dims (srounded_iter dims um_weights i F0)) + (gtotal dims (srounded_iter dims um_weights i F0) - 1)) by ring.
    eapply Rle_trans; [apply Rabs_triang|].
    assert (Z0 : 0 <= IZR (m * m * m) + IZR sz) by (rewrite <- plus_IZR; apply IZR_le; nia).
    assert ((IZR (m * m * m) + IZR sz) * (112 / 100 * eps * (1 + / 1000) + 2 * eta) <= (IZR (m * m * m) + IZR sz) * (12 / 10 * eps)) by (apply Rmult_le_compat_l; lra). lra. }
  assert (UV : forall G F lo hi data pieces, field_is dims G F -> distributed dims G pieces -> In (lo, hi, data) pieces -> unit_values data).
  { intros G F lo hi data pieces HGF (Ht & Hp') Hi. rewrite (Hp' lo hi data Hi). intros y Hy. apply in_map_iff in Hy as (g & <- & Hgr).
    exists (F g). apply HGF. apply (in_map fst) in Hi. cbn [fst] in Hi. destruct (proj1 Ht lo hi Hi) as (L1 & L2 & Hb). apply Hb. apply (in_nested_loops false) in Hgr; [exact Hgr|congruence]. }
  assert (HFo : field_is dims (match k with O => fun _ => a_zero arD | _ => stencil_iter arD k dims um_weights (origin_field arD dims) end)
    (match k with O => fun _ => 0 | _ => srounded_iter dims um_weights k F0 end)).
  { destruct k as [|k']; [intros g _; split; [exact dv_azero|lra]|apply HF]. }
  exists r. split; [exact Er|]. split.
  { intros lo hi data [Hi|Hi]; [exact (UV _ _ lo hi data _ (HF k) Hin Hi)|exact (UV _ _ lo hi data _ HFo Hout Hi)]. }
  split; [rewrite Hsum, map_length, seq_length; reflexivity|]. split.
  { intros i ins outs x Hi. assert (L : (i < k)%nat) by (assert (N : nth_error (um_sums r) i <> None) by congruence; apply nth_error_Some in N; rewrite Hsum, map_length, seq_length in N; exact N).
    rewrite Hsum in Hi. rewrite nth_error_map in Hi. rewrite (nth_error_nth' _ 0%nat) in Hi by (rewrite seq_length; exact L). rewrite seq_nth in Hi by exact L. cbn [option_map plus] in Hi. injection Hi as <- <-.
    split; intros Hx; apply (Sum _ x); (lia || exact Hx). }
  split; [|intros field Hfd; rewrite Hvtk in Hfd; destruct vtk; [injection Hfd as <-|discriminate]; split; [|reflexivity];
    intros y Hy; apply in_map_iff in Hy as (g & <- & Hgr); eexists; apply HFo; apply (in_nested_loops false) in Hgr; [|reflexivity];
    apply in_grid_nth; destruct Hgr as (L1 & _ & L3); split; [exact L1|]; intros j Hj; specialize (L3 j ltac:(rewrite L1; exact Hj));
    assert (Z0 : nth j [0; 0; 0]%Z 0%Z = 0%Z) by (destruct j as [|[|[|j]]]; reflexivity || (destruct j; reflexivity)); lia].
  intros x Hx. rewrite Hfin in Hx. destruct k as [|k'].
  - destruct (reduced_total dims _ _ _ x HFo (proj1 Hin) Hx ltac:(rewrite NR; exact N31) ltac:(rewrite NB; exact S31)) as (s & V & _ & _).
    { unfold gtotal. rewrite rsum_const. lra. }
    exists s. split; [exact V|]. split; [|lia]. intros _.
    assert (Q : forall l y, reduction (a_add arD) l y -> (forall z, In z l -> z = a_zero arD) -> y = a_zero arD).
    { clear. induction 1 as [y|l l1 l2 a b Hp _ IH1 _ IH2]; intros Hz; [apply Hz; left; reflexivity|].
      rewrite IH1, IH2; [vm_compute; reflexivity|..]; intros z Hi; apply Hz, (Permutation_in z (Permutation_sym Hp)), in_or_app; auto. }
    assert (x = a_zero arD).
    { apply (Q _ x Hx). intros z Hz. unfold box_sums in Hz. apply in_map_iff in Hz as (b & <- & _). generalize (col_major (fst b) (snd b)). clear.
      induction l as [|g l IH]; [reflexivity|]. cbn [map fold_left]. exact IH. }
    assumption.
  - destruct (Sum (S k') x (le_n _) Hx) as (s & V & B). exists s. split; [exact V|]. split; [discriminate|]. intros _. exact B.
Qed.
Print Assumptions C69_upwindMpi.

(** The check sum is not always exactly one, and may depend on the order in which MPI_Reduce combines the contributions. *)
Theorem C69_exact_refuted :
  let ones := repeat one 3 in
  exists r x, um_body arD ones ones 2 2 6 false = Ok (Some r) /\ reduction (a_add arD) (um_final r) x /\ ~ double_value x 1.
Proof.
  eexists _, _. split; [vm_compute; reflexivity|]. split.
  - cbn [um_final]. eapply (red_node _ _ [_] [_]); [apply Permutation_refl|apply red_one|apply red_one].
  - intros H. apply (dv_unique _ (val (S754_finite false 4503599627370498 (-52)))) in H; [|repeat split].
    cbn [SF2R cond_Zopp] in H. unfold F2R in H. cbn [Fnum Fexp] in H. rewrite bpow_powerRZ in H. simpl in H. lra.
Qed.
Print Assumptions C69_exact_refuted.

Theorem C69_order_refuted :
  let ones := repeat one 3 in
  exists r x y, um_body arD ones ones 4 2 4 false = Ok (Some r) /\
    reduction (a_add arD) (um_final r) x /\ reduction (a_add arD) (um_final r) y /\ x <> y.
Proof.
  eexists _, _, _. split; [vm_compute; reflexivity|]. cbn [um_final]. split; [|split].
  - eapply (red_node _ _ [_; _; _] [_]); [apply Permutation_refl| |apply red_one]. eapply (red_node _ _ [_; _] [_]); [apply Permutation_refl| |apply red_one].
    eapply (red_node _ _ [_] [_]); [apply Permutation_refl|apply red_one|apply red_one].
  - match goal with |- reduction _ [?a; ?b; ?c; ?d] _ =>
      apply (red_node _ _ [a; d; c] [b]); [apply (Permutation_trans (l' := [a; d; b; c]));
        [apply perm_skip; apply (Permutation_trans (l' := [b; d; c])); [apply perm_skip, perm_swap|apply perm_swap]
        |apply perm_skip, perm_skip, perm_swap] | |apply red_one];
      apply (red_node _ _ [a; d] [c]); [apply Permutation_refl| |apply red_one]; apply (red_node _ _ [a] [d]); [apply Permutation_refl|apply red_one|apply red_one] end.
  - intros H. vm_compute in H. discriminate H.
Qed.
Print Assumptions C69_order_refuted.

(** ** Examples *)

(** Two cells per axis on two processes, six steps: the hypotheses hold; the check sum is 1 + 2^-51. *)
Example C69_example :
  grid_ok [2; 2; 2]%Z /\ decomposable 2 [2; 2; 2]%Z /\ (2 | 2 ^ 64)%Z /\
  (r <- um_body arD (repeat one 3) (repeat one 3) 2 2 6 false ;;
   match r with Some r => Ok (length (um_sums r), fold_left (a_add arD) (um_final r) (a_zero arD)) | None => Undef OobRead end) =
  Ok (6%nat, S754_finite false 4503599627370498 (-52)).
Proof.
  split; [|split; [|split]].
  - split; [discriminate|]. split; [cbn; lia|]. split; [intros [|[|[|j]]] Hj; cbn in *; lia|]. reflexivity.
  - exists [2; 1; 1]%Z. split; [reflexivity|]. split; [|reflexivity].
    intros [|[|[|j]]] Hj; cbn [nth length] in *; try lia; (split; [lia|]); [exists 1%Z|exists 2%Z|exists 2%Z]; reflexivity.
  - exists (2 ^ 63)%Z. reflexivity.
  - vm_compute. reflexivity.
Qed.
