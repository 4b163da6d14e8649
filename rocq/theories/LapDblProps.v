(** * The Laplacian benchmark in IEEE double precision: property C81 *)
From Coq Require Import Reals ZArith Lia Lra Psatz Floats.SpecFloat List Permutation.
From Flocq Require Import Core BinarySingleNaN.
From Verif Require Import Cpp MaiSpec Radix MaiProof CdModel CdSpec FilterModel FilterSpec FilterProof FilterSum FilterProg FilterProps RealArith UpSpec UpExact
  UpMpiSpec UpMpiProof LapModel LapSpec LapProof LapProps Ieee Double DblSpec DblProof DblField DblSten MmProps LapDbl.
From Coq Require Import List.
Import ListNotations.
Local Open Scope R_scope.
Local Arguments prodZ : simpl never.
Local Arguments Z.of_nat : simpl never.

(** What is assumed of the C library: sin of a finite double is a finite double of absolute value at most 1, and
    M_PI is a finite double of absolute value at most 4. *)
Definition sane_sin (dsin : spec_float -> spec_float) : Prop :=
  forall x r, double_value x r -> exists s, double_value (dsin x) s /\ Rabs s <= 1.
Definition sane_pi (m_pi : spec_float) : Prop := exists p, double_value m_pi p /\ Rabs p <= 4.

(** ** The initial field *)
Lemma rnd_int_bound x z : (0 <= z <= 2 ^ 53)%Z -> Rabs x <= IZR z -> Rabs (rnd64 x) <= IZR z.
Proof. intros Hz Hx. pose proof (rnd_scaled x z 0 ltac:(lia) Hz) as Q. change (bpow radix2 0) with 1 in Q. rewrite Rmult_1_r in Q. apply Q, Hx. Qed.
Lemma T53 z : (z <= 2 ^ 53)%Z -> IZR z <= 2 ^ 53.
Proof. intros H. rewrite pow_IZR. apply IZR_le. exact H. Qed.

Lemma coord_double m k : (0 < m < 2 ^ 31)%Z -> (0 <= k < m)%Z ->
  exists r, double_value (a_add arD (a_dec arD 0 1) (a_mul arD (a_add arD (a_ofZ arD k) (a_dec arD 5 1)) (a_div arD (a_sub arD (a_dec arD 10 1) (a_dec arD 0 1)) (a_ofZ arD m)))) r /\
    Rabs r <= IZR m.
Proof.
  intros Hm Hk.
  assert (V0 : double_value (a_dec arD 0 1) 0) by (replace (a_dec arD 0 1) with (S754_zero false) by reflexivity; repeat split).
  assert (V5 : double_value (a_dec arD 5 1) (/ 2)).
  { replace (a_dec arD 5 1) with (S754_finite false 4503599627370496 (-53)) by reflexivity.
    split; [reflexivity|]. split; [reflexivity|]. cbn [SF2R cond_Zopp]. unfold F2R. cbn [Fnum Fexp]. rewrite bpow_powerRZ. simpl. lra. }
  pose proof (dv_ofZ k ltac:(lia)) as Vk. pose proof (dv_ofZ m ltac:(lia)) as Vm.
  assert (K0 : 0 <= IZR k) by (apply IZR_le; lia). assert (KM : IZR k + 1 <= IZR m) by (rewrite <- plus_IZR; apply IZR_le; lia).
  pose proof (T53 m ltac:(lia)) as M53. assert (M1 : 1 <= IZR m) by lra.
  assert (B1 : Rabs (IZR k + / 2) <= IZR m) by (rewrite Rabs_pos_eq; lra).
  pose proof (dv_add _ _ _ _ Vk V5 ltac:(lra)) as Va. pose proof (rnd_int_bound _ m ltac:(lia) B1) as Ra.
  assert (Vs : double_value (a_sub arD (a_dec arD 10 1) (a_dec arD 0 1)) 1).
  { pose proof (dv_sub _ _ _ _ dv_dec1 V0) as Q. rewrite Rminus_0_r, (rnd_IZR 1) in Q by lia. apply Q. rewrite Rabs_pos_eq; lra. }
  assert (I1 : 0 <= 1 / IZR m <= 1).
  { unfold Rdiv. rewrite Rmult_1_l. split; [left; apply Rinv_0_lt_compat; lra|]. rewrite <- Rinv_1. apply Rinv_le_contravar; lra. }
  assert (B2 : Rabs (1 / IZR m) <= 1) by (rewrite Rabs_pos_eq; lra).
  pose proof (dv_div _ _ _ _ Vs Vm ltac:(lra) ltac:(lra)) as Vd. pose proof (rnd_int_bound _ 1 ltac:(lia) B2) as Rd.
  assert (B3 : Rabs (rnd64 (IZR k + / 2) * rnd64 (1 / IZR m)) <= IZR m).
  { rewrite Rabs_mult. apply Rle_trans with (IZR m * 1); [apply Rmult_le_compat; try apply Rabs_pos; assumption|lra]. }
  pose proof (dv_mul _ _ _ _ Va Vd ltac:(lra)) as Vp. pose proof (rnd_int_bound _ m ltac:(lia) B3) as Rp.
  assert (B4 : Rabs (0 + rnd64 (rnd64 (IZR k + / 2) * rnd64 (1 / IZR m))) <= IZR m) by (rewrite Rplus_0_l; exact Rp).
  pose proof (dv_add _ _ _ _ V0 Vp ltac:(lra)) as Vr. eexists. split; [exact Vr|]. apply rnd_int_bound; [lia|exact B4].
Qed.

Lemma init_bounded dsin m_pi m nd : sane_sin dsin -> sane_pi m_pi -> (0 < m < 2 ^ 31)%Z -> bfield (repeat m nd) 0 (lap_init arD dsin m_pi m nd).
Proof.
  intros Hs (p & Vp & Bp) Hm g Hg. change (bpow radix2 0) with 1.
  assert (V2 : double_value (a_dec arD 20 1) 2).
  { replace (a_dec arD 20 1) with (S754_finite false 4503599627370496 (-51)) by reflexivity.
    split; [reflexivity|]. split; [reflexivity|]. cbn [SF2R cond_Zopp]. unfold F2R. cbn [Fnum Fexp]. rewrite bpow_powerRZ. simpl. lra. }
  assert (P8 : Rabs (2 * p) <= IZR 8) by (rewrite Rabs_mult, (Rabs_pos_eq 2) by lra; lra).
  pose proof (T53 8 ltac:(lia)) as T8. pose proof (dv_mul _ _ _ _ V2 Vp ltac:(lra)) as V2p. pose proof (rnd_int_bound _ 8 ltac:(lia) P8) as R2p.
  assert (Hc : forall x, In x (centre arD (repeat m nd) (repeat (a_dec arD 0 1) nd) (repeat (a_dec arD 10 1) nd) g) -> exists r, double_value x r /\ Rabs r <= IZR m).
  { apply in_grid_nth in Hg as [L Hg]. rewrite repeat_length in L, Hg. unfold centre. intros x Hx. apply in_map_iff in Hx as ((((n & x0) & x1) & k) & <- & Hin).
    apply (In_nth _ _ (0%Z, a_zero arD, a_zero arD, 0%Z)) in Hin as (j & Hj & E). rewrite !combine_length, !repeat_length in Hj.
    rewrite combine_nth in E by (rewrite !combine_length, !repeat_length; lia). rewrite combine_nth in E by (rewrite !combine_length, !repeat_length; lia). rewrite combine_nth in E by (rewrite !repeat_length; lia).
    assert (NR : forall (A : Type) (v d : A), nth j (repeat v nd) d = v) by (intros A v d; rewrite (nth_indep _ d v) by (rewrite repeat_length; lia); apply nth_repeat).
    rewrite !NR in E. injection E as <- <- <- <-. specialize (Hg j ltac:(lia)). rewrite square_nth in Hg by lia. apply coord_double; assumption. }
  unfold lap_init, lap_func. revert Hc. generalize (centre arD (repeat m nd) (repeat (a_dec arD 0 1) nd) (repeat (a_dec arD 10 1) nd) g). intros l Hl.
  assert (Q : forall a r, double_value a r -> Rabs r <= 1 -> exists s, double_value (fold_left (fun res x => a_mul arD res (dsin (a_mul arD (a_mul arD (a_dec arD 20 1) m_pi) x))) l a) s /\ Rabs s <= 1).
  { induction l as [|x l IH]; intros a r Va Ra; [exists r; split; assumption|]. cbn [fold_left]. destruct (Hl x (or_introl eq_refl)) as (c & Vc & Bc).
    assert (Bm : Rabs (rnd64 (2 * p) * c) <= 2 ^ 53).
    { rewrite Rabs_mult. apply Rle_trans with (8 * IZR m); [apply Rmult_le_compat; try apply Rabs_pos; assumption|]. rewrite <- mult_IZR. apply T53. lia. }
    destruct (Hs _ _ (dv_mul _ _ _ _ V2p Vc Bm)) as (s & Vs & Bs).
    assert (B1 : Rabs (r * s) <= 1) by (rewrite Rabs_mult; apply Rle_trans with (1 * 1); [apply Rmult_le_compat; try apply Rabs_pos; assumption|lra]).
    apply (IH ltac:(intros y Hy; apply Hl; right; exact Hy) _ (rnd64 (r * s))); [apply dv_mul; [exact Va|exact Vs|]|apply (rnd_int_bound _ 1); [lia|exact B1]].
    pose proof (T53 1 ltac:(lia)). lra. }
  destruct (Q (a_ofZ arD 1) 1 (dv_ofZ 1 ltac:(reflexivity)) ltac:(rewrite Rabs_pos_eq; lra)) as (s & Vs & Bs). rewrite (fmt_val _ _ Vs). split; assumption.
Qed.

(** ** The check sum of a distributed field *)
Lemma concat_perm_map {A B} (f : A -> list B) (g : A -> B) l : Permutation (concat (map (fun x => g x :: f x) l)) (map g l ++ concat (map f l)).
Proof.
  induction l as [|x l IH]; [reflexivity|]. cbn [map concat app]. apply perm_skip. rewrite IH, !app_assoc. apply Permutation_app_tail, Permutation_app_comm.
Qed.

Lemma checksum_doubles dims b G pieces x : (0 <= b)%Z -> bfield dims b G -> distributed dims G pieces ->
  (Z.of_nat (length (grid_cells dims)) + Z.of_nat (length pieces) <= 2 ^ 53)%Z -> (INR (length (grid_cells dims)) + INR (length pieces)) * bpow radix2 b <= bpow radix2 1000 ->
  reduction (a_add arD) (map (fun p => fold_left (a_add arD) (snd p) (a_zero arD)) pieces) x ->
  exists s, double_value x s /\ Rabs (s - rsum (map (fun g => val (G g)) (grid_cells dims))) <=
    (INR (length (grid_cells dims)) + INR (length pieces)) * (INR (length (grid_cells dims)) + INR (length pieces)) * (eps * bpow radix2 b).
Proof.
  intros Hb HG (Ht & Hd) HN HM Hx. pose proof eps_small as E. pose proof eta_tiny as T. pose proof (bpow_ge_1 b Hb) as B1.
  set (l := concat (map (fun p : list Z * list Z * list spec_float => a_zero arD :: snd p) pieces)).
  assert (Hr : reduction (a_add arD) l x).
  { apply (red_concat _ _ _ Hx). clear. induction pieces as [|p k IH]; [constructor|]. cbn [map]. constructor; [apply left_to_right|exact IH]. }
  assert (Pl : Permutation l (map (fun _ => a_zero arD) pieces ++ map G (grid_cells dims))).
  { unfold l. rewrite (concat_perm_map (fun p : list Z * list Z * list spec_float => snd p) (fun _ => a_zero arD)). apply Permutation_app_head.
    rewrite <- (tiling_cells dims _ Ht). rewrite concat_map, !map_map. erewrite map_ext_in; [reflexivity|]. intros [[lo hi] data] Hin. cbn [fst snd]. apply (Hd lo hi data Hin). }
  assert (LL : INR (length l) = INR (length (grid_cells dims)) + INR (length pieces)) by (rewrite (Permutation_length Pl), app_length, !map_length, plus_INR; ring).
  assert (RL : rsum (map val l) = rsum (map (fun g => val (G g)) (grid_cells dims))).
  { rewrite (rsum_perm _ _ (Permutation_map val Pl)), map_app, rsum_app, !map_map. change (val (a_zero arD)) with 0. rewrite rsum_const. ring. }
  destruct (red_large b l x Hb Hr) as (L1 & r & V & _ & B).
  - rewrite (Permutation_length Pl), app_length, !map_length. lia.
  - rewrite LL. exact HM.
  - intros y Hy. apply (Permutation_in _ Pl) in Hy. apply in_app_or in Hy as [Hy|Hy]; apply in_map_iff in Hy as (g & <- & Hg).
    + change (val (a_zero arD)) with 0. split; [exact dv_azero|rewrite Rabs_R0; lra].
    + apply HG. apply in_cells', Hg.
  - exists r. split; [exact V|]. specialize (B _ (Rle_refl _)). rewrite RL in B. eapply Rle_trans; [exact B|]. rewrite <- LL. set (n := INR (length l)) in *.
    assert (N1 : 1 <= n) by (unfold n; change 1 with (INR 1); apply le_INR; exact L1).
    assert (eta <= eps * bpow radix2 b) by nra.
    apply Rle_trans with ((n - 1) * (eps * (n * bpow radix2 b) + eps * bpow radix2 b)); [apply Rmult_le_compat_l; lra|].
    assert (0 <= eps * bpow radix2 b) by nra. nra.
Qed.

(** ** C81 *)
Theorem C81_benchmark dsin m_pi sz m nd k e vtk :
  let dims := repeat m nd in
  let exact := Nat.iter k (laplace arR dims) (fun g => SF2R radix2 (lap_init arD dsin m_pi m nd g)) in
  let Q := bpow radix2 (e * Z.of_nat k) in
  sane_sin dsin -> sane_pi m_pi ->
  grid_ok dims -> (1 <= sz <= 2 ^ 30)%Z -> decomposable sz dims -> (m | 2 ^ 64)%Z ->
  (0 <= e)%Z -> (4 * Z.of_nat nd <= 2 ^ e)%Z -> (e * Z.of_nat k <= 900)%Z ->
  exists r, lap_body arD dsin m_pi sz m (Z.of_nat nd) k vtk = Ok (Some r) /\
    tiling dims (map fst (in_pieces (lr_world r))) /\
    (forall lo hi data, In (lo, hi, data) (in_pieces (lr_world r)) \/ ((0 < k)%nat /\ In (lo, hi, data) (out_pieces (lr_world r))) ->
       Forall2 (fun x g => exists v, double_value x v /\ Rabs v <= Q /\ Rabs (v - exact g) <= INR k * (2 * INR nd + 3) * (/ 2 ^ 53 * Q)) data (col_major lo hi)) /\
    (forall x, reduction (a_add arD) (lr_in r) x \/ reduction (a_add arD) (lr_out r) x -> (0 < k)%nat ->
       exists s, double_value x s /\ Rabs s <= (IZR (prodZ dims) * (INR k * (2 * INR nd + 3)) + (IZR (prodZ dims) + IZR sz) * (IZR (prodZ dims) + IZR sz)) * (/ 2 ^ 53 * Q)) /\
    (forall field, lr_vtk r = Some field -> (0 < k)%nat ->
       Forall2 (fun x g => exists v, double_value x v /\ Rabs (v - exact g) <= INR k * (2 * INR nd + 3) * (/ 2 ^ 53 * Q)) field (col_major (repeat 0%Z nd) dims)).
Proof.
  intros dims exact Q Hs Hpi Hg Hn Hd Hm He0 He Hk. destruct (square_nd m nd Hg) as (Hnd & Hmr).
  destruct (C39_driver_field spec_float arD dsin m_pi sz m nd k vtk Hg Hn Hd Hm) as (st & r & Est & Er & Hin & Hout & _ & _ & Eio & (Lp & Ei & Eo) & Ev). cbv zeta in *.
  rewrite lap_stencil_eq in Est. injection Est as <-. fold dims in Hin, Hout, Ev. set (st := insert_all (lap_entries arD nd) []) in *.
  destruct (lap_many nd ltac:(lia) m e (lap_init arD dsin m_pi m nd) k ltac:(lia) He He0 ltac:(lia) (init_bounded dsin m_pi m nd Hs Hpi ltac:(lia))) as (HB & HE).
  fold dims st Q in HB, HE. fold exact in HE. change eps with (/ 2 ^ 53) in HE.
  set (G := stencil_iter arD k dims st (lap_init arD dsin m_pi m nd)) in *.
  exists r. split; [exact Er|]. split; [exact (proj1 Hin)|].
  assert (F2 : forall l, (forall g, In g l -> in_grid dims g) ->
    Forall2 (fun x g => exists v, double_value x v /\ Rabs v <= Q /\ Rabs (v - exact g) <= INR k * (2 * INR nd + 3) * (/ 2 ^ 53 * Q)) (map G l) l).
  { induction l as [|g l IH]; intros Hl; [constructor|]. cbn [map]. constructor; [|apply IH; intros h Hh; apply Hl; right; exact Hh].
    pose proof (Hl g (or_introl eq_refl)) as Hgr. destruct (HB g Hgr) as (V & B). exists (val (G g)). split; [exact V|]. split; [exact B|]. apply HE, Hgr. }
  assert (Hout' : (0 < k)%nat -> distributed dims G (out_pieces (lr_world r))) by (intros Hk0; destruct k; [lia|exact Hout]).
  split; [|split].
  - assert (FD : forall pieces lo hi data, distributed dims G pieces -> In (lo, hi, data) pieces ->
      Forall2 (fun x g => exists v, double_value x v /\ Rabs v <= Q /\ Rabs (v - exact g) <= INR k * (2 * INR nd + 3) * (/ 2 ^ 53 * Q)) data (col_major lo hi)).
    { intros pieces lo hi data (Ht & Hdat) Hp. rewrite (Hdat lo hi data Hp) at 1. apply F2. intros g Hgb. apply (in_map fst) in Hp.
      destruct (proj1 Ht lo hi Hp) as (L1 & L2 & Hb). apply Hb. apply (in_nested_loops false); [congruence|exact Hgb]. }
    intros lo hi data [Hp|(Hk0 & Hp)]; [exact (FD _ _ _ _ Hin Hp)|]. exact (FD _ _ _ _ (Hout' Hk0) Hp).
  - intros x Hx Hk0. assert (Hx' : reduction (a_add arD) (lr_in r) x) by (destruct Hx as [Hx|Hx]; [exact Hx|rewrite <- (Eio Hk0); exact Hx]). clear Hx. rewrite Ei in Hx'.
    assert (NC : Z.of_nat (length (grid_cells dims)) = prodZ dims).
    { change (grid_cells dims) with (nested_loops false (repeat 0%Z (length dims)) dims). rewrite nested_loops_length.
      - f_equal. unfold extents. clear. induction dims as [|d l IH]; [reflexivity|]. cbn [length repeat combine map fst snd]. rewrite IH, Z.sub_0_r. reflexivity.
      - apply repeat_length.
      - intros j Hj. rewrite repeat_length in Hj. rewrite nth_repeat0. pose proof (proj1 (proj2 (proj2 Hg)) j Hj). fold dims in H. lia. }
    assert (NR : INR (length (grid_cells dims)) = IZR (prodZ dims)) by (rewrite INR_IZR_INZ, NC; reflexivity).
    assert (PR : INR (length (in_pieces (lr_world r))) = IZR sz) by (rewrite Lp, INR_IZR_INZ, Z2Nat.id by lia; reflexivity).
    pose proof (proj2 (proj2 (proj2 Hg))) as P31. fold dims in P31.
    destruct (checksum_doubles dims (e * Z.of_nat k) G _ x ltac:(lia) HB Hin) as (s & V & B).
    + rewrite NC, Lp. lia.
    + rewrite NR, PR. fold Q. apply Rle_trans with (bpow radix2 32 * Q).
      * apply Rmult_le_compat_r; [left; apply bpow_gt_0|]. rewrite <- plus_IZR. replace (bpow radix2 32) with (IZR (2 ^ 32)) by (rewrite <- IZR_Zpower by lia; reflexivity). apply IZR_le. lia.
      * unfold Q. rewrite <- bpow_plus. apply bpow_le. lia.
    + exact Hx'.
    + exists s. split; [exact V|]. rewrite NR, PR in B. fold Q in B. change eps with (/ 2 ^ 53) in B.
      assert (ET : rsum (map exact (grid_cells dims)) = 0).
      { destruct k as [|k']; [lia|]. exact (laplace_total nd m (Nat.iter k' (laplace arR dims) (fun g => SF2R radix2 (lap_init arD dsin m_pi m nd g))) ltac:(lia)). }
      assert (DT : Rabs (rsum (map (fun g => val (G g)) (grid_cells dims))) <= IZR (prodZ dims) * (INR k * (2 * INR nd + 3) * (/ 2 ^ 53 * Q))).
      { replace (rsum (map (fun g => val (G g)) (grid_cells dims))) with (rsum (map (fun g => val (G g) + -1 * exact g) (grid_cells dims))) by (rewrite rsum_add, rsum_scale, ET; ring).
        eapply Rle_trans; [apply rsum_abs|]. rewrite <- NR, <- rsum_const. apply rsum_le. intros g Hgc. apply in_cells' in Hgc.
        replace (val (G g) + -1 * exact g) with (val (G g) - exact g) by ring. apply HE, Hgc. }
      replace s with ((s - rsum (map (fun g => val (G g)) (grid_cells dims))) + rsum (map (fun g => val (G g)) (grid_cells dims))) by ring.
      eapply Rle_trans; [apply Rabs_triang|]. lra.
  - intros field Hf Hk0. rewrite Ev in Hf. destruct vtk; [|discriminate].
    assert (Ef : field = map G (col_major (repeat 0%Z nd) dims)) by (clear - Hf Hk0; destruct k; [lia|injection Hf as <-; reflexivity]). subst field.
    assert (Hl : forall g, In g (col_major (repeat 0%Z nd) dims) -> in_grid dims g).
    { intros g Hgc. apply in_cells'. unfold grid_cells. replace (length dims) with nd by (unfold dims; rewrite repeat_length; reflexivity). exact Hgc. }
    specialize (F2 _ Hl). clear - F2. revert F2. generalize (map G (col_major (repeat 0%Z nd) dims)) (col_major (repeat 0%Z nd) dims). intros f0 c0 F2. induction F2 as [|x g l1 l2 (v & V & _ & B) _ IH]; [constructor|]. constructor; [exists v; split; [exact V|exact B]|exact IH].
Qed.
Print Assumptions C81_benchmark.

(** ** The eigenfunction, up to rounding and to the accuracy of the sine *)
Lemma laplace_iter_close nd m k F H c : (nd <= 32)%nat -> (0 < m)%Z -> (forall g, in_grid (repeat m nd) g -> Rabs (F g - H g) <= c) ->
  forall g, in_grid (repeat m nd) g ->
  Rabs (Nat.iter k (laplace arR (repeat m nd)) F g - Nat.iter k (laplace arR (repeat m nd)) H g) <= IZR (4 * Z.of_nat nd) ^ k * c.
Proof.
  intros Hnd Hm HF. induction k as [|k IH]; intros g Hg; [cbn [pow]; rewrite Rmult_1_l; exact (HF g Hg)|].
  change (Nat.iter (S k) (laplace arR (repeat m nd)) ?X) with (laplace arR (repeat m nd) (Nat.iter k (laplace arR (repeat m nd)) X)).
  rewrite (laplace_sub nd Hnd m _ _ g Hg). cbn [pow]. rewrite Rmult_assoc. apply (laplace_bound nd Hnd m _ _ g Hm Hg). exact IH.
Qed.

Lemma laplace_ext nd m F H g : (nd <= 32)%nat -> (0 < m)%Z -> in_grid (repeat m nd) g -> (forall h, in_grid (repeat m nd) h -> F h = H h) ->
  laplace arR (repeat m nd) F g = laplace arR (repeat m nd) H g.
Proof.
  intros Hnd Hm Hg HF. pose proof (laplace_bound nd Hnd m (fun h => F h - H h) 0 g Hm Hg) as B. rewrite <- (laplace_sub nd Hnd m F H g Hg), Rmult_0_r in B.
  assert (Q : Rabs (laplace arR (repeat m nd) F g - laplace arR (repeat m nd) H g) <= 0) by (apply B; intros h Hh; rewrite (HF h Hh), Rminus_eq_0, Rabs_R0; lra).
  apply Rminus_diag_uniq. destruct (Req_dec (laplace arR (repeat m nd) F g - laplace arR (repeat m nd) H g) 0) as [E|N]; [exact E|]. apply Rabs_pos_lt in N. lra.
Qed.

Lemma sines_iter nd m k : (nd <= 32)%nat -> (0 < m)%Z -> forall g, in_grid (repeat m nd) g -> Nat.iter k (laplace arR (repeat m nd)) (sines m) g = lap_lambda m nd ^ k * sines m g.
Proof.
  intros Hnd Hm. induction k as [|k IH]; intros g Hg; [cbn [pow]; rewrite Rmult_1_l; reflexivity|].
  change (Nat.iter (S k) (laplace arR (repeat m nd)) (sines m)) with (laplace arR (repeat m nd) (Nat.iter k (laplace arR (repeat m nd)) (sines m))).
  rewrite (laplace_ext nd m _ _ g Hnd Hm Hg IH). cbn [pow].
  assert (EL : laplace arR (repeat m nd) (fun h => lap_lambda m nd ^ k * sines m h) g = lap_lambda m nd ^ k * laplace arR (repeat m nd) (sines m) g).
  { rewrite !(laplace_ints nd Hnd m _ g Hg), <- rsum_scale. f_equal. apply map_ext. intros p. ring. }
  rewrite EL, laplace_sines by auto. ring.
Qed.

Theorem C81_eigenfunction dsin m_pi sz m nd k e vtk delta :
  let dims := repeat m nd in
  let wave g := prodR (map (fun x => sin (2 * PI * ((IZR x + 1 / 2) / IZR m))) g) in
  sane_sin dsin -> sane_pi m_pi ->
  grid_ok dims -> (1 <= sz <= 2 ^ 30)%Z -> decomposable sz dims -> (m | 2 ^ 64)%Z ->
  (0 <= e)%Z -> (4 * Z.of_nat nd <= 2 ^ e)%Z -> (e * Z.of_nat k <= 900)%Z ->
  (forall g, in_grid dims g -> Rabs (SF2R radix2 (lap_init arD dsin m_pi m nd g) - wave g) <= delta) ->
  exists r, lap_body arD dsin m_pi sz m (Z.of_nat nd) k vtk = Ok (Some r) /\
    tiling dims (map fst (in_pieces (lr_world r))) /\
    (forall lo hi data, In (lo, hi, data) (in_pieces (lr_world r)) ->
       Forall2 (fun x g => exists v, double_value x v /\
         Rabs (v - (INR nd * (2 * cos (2 * PI / IZR m) - 2)) ^ k * wave g) <= (delta + INR k * (2 * INR nd + 3) * / 2 ^ 53) * bpow radix2 (e * Z.of_nat k)) data (col_major lo hi)).
Proof.
  intros dims wave Hs Hpi Hg Hn Hd Hm He0 He Hk Hdelta. destruct (square_nd m nd Hg) as (Hnd & Hmr).
  destruct (C81_benchmark dsin m_pi sz m nd k e vtk Hs Hpi Hg Hn Hd Hm He0 He Hk) as (r & Er & Ht & Hp & _). exists r. split; [exact Er|]. split; [exact Ht|].
  intros lo hi data Hin. pose proof (Hp lo hi data (or_introl Hin)) as F2. apply (in_map fst) in Hin. destruct (proj1 Ht lo hi Hin) as (L1 & L2 & Hb). fold dims in L1, L2, Hb.
  assert (Hgr : forall g, In g (col_major lo hi) -> in_grid dims g) by (intros g Hgc; apply Hb; apply (in_nested_loops false); [congruence|exact Hgc]).
  revert F2 Hgr. generalize (col_major lo hi). intros cells F2 Hgr.
  revert Hgr. clear Hin. induction F2 as [|x g l1 l2 (v & V & _ & B) _ IH]; intros Hgr; [constructor|]. constructor; [|apply IH; intros h Hh; apply Hgr; right; exact Hh].
  pose proof (Hgr g (or_introl eq_refl)) as Hgg. exists v. split; [exact V|].
  pose proof (laplace_iter_close nd m k _ (sines m) delta ltac:(lia) ltac:(lia) Hdelta g Hgg) as C. rewrite (sines_iter nd m k ltac:(lia) ltac:(lia) g Hgg) in C.
  change (lap_lambda m nd ^ k * sines m g) with ((INR nd * (2 * cos (2 * PI / IZR m) - 2)) ^ k * wave g) in C.
  set (T := (INR nd * (2 * cos (2 * PI / IZR m) - 2)) ^ k * wave g) in *.
  assert (D0 : 0 <= delta) by (eapply Rle_trans; [apply Rabs_pos|exact (Hdelta g Hgg)]).
  assert (PW : IZR (4 * Z.of_nat nd) ^ k <= bpow radix2 (e * Z.of_nat k)).
  { apply Rle_trans with (IZR (2 ^ e) ^ k).
    - apply pow_incr. split; [apply IZR_le; lia|apply IZR_le; exact He].
    - right. rewrite pow_IZR, <- Z.pow_mul_r by lia. change (2 ^ (e * Z.of_nat k))%Z with (Zpower radix2 (e * Z.of_nat k)). apply IZR_Zpower. lia. }
  assert (PD : IZR (4 * Z.of_nat nd) ^ k * delta <= bpow radix2 (e * Z.of_nat k) * delta) by (apply Rmult_le_compat_r; [exact D0|exact PW]).
  match type of B with Rabs (v - ?X) <= _ => change (Rabs (X - T) <= IZR (4 * Z.of_nat nd) ^ k * delta) in C; set (X0 := X) in * end.
  replace (v - T) with ((v - X0) + (X0 - T)) by ring. eapply Rle_trans; [apply Rabs_triang|]. lra.
Qed.
Print Assumptions C81_eigenfunction.

(** ** Constants *)
Local Notation one := (S754_finite false 4503599627370496 (-52)).
(** In one and two dimensions the stencil maps constants to zero exactly, ... *)
Theorem C81_constants m nd st x r g : (1 <= nd <= 2)%nat -> double_value x r -> Rabs r <= bpow radix2 990 -> lap_stencil arD (Z.of_nat nd) = Ok st ->
  double_value (stencil_sum arD (repeat m nd) st (fun _ => x) g) 0.
Proof.
  intros Hnd V B Est. pose proof (dv_fmt _ _ V) as F.
  assert (B1 : bpow radix2 990 * 8 <= bpow radix2 1000) by (change 8 with (bpow radix2 3); rewrite <- bpow_plus; apply bpow_le; lia). pose proof (bpow_gt_0 radix2 990) as B0.
  assert (Hr : - bpow radix2 990 <= r <= bpow radix2 990) by (apply Rabs_le_inv; exact B).
  pose proof (fmt_double r F) as F2. pose proof (fmt_opp _ F) as F'. pose proof (fmt_opp _ F2) as F2'.
  assert (F4 : fmt (-4 * r)) by (replace (-4 * r) with (2 * - (2 * r)) by ring; apply fmt_double; exact F2').
  assert (M1 : double_value (a_mul arD one x) r).
  { pose proof (dv_mul_large _ _ _ _ dv_dec1 V) as Q. rewrite Rmult_1_l, rnd_fmt in Q by exact F. apply Q. apply Rabs_le. lra. }
  assert (A : forall a b y z, double_value y a -> double_value z b -> fmt (a + b) -> Rabs (a + b) <= bpow radix2 1000 -> double_value (a_add arD y z) (a + b)).
  { intros a b y z Va Vb Fs Bs. rewrite <- (rnd_fmt (a + b)) by exact Fs. apply dv_add_large; assumption. }
  rewrite lap_stencil_eq in Est. injection Est as <-.
  destruct nd as [|[|[|nd]]]; [lia| | |lia].
  - replace (insert_all (lap_entries arD 1) []) with [([-1]%Z, one); ([0]%Z, S754_finite true 4503599627370496 (-51)); ([1]%Z, one)] by (vm_compute; reflexivity).
    assert (W : double_value (S754_finite true 4503599627370496 (-51)) (-2)) by (split; [reflexivity|]; split; [reflexivity|]; cbn [SF2R cond_Zopp]; unfold F2R; cbn [Fnum Fexp]; rewrite bpow_powerRZ; simpl; lra).
    assert (M2 : double_value (a_mul arD (S754_finite true 4503599627370496 (-51)) x) (- (2 * r))).
    { replace (- (2 * r)) with (-2 * r) by ring. rewrite <- (rnd_fmt (-2 * r)) by (replace (-2 * r) with (- (2 * r)) by ring; exact F2'). apply dv_mul_large; [exact W|exact V|apply Rabs_le; lra]. }
    unfold stencil_sum. cbn [fold_left snd].
    assert (S1 : double_value (a_add arD (a_zero arD) (a_mul arD one x)) r) by (replace r with (0 + r) by ring; apply A; [exact dv_azero|exact M1|rewrite Rplus_0_l; exact F|apply Rabs_le; lra]).
    assert (S2 : double_value (a_add arD (a_add arD (a_zero arD) (a_mul arD one x)) (a_mul arD (S754_finite true 4503599627370496 (-51)) x)) (- r)).
    { replace (- r) with (r + - (2 * r)) by ring. apply A; [exact S1|exact M2|replace (r + - (2 * r)) with (- r) by ring; exact F'|apply Rabs_le; lra]. }
    replace 0 with (- r + r) by ring. apply A; [exact S2|exact M1|replace (- r + r) with 0 by ring; exact fmt_0|apply Rabs_le; lra].
  - replace (insert_all (lap_entries arD 2) []) with
      [([-1; 0]%Z, one); ([0; -1]%Z, one); ([0; 0]%Z, S754_finite true 4503599627370496 (-50)); ([0; 1]%Z, one); ([1; 0]%Z, one)] by (vm_compute; reflexivity).
    assert (W : double_value (S754_finite true 4503599627370496 (-50)) (-4)) by (split; [reflexivity|]; split; [reflexivity|]; cbn [SF2R cond_Zopp]; unfold F2R; cbn [Fnum Fexp]; rewrite bpow_powerRZ; simpl; lra).
    assert (M2 : double_value (a_mul arD (S754_finite true 4503599627370496 (-50)) x) (-4 * r)).
    { rewrite <- (rnd_fmt (-4 * r)) by exact F4. apply dv_mul_large; [exact W|exact V|apply Rabs_le; lra]. }
    unfold stencil_sum. cbn [fold_left snd].
    assert (S1 : double_value (a_add arD (a_zero arD) (a_mul arD one x)) r) by (replace r with (0 + r) by ring; apply A; [exact dv_azero|exact M1|rewrite Rplus_0_l; exact F|apply Rabs_le; lra]).
    assert (S2 : double_value (a_add arD (a_add arD (a_zero arD) (a_mul arD one x)) (a_mul arD one x)) (2 * r)).
    { replace (2 * r) with (r + r) by ring. apply A; [exact S1|exact M1|replace (r + r) with (2 * r) by ring; exact F2|apply Rabs_le; lra]. }
    set (s2 := a_add arD (a_add arD (a_zero arD) (a_mul arD one x)) (a_mul arD one x)) in *.
    assert (S3 : double_value (a_add arD s2 (a_mul arD (S754_finite true 4503599627370496 (-50)) x)) (- (2 * r))).
    { replace (- (2 * r)) with (2 * r + -4 * r) by ring. apply A; [exact S2|exact M2|replace (2 * r + -4 * r) with (- (2 * r)) by ring; exact F2'|apply Rabs_le; lra]. }
    set (s3 := a_add arD s2 (a_mul arD (S754_finite true 4503599627370496 (-50)) x)) in *.
    assert (S4 : double_value (a_add arD s3 (a_mul arD one x)) (- r)).
    { replace (- r) with (- (2 * r) + r) by ring. apply A; [exact S3|exact M1|replace (- (2 * r) + r) with (- r) by ring; exact F'|apply Rabs_le; lra]. }
    replace 0 with (- r + r) by ring. apply A; [exact S4|exact M1|replace (- r + r) with 0 by ring; exact fmt_0|apply Rabs_le; lra].
Qed.
Print Assumptions C81_constants.

(** ... in three dimensions it does not: for the double after 1 the result is - 2^-51. *)
Theorem C81_constants_3d_refuted : exists x r st,
  double_value x r /\ 1 <= r <= 2 /\ lap_stencil arD 3 = Ok st /\
  forall m g, double_value (stencil_sum arD (repeat m 3) st (fun _ => x) g) (- bpow radix2 (-51)).
Proof.
  exists (S754_finite false 4503599627370497 (-52)), (1 + / 2 ^ 52), (insert_all (lap_entries arD 3) []).
  split; [split; [reflexivity|]; split; [reflexivity|]; cbn [SF2R cond_Zopp]; unfold F2R; cbn [Fnum Fexp]; rewrite bpow_powerRZ; simpl; lra|].
  split; [simpl; lra|]. split; [exact (lap_stencil_eq arD 3)|]. intros m g.
  replace (stencil_sum arD (repeat m 3) (insert_all (lap_entries arD 3) []) (fun _ => S754_finite false 4503599627370497 (-52)) g) with (S754_finite true 4503599627370496 (-103)) by (vm_compute; reflexivity).
  split; [reflexivity|]. split; [reflexivity|]. cbn [SF2R cond_Zopp]. unfold F2R. cbn [Fnum Fexp].
  change (IZR (Z.neg 4503599627370496) * bpow radix2 (-103) = - bpow radix2 (-51)).
  replace (IZR (Z.neg 4503599627370496)) with (- bpow radix2 52) by (rewrite bpow_powerRZ; simpl; lra). rewrite Ropp_mult_distr_l_reverse, <- bpow_plus. reflexivity.
Qed.
Print Assumptions C81_constants_3d_refuted.

(** ** Examples *)
(** A sine that meets the hypotheses: the constant zero.  The double nearest to pi. *)
Example ex_sine : sane_sin (fun _ => a_zero arD).
Proof. intros x r _. exists 0. split; [exact dv_azero|rewrite Rabs_R0; lra]. Qed.
Notation m_pi_double := (S754_finite false 7074237752028440 (-51)).
Example ex_pi : sane_pi m_pi_double.
Proof.
  exists (IZR 7074237752028440 * / 2 ^ 51). split; [split; [reflexivity|]; split; [reflexivity|]; cbn [SF2R cond_Zopp]; unfold F2R; cbn [Fnum Fexp]; rewrite bpow_powerRZ; reflexivity|].
  apply Rabs_le. simpl. lra.
Qed.
(** Ten rounds on 64 x 64 cells and 4 processes, in two dimensions: e = 3. *)
Example ex_sizes : grid_ok (repeat 64 2)%Z /\ decomposable 4 (repeat 64 2)%Z /\ (64 | 2 ^ 64)%Z /\ (4 * Z.of_nat 2 <= 2 ^ 3)%Z /\ (3 * Z.of_nat 10 <= 900)%Z.
Proof.
  split; [|split; [|split; [|split]]].
  - split; [discriminate|]. split; [simpl; lia|]. split; [|reflexivity]. intros [|[|j]] Hj; simpl in *; lia.
  - exists [2; 2]%Z. split; [reflexivity|]. split; [|reflexivity]. intros [|[|j]] Hj; simpl in *; try lia; (split; [lia|]); exists 32%Z; lia.
  - exists (2 ^ 58)%Z. reflexivity.
  - vm_compute. discriminate.
  - vm_compute. discriminate.
Qed.
(** A run: with (x - pi) / 4 in place of the sine, one round on 4 x 4 cells and 2 processes; the check sums of the processes. *)
Definition ex_saw (x : spec_float) : spec_float := a_div arD (a_sub arD x m_pi_double) (a_ofZ arD 4).
Example ex_run : exists r, lap_body arD ex_saw m_pi_double 2 4 2 1 false = Ok (Some r) /\ lr_in r = lr_out r /\ length (lr_in r) = 2%nat.
Proof. eexists. split; [vm_compute; reflexivity|]. split; reflexivity. Qed.
