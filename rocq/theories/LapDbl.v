(** * A stencil with integer weights applied in double precision; sums in any order *)
From Coq Require Import Reals ZArith Lia Lra Psatz Floats.SpecFloat List Permutation.
From Flocq Require Import Core BinarySingleNaN.
From Verif Require Import Cpp MaiSpec Radix MaiProof CdModel CdSpec FilterModel FilterSpec FilterProof FilterSum RealArith UpSpec UpExact
  UpMpiSpec UpMpiProof LapModel LapSpec LapProof LapProps Ieee Double DblSpec DblProof DblField DblSten MmProps.
From Coq Require Import List.
Import ListNotations.
Local Open Scope R_scope.
Local Arguments prodZ : simpl never.
Local Arguments Z.of_nat : simpl never.

(** ** Rounding keeps bounds of the form j 2^b *)
Lemma rnd_scaled x j b : (0 <= b)%Z -> (0 <= j <= 2 ^ 53)%Z -> Rabs x <= IZR j * bpow radix2 b -> Rabs (rnd64 x) <= IZR j * bpow radix2 b.
Proof. intros Hb Hj Hx. apply abs_round_le_generic; auto with typeclass_instances. apply fmt_scaled; lia. Qed.

Lemma bpow_ge_1 b : (0 <= b)%Z -> 1 <= bpow radix2 b.
Proof. intros H. change 1 with (bpow radix2 0). apply bpow_le, H. Qed.

(** ** One application *)
Definition zf (x : spec_float) : Z := Zfloor (val x).
Definition wabs (l : list (spec_float * spec_float)) : Z := fold_right Z.add 0%Z (map (fun p => Z.abs (zf (fst p))) l).

Lemma wabs_nn l : (0 <= wabs l)%Z.
Proof. induction l as [|p l IH]; [reflexivity|]. unfold wabs in *. cbn [map fold_right]. lia. Qed.

Lemma isum b S l : (0 <= b)%Z -> (0 <= S <= 2 ^ 53)%Z -> IZR S * bpow radix2 b <= bpow radix2 1000 ->
  (forall p, In p l -> double_value (fst p) (IZR (zf (fst p))) /\ double_value (snd p) (val (snd p)) /\ Rabs (val (snd p)) <= bpow radix2 b) ->
  forall acc a A j err, double_value acc a -> (0 <= j)%Z -> Rabs a <= IZR j * bpow radix2 b -> Rabs (a - A) <= err -> (j + wabs l <= S)%Z ->
  exists r, double_value (fold_left (fun c p => a_add arD c (a_mul arD (fst p) (snd p))) l acc) r /\
    Rabs r <= IZR (j + wabs l) * bpow radix2 b /\
    Rabs (r - (A + rsum (map (fun p => IZR (zf (fst p)) * val (snd p)) l))) <=
      err + eps * (IZR (wabs l) * bpow radix2 b) + INR (length l) * (eps * (IZR S * bpow radix2 b) + 2 * eta).
Proof.
  intros Hb HS Hmax. pose proof eps_small as E. pose proof eta_tiny as T. pose proof (bpow_gt_0 radix2 b) as B0.
  assert (SB : 0 <= IZR S * bpow radix2 b) by (apply Rmult_le_pos; [apply IZR_le; lia|lra]).
  induction l as [|p l IH]; intros Hp acc a A j err Ha Hj Hab Herr Hsum.
  - exists a. split; [exact Ha|]. unfold wabs, rsum. cbn [map fold_right length INR]. rewrite Z.add_0_r, !Rplus_0_r, !Rmult_0_l, Rmult_0_r. split; [exact Hab|lra].
  - destruct (Hp p (or_introl eq_refl)) as (Vw & Vx & Bx). set (z := zf (fst p)) in *. set (x := val (snd p)) in *.
    assert (Ew : wabs (p :: l) = (Z.abs z + wabs l)%Z) by reflexivity. rewrite Ew in *. pose proof (wabs_nn l) as W0.
    assert (Mb : Rabs (IZR z * x) <= IZR (Z.abs z) * bpow radix2 b) by (rewrite Rabs_mult, abs_IZR; apply Rmult_le_compat_l; [apply Rabs_pos|exact Bx]).
    assert (Le : forall i, (i <= S)%Z -> IZR i * bpow radix2 b <= IZR S * bpow radix2 b) by (intros i Hi; apply Rmult_le_compat_r; [lra|apply IZR_le; exact Hi]).
    pose proof (Le (Z.abs z) ltac:(lia)) as L1.
    pose proof (dv_mul_large _ _ _ _ Vw Vx ltac:(lra)) as Vm.
    pose proof (rnd_scaled (IZR z * x) (Z.abs z) b Hb ltac:(lia) Mb) as Rm.
    assert (Ab : Rabs (a + rnd64 (IZR z * x)) <= IZR (j + Z.abs z) * bpow radix2 b) by (eapply Rle_trans; [apply Rabs_triang|]; rewrite plus_IZR; lra).
    pose proof (Le (j + Z.abs z)%Z ltac:(lia)) as L2.
    pose proof (dv_add_large _ _ _ _ Ha Vm ltac:(lra)) as Va.
    pose proof (rnd_scaled _ (j + Z.abs z)%Z b Hb ltac:(lia) Ab) as Ra.
    pose proof (rnd_error (IZR z * x)) as E1. pose proof (rnd_error (a + rnd64 (IZR z * x))) as E2.
    destruct (IH ltac:(intros q Hq; apply Hp; right; exact Hq) _ _ (A + IZR z * x) (j + Z.abs z)%Z
      (err + eps * (IZR (Z.abs z) * bpow radix2 b) + (eps * (IZR S * bpow radix2 b) + 2 * eta)) Va ltac:(lia) Ra) as (r & Vr & Br & Er).
    + replace (rnd64 (a + rnd64 (IZR z * x)) - (A + IZR z * x)) with
        ((rnd64 (a + rnd64 (IZR z * x)) - (a + rnd64 (IZR z * x))) + ((rnd64 (IZR z * x) - IZR z * x) + (a - A))) by ring.
      eapply Rle_trans; [apply Rabs_triang|]. pose proof (Rabs_triang (rnd64 (IZR z * x) - IZR z * x) (a - A)).
      assert (eps * Rabs (IZR z * x) <= eps * (IZR (Z.abs z) * bpow radix2 b)) by (apply Rmult_le_compat_l; lra).
      assert (eps * Rabs (a + rnd64 (IZR z * x)) <= eps * (IZR S * bpow radix2 b)) by (apply Rmult_le_compat_l; lra). lra.
    + lia.
    + exists r. split; [exact Vr|]. rewrite Z.add_assoc. split; [exact Br|]. cbn [map]. change (rsum (?y :: ?k)) with (y + rsum k). fold z x. rewrite <- Rplus_assoc.
      eapply Rle_trans; [exact Er|]. cbn [length]. rewrite S_INR, plus_IZR. lra.
Qed.

(** ** Adding up bounded doubles in any order *)
Lemma red_large b l x : (0 <= b)%Z -> reduction (a_add arD) l x -> (Z.of_nat (length l) <= 2 ^ 53)%Z -> INR (length l) * bpow radix2 b <= bpow radix2 1000 ->
  (forall y, In y l -> double_value y (val y) /\ Rabs (val y) <= bpow radix2 b) ->
  (1 <= length l)%nat /\ exists r, double_value x r /\ Rabs r <= INR (length l) * bpow radix2 b /\
    forall M, INR (length l) <= M -> Rabs (r - rsum (map val l)) <= (INR (length l) - 1) * (eps * (M * bpow radix2 b) + eta).
Proof.
  intros Hb. pose proof eps_small as E. pose proof eta_tiny as T. pose proof (bpow_gt_0 radix2 b) as B0.
  induction 1 as [x|l l1 l2 a c Hperm _ IH1 _ IH2]; intros HN HM HV.
  - split; [simpl; lia|]. destruct (HV x (or_introl eq_refl)) as (V & P). exists (val x). split; [exact V|]. cbn [length]. change (INR 1) with 1. split; [lra|].
    intros M HM'. cbn [map]. unfold rsum. cbn [fold_right]. rewrite Rplus_0_r, Rminus_eq_0, Rabs_R0. lra.
  - assert (EL : length l = (length l1 + length l2)%nat) by (rewrite (Permutation_length Hperm), app_length; reflexivity).
    assert (V1 : forall y, In y l1 -> double_value y (val y) /\ Rabs (val y) <= bpow radix2 b) by (intros y Hy; apply HV; apply (Permutation_in y (Permutation_sym Hperm)); apply in_or_app; left; exact Hy).
    assert (V2 : forall y, In y l2 -> double_value y (val y) /\ Rabs (val y) <= bpow radix2 b) by (intros y Hy; apply HV; apply (Permutation_in y (Permutation_sym Hperm)); apply in_or_app; right; exact Hy).
    assert (ES : rsum (map val l) = rsum (map val l1) + rsum (map val l2)) by (rewrite (rsum_perm _ _ (Permutation_map val Hperm)), map_app, rsum_app; reflexivity).
    pose proof (pos_INR (length l1)) as P1. pose proof (pos_INR (length l2)) as P2.
    assert (EI : INR (length l) = INR (length l1) + INR (length l2)) by (rewrite EL, plus_INR; reflexivity). rewrite EI in HM |- *.
    assert (B1 : 0 <= INR (length l1) * bpow radix2 b) by (apply Rmult_le_pos; lra). assert (B2 : 0 <= INR (length l2) * bpow radix2 b) by (apply Rmult_le_pos; lra).
    destruct (IH1 ltac:(lia) ltac:(lra) V1) as (L1 & ra & Va & Pa & Ba). destruct (IH2 ltac:(lia) ltac:(lra) V2) as (L2 & rc & Vc & Pc & Bc).
    split; [lia|]. exists (rnd64 (ra + rc)).
    assert (Bs : Rabs (ra + rc) <= (INR (length l1) + INR (length l2)) * bpow radix2 b) by (eapply Rle_trans; [apply Rabs_triang|]; lra).
    split; [apply dv_add_large; [exact Va|exact Vc|lra]|]. split.
    + assert (EZ : INR (length l1) + INR (length l2) = IZR (Z.of_nat (length l))) by (rewrite <- EI; apply INR_IZR_INZ). rewrite EZ in Bs |- *. apply rnd_scaled; [exact Hb|lia|exact Bs].
    + intros M HM'. specialize (Ba M ltac:(lra)). specialize (Bc M ltac:(lra)). rewrite ES.
      pose proof (rnd_error (ra + rc)) as RE.
      replace (rnd64 (ra + rc) - (rsum (map val l1) + rsum (map val l2))) with ((rnd64 (ra + rc) - (ra + rc)) + ((ra - rsum (map val l1)) + (rc - rsum (map val l2)))) by ring.
      eapply Rle_trans; [apply Rabs_triang|]. pose proof (Rabs_triang (ra - rsum (map val l1)) (rc - rsum (map val l2))) as RT.
      assert (eps * Rabs (ra + rc) <= eps * (M * bpow radix2 b)).
      { apply Rmult_le_compat_l; [lra|]. eapply Rle_trans; [exact Bs|]. apply Rmult_le_compat_r; lra. }
      lra.
Qed.

(** Sums of sums are sums. *)
Lemma f2_perm {A B} (R : A -> B -> Prop) s s' : Permutation s s' -> forall ls, Forall2 R s ls -> exists ls', Permutation ls ls' /\ Forall2 R s' ls'.
Proof.
  induction 1 as [|x l l' P IH|x y l|l l' l'' P IH P' IH']; intros ls F.
  - exists ls. split; [reflexivity|exact F].
  - inversion F as [|? b ? bs Rb Fb]; subst. destruct (IH bs Fb) as (bs' & Pb & F'). exists (b :: bs'). split; [apply perm_skip; exact Pb|constructor; assumption].
  - inversion F as [|? b ? bs Rb Fb]; subst. inversion Fb as [|? c ? cs Rc Fc]; subst. exists (c :: b :: cs). split; [apply perm_swap|]. repeat (constructor; [assumption|]). exact Fc.
  - destruct (IH ls F) as (l1 & P1 & F1). destruct (IH' l1 F1) as (l2 & P2 & F2). exists l2. split; [rewrite P1; exact P2|exact F2].
Qed.
Lemma perm_concat {A} (l l' : list (list A)) : Permutation l l' -> Permutation (concat l) (concat l').
Proof.
  induction 1 as [|x l l' P IH|x y l|l l' l'' P IH P' IH']; cbn [concat]; [reflexivity|apply Permutation_app_head; exact IH| |rewrite IH; exact IH'].
  rewrite !app_assoc. apply Permutation_app_tail. apply Permutation_app_comm.
Qed.
Lemma red_perm {D} (add : D -> D -> D) l l' x : Permutation l l' -> reduction add l x -> reduction add l' x.
Proof.
  intros P H. destruct H as [x|l l1 l2 a b Q H1 H2].
  - apply Permutation_length_1_inv in P. subst. constructor.
  - apply (red_node add l' l1 l2 a b); [rewrite <- P; exact Q|exact H1|exact H2].
Qed.
Lemma red_concat {D} (add : D -> D -> D) s x : reduction add s x -> forall ls, Forall2 (fun y l => reduction add l y) s ls -> reduction add (concat ls) x.
Proof.
  induction 1 as [x|l l1 l2 a b P _ IH1 _ IH2]; intros ls F.
  - inversion F as [|? c ? cs Rc Fc]; subst. inversion Fc; subst. cbn [concat]. rewrite app_nil_r. exact Rc.
  - destruct (f2_perm _ _ _ P ls F) as (ls' & Pl & F'). apply Forall2_app_inv_l in F' as (m1 & m2 & F1 & F2 & ->).
    apply (red_perm add (concat m1 ++ concat m2)); [rewrite <- concat_app; symmetry; apply perm_concat; exact Pl|].
    apply (red_node add _ (concat m1) (concat m2)); [reflexivity|apply IH1; exact F1|apply IH2; exact F2].
Qed.

(** ** The weights of the Laplacian *)
Lemma zf_int w z : double_value w (IZR z) -> zf w = z.
Proof. intros H. unfold zf. rewrite (fmt_val _ _ H). apply Zfloor_IZR. Qed.

Lemma dv_dec1 : double_value (a_dec arD 10 1) (IZR 1).
Proof.
  replace (a_dec arD 10 1) with (S754_finite false 4503599627370496 (-52)) by reflexivity.
  split; [reflexivity|]. split; [reflexivity|]. cbn [SF2R cond_Zopp]. unfold F2R. cbn [Fnum Fexp]. rewrite bpow_powerRZ. simpl. lra.
Qed.
Lemma dv_centre n : (n <= 32)%nat -> double_value (a_mul arD (a_neg arD (a_dec arD 20 1)) (a_ofZ arD (Z.of_nat n))) (IZR (- (2 * Z.of_nat n))).
Proof.
  intros Hn. assert (V2 : double_value (a_neg arD (a_dec arD 20 1)) (-2)).
  { replace (a_neg arD (a_dec arD 20 1)) with (S754_finite true 4503599627370496 (-51)) by reflexivity.
    split; [reflexivity|]. split; [reflexivity|]. cbn [SF2R cond_Zopp]. unfold F2R. cbn [Fnum Fexp]. rewrite bpow_powerRZ. simpl. lra. }
  pose proof (dv_ofZ (Z.of_nat n) ltac:(lia)) as Vn.
  assert (E : -2 * IZR (Z.of_nat n) = IZR (- (2 * Z.of_nat n))) by (rewrite opp_IZR, mult_IZR; ring).
  rewrite <- (rnd_IZR (- (2 * Z.of_nat n))) by lia. rewrite <- E. apply dv_mul_large; [exact V2|exact Vn|].
  rewrite E, <- abs_IZR. apply Rle_trans with (bpow radix2 53); [|apply bpow_le; lia].
  replace (bpow radix2 53) with (IZR (2 ^ 53)) by (rewrite <- IZR_Zpower by lia; reflexivity). apply IZR_le. lia.
Qed.

Lemma entry_cases {D} (ar : arith D) n p : In p (lap_entries ar n) ->
  (fst p = repeat 0%Z n /\ snd p = a_mul ar (a_neg ar (a_dec ar 20 1)) (a_ofZ ar (Z.of_nat n))) \/ (length (fst p) = n /\ snd p = a_dec ar 10 1).
Proof.
  intros [<-|H]; [left; split; reflexivity|]. right. apply in_flat_map in H as (i & _ & H).
  destruct H as [<-|[<-|[]]]; cbn [fst snd]; rewrite unit_vec_length; split; reflexivity.
Qed.

Section Weights.
  Variable nd : nat.
  Hypothesis Hnd : (nd <= 32)%nat.
  Let st := insert_all (lap_entries arD nd) [].
  Let stR := insert_all (lap_entries arR nd) [].

  Lemma weight_int p : In p st -> double_value (snd p) (IZR (zf (snd p))) /\ length (fst p) = nd.
  Proof using Hnd.
    intros H. apply (Permutation_in _ (proj1 (lap_perm arD nd))) in H. apply entry_cases in H as [[E1 E2]|[E1 E2]]; rewrite E2.
    - rewrite (zf_int _ _ (dv_centre nd Hnd)). split; [apply dv_centre; exact Hnd|rewrite E1; apply repeat_length].
    - rewrite (zf_int _ _ dv_dec1). split; [exact dv_dec1|exact E1].
  Qed.

  Lemma weights_abs : fold_right Z.add 0%Z (map (fun p : list Z * spec_float => Z.abs (zf (snd p))) st) = (4 * Z.of_nat nd)%Z.
  Proof using Hnd.
    assert (P : forall l l', Permutation l l' -> fold_right Z.add 0%Z l = fold_right Z.add 0%Z l').
    { induction 1 as [|x l l' P IH|x y l|l l' l'' P IH P' IH']; cbn [fold_right]; lia. }
    rewrite (P _ _ (Permutation_map _ (proj1 (lap_perm arD nd)))). cbn [lap_entries map snd fold_right]. rewrite (zf_int _ _ (dv_centre nd Hnd)).
    assert (Q : forall l, fold_right Z.add 0%Z (map (fun p : list Z * spec_float => Z.abs (zf (snd p))) (flat_map (lap_pair arD nd) l)) = (2 * Z.of_nat (length l))%Z).
    { induction l as [|i l IH]; [reflexivity|]. cbn [flat_map lap_pair app map fold_right snd length]. rewrite IH, (zf_int _ _ dv_dec1). lia. }
    rewrite Q, seq_length. lia.
  Qed.

  Lemma weights_count : length st = (2 * nd + 1)%nat.
  Proof using Hnd.
    unfold st. rewrite (Permutation_length (proj1 (lap_perm arD nd))). unfold lap_entries. cbn [length].
    assert (E : forall l, length (flat_map (lap_pair arD nd) l) = (2 * length l)%nat).
    { induction l as [|x l IH]; [reflexivity|]. cbn [flat_map lap_pair app length]. rewrite IH. lia. }
    rewrite E, seq_length. lia.
  Qed.

  Lemma laplace_ints m F g : in_grid (repeat m nd) g ->
    laplace arR (repeat m nd) F g = rsum (map (fun p : list Z * spec_float => IZR (zf (snd p)) * F (wrap (repeat m nd) (shift g (fst p)))) st).
  Proof using Hnd.
    intros Hg. pose proof (lap_is_laplace arR arR_exact (repeat m nd) F g Hg) as E. rewrite repeat_length in E. rewrite <- E.
    rewrite (stencil_sum_as_sum arR arR_exact). unfold st.
    rewrite (sum_perm arR (en_ring _ arR_exact) _ _ (Permutation_map _ (proj1 (lap_perm arR nd)))).
    rewrite (rsum_perm _ _ (Permutation_map _ (proj1 (lap_perm arD nd)))).
    change (sum_of arR) with rsum. f_equal. unfold lap_entries. cbn [map fst snd]. f_equal.
    - rewrite (zf_int _ _ (dv_centre nd Hnd)). cbn [arR a_mul a_neg a_dec a_ofZ]. rewrite opp_IZR, mult_IZR. simpl powerRZ. field.
    - induction (seq 0 nd) as [|i l IH]; [reflexivity|]. cbn [flat_map lap_pair app map fst snd]. rewrite IH, (zf_int _ _ dv_dec1).
      cbn [arR a_mul a_dec]. simpl powerRZ. f_equal; [field|]. f_equal. field.
  Qed.

  (** a field of doubles of absolute value at most 2^b *)
  Definition bfield (dims : list Z) (b : Z) (G : list Z -> spec_float) : Prop :=
    forall g, in_grid dims g -> double_value (G g) (val (G g)) /\ Rabs (val (G g)) <= bpow radix2 b.

  Lemma lap_step m e b G : (0 < m)%Z -> (4 * Z.of_nat nd <= 2 ^ e)%Z -> (0 <= e)%Z -> (0 <= b)%Z -> (e + b <= 1000)%Z -> bfield (repeat m nd) b G ->
    bfield (repeat m nd) (e + b) (stencil_sum arD (repeat m nd) st G) /\
    forall g, in_grid (repeat m nd) g ->
      Rabs (val (stencil_sum arD (repeat m nd) st G g) - laplace arR (repeat m nd) (fun g => val (G g)) g) <= (2 * INR nd + 3) * (eps * bpow radix2 (e + b)).
  Proof using Hnd.
    intros Hm He He0 Hb Hmax HG. pose proof eps_small as E. pose proof eta_tiny as T. pose proof (bpow_gt_0 radix2 b) as B0.
    assert (Hpos : forall j, (j < length (repeat m nd))%nat -> (0 < nth j (repeat m nd) 0)%Z) by (intros j Hj; rewrite repeat_length in Hj; rewrite square_nth by exact Hj; exact Hm).
    assert (SB : IZR (4 * Z.of_nat nd) * bpow radix2 b <= bpow radix2 (e + b)).
    { rewrite bpow_plus. apply Rmult_le_compat_r; [lra|]. rewrite <- IZR_Zpower by exact He0. apply IZR_le. exact He. }
    assert (Q : forall g, in_grid (repeat m nd) g -> exists r, double_value (stencil_sum arD (repeat m nd) st G g) r /\ Rabs r <= bpow radix2 (e + b) /\
      Rabs (r - laplace arR (repeat m nd) (fun g => val (G g)) g) <= (2 * INR nd + 3) * (eps * bpow radix2 (e + b))).
    { intros g Hg. set (l := map (fun p : list Z * spec_float => (snd p, G (wrap (repeat m nd) (shift g (fst p))))) st).
      assert (EW : wabs l = (4 * Z.of_nat nd)%Z) by (rewrite <- weights_abs; unfold wabs, l; rewrite map_map; reflexivity).
      assert (EL : length l = (2 * nd + 1)%nat) by (unfold l; rewrite map_length; apply weights_count).
      destruct (isum b (4 * Z.of_nat nd) l Hb ltac:(lia) ltac:(eapply Rle_trans; [exact SB|apply bpow_le; lia])) with (acc := a_zero arD) (a := 0) (A := 0) (j := 0%Z) (err := 0)
        as (r & Vr & Br & Er).
      - intros p Hin. unfold l in Hin. apply in_map_iff in Hin as (q & <- & Hq). cbn [fst snd]. destruct (weight_int q Hq) as (Vw & Lq). split; [exact Vw|].
        apply HG. apply wrap_in_grid; [exact Hpos|]. apply in_grid_nth in Hg as [Lg _]. rewrite shift_length; [exact Lg|rewrite Lg, repeat_length, Lq; reflexivity].
      - exact dv_azero.
      - lia.
      - rewrite Rabs_R0. lra.
      - rewrite Rminus_eq_0, Rabs_R0. lra.
      - lia.
      - assert (ES : stencil_sum arD (repeat m nd) st G g = fold_left (fun c p => a_add arD c (a_mul arD (fst p) (snd p))) l (a_zero arD)).
        { unfold stencil_sum, l. generalize (a_zero arD). generalize st. intros k. induction k as [|p k IH]; intros a; [reflexivity|]. cbn [map fold_left fst snd]. apply IH. }
        rewrite ES. exists r. split; [exact Vr|]. rewrite Z.add_0_l, EW in Br. split; [lra|].
        rewrite (laplace_ints m _ g Hg). rewrite EW, EL, Rplus_0_l, Rplus_0_l in Er. unfold l in Er. rewrite map_map in Er. cbn [fst snd] in Er.
        eapply Rle_trans; [exact Er|]. rewrite plus_INR, mult_INR. change (INR 2) with 2. change (INR 1) with 1.
        pose proof (pos_INR nd) as N0. assert (N32 : INR nd <= 32) by (replace 32 with (INR 32) by (simpl; lra); apply le_INR; exact Hnd).
        set (X := IZR (4 * Z.of_nat nd) * bpow radix2 b) in *. set (Y := bpow radix2 (e + b)) in *.
        assert (Y1 : 1 <= Y) by (apply bpow_ge_1; lia).
        assert (eps * X <= eps * Y) by (apply Rmult_le_compat_l; lra).
        assert (eta <= / 1000000 * eps) by nra.
        assert ((2 * INR nd + 1) * (2 * eta) <= eps * Y).
        { apply Rle_trans with (65 * (2 * eta)); [apply Rmult_le_compat_r; lra|]. assert (eps * 1 <= eps * Y) by (apply Rmult_le_compat_l; lra). lra. }
        assert ((2 * INR nd + 1) * (eps * X) <= (2 * INR nd + 1) * (eps * Y)) by (apply Rmult_le_compat_l; lra). lra. }
    split.
    - intros g Hg. destruct (Q g Hg) as (r & V & B & _). rewrite (fmt_val _ _ V). split; assumption.
    - intros g Hg. destruct (Q g Hg) as (r & V & _ & B). rewrite (fmt_val _ _ V). exact B.
  Qed.

  (** the Laplacian of a small field is small *)
  Lemma laplace_bound m F c g : (0 < m)%Z -> in_grid (repeat m nd) g -> (forall h, in_grid (repeat m nd) h -> Rabs (F h) <= c) ->
    Rabs (laplace arR (repeat m nd) F g) <= IZR (4 * Z.of_nat nd) * c.
  Proof using Hnd.
    intros Hm Hg HF. rewrite (laplace_ints m F g Hg). eapply Rle_trans; [apply rsum_abs|].
    rewrite <- weights_abs.
    assert (Hpos : forall j, (j < length (repeat m nd))%nat -> (0 < nth j (repeat m nd) 0)%Z) by (intros j Hj; rewrite repeat_length in Hj; rewrite square_nth by exact Hj; exact Hm).
    assert (Q : forall p, In p st -> Rabs (F (wrap (repeat m nd) (shift g (fst p)))) <= c).
    { intros p Hp. apply HF. destruct (weight_int p Hp) as (_ & Lq). apply wrap_in_grid; [exact Hpos|]. apply in_grid_nth in Hg as [Lg _]. rewrite shift_length; [exact Lg|rewrite Lg, repeat_length, Lq; reflexivity]. }
    revert Q. clear -Hnd. generalize st. intros l Q. induction l as [|p l IH]; [unfold rsum; simpl; lra|].
    cbn [map fold_right]. change (rsum (?y :: ?k)) with (y + rsum k). rewrite plus_IZR, Rmult_plus_distr_r. apply Rplus_le_compat.
    - rewrite Rabs_mult, abs_IZR. apply Rmult_le_compat_l; [apply Rabs_pos|apply Q; left; reflexivity].
    - apply IH. intros q Hq. apply Q. right. exact Hq.
  Qed.

  Lemma laplace_sub m F H g : in_grid (repeat m nd) g ->
    laplace arR (repeat m nd) F g - laplace arR (repeat m nd) H g = laplace arR (repeat m nd) (fun h => F h - H h) g.
  Proof using Hnd.
    intros Hg. rewrite !(laplace_ints m _ g Hg). generalize st. intros l. induction l as [|p l IH]; [unfold rsum; simpl; lra|].
    cbn [map]. change (rsum (?y :: ?k)) with (y + rsum k). rewrite <- IH. ring.
  Qed.

  (** ** Many applications *)
  Lemma lap_many m e G k : (0 < m)%Z -> (4 * Z.of_nat nd <= 2 ^ e)%Z -> (0 <= e)%Z -> (e * Z.of_nat k <= 1000)%Z -> bfield (repeat m nd) 0 G ->
    bfield (repeat m nd) (e * Z.of_nat k) (stencil_iter arD k (repeat m nd) st G) /\
    forall g, in_grid (repeat m nd) g ->
      Rabs (val (stencil_iter arD k (repeat m nd) st G g) - Nat.iter k (laplace arR (repeat m nd)) (fun g => val (G g)) g) <=
        INR k * (2 * INR nd + 3) * (eps * bpow radix2 (e * Z.of_nat k)).
  Proof using Hnd.
    intros Hm He He0. induction k as [|k IH]; intros Hmax HG.
    - change (Z.of_nat 0) with 0%Z. rewrite Z.mul_0_r. cbn [stencil_iter Nat.iter nat_rect INR]. split; [exact HG|]. intros g Hg. change (Nat.iter 0 (laplace arR (repeat m nd)) (fun g => val (G g)) g) with (val (G g)). rewrite Rminus_eq_0, Rabs_R0. lra.
    - destruct (IH ltac:(nia) HG) as (B & Er). assert (EB : (e * Z.of_nat (S k) = e + e * Z.of_nat k)%Z) by lia. rewrite EB in *.
      destruct (lap_step m e (e * Z.of_nat k) _ Hm He He0 ltac:(lia) Hmax B) as (B' & Er'). cbn [stencil_iter]. split; [exact B'|].
      intros g Hg. set (P := stencil_iter arD k (repeat m nd) st G) in *. set (H := Nat.iter k (laplace arR (repeat m nd)) (fun g => val (G g))) in *.
      change (Nat.iter (S k) (laplace arR (repeat m nd)) (fun g => val (G g)) g) with (laplace arR (repeat m nd) H g).
      replace (val (stencil_sum arD (repeat m nd) st P g) - laplace arR (repeat m nd) H g) with
        ((val (stencil_sum arD (repeat m nd) st P g) - laplace arR (repeat m nd) (fun g => val (P g)) g) + (laplace arR (repeat m nd) (fun g => val (P g)) g - laplace arR (repeat m nd) H g)) by ring.
      eapply Rle_trans; [apply Rabs_triang|]. rewrite (laplace_sub m _ H g Hg).
      pose proof (laplace_bound m (fun h => val (P h) - H h) _ g Hm Hg Er) as L. specialize (Er' g Hg).
      set (c := INR k * (2 * INR nd + 3) * (eps * bpow radix2 (e * Z.of_nat k))) in *.
      assert (C0 : 0 <= c). { unfold c. pose proof (pos_INR k). pose proof (pos_INR nd). pose proof eps_small. pose proof (bpow_gt_0 radix2 (e * Z.of_nat k)).
        repeat apply Rmult_le_pos; lra. }
      assert (IZR (4 * Z.of_nat nd) * c <= INR k * (2 * INR nd + 3) * (eps * bpow radix2 (e + e * Z.of_nat k))).
      { rewrite bpow_plus. apply Rle_trans with (bpow radix2 e * c); [apply Rmult_le_compat_r; [exact C0|]; rewrite <- IZR_Zpower by exact He0; apply IZR_le; exact He|]. unfold c. lra. }
      rewrite S_INR. lra.
  Qed.

  (** the exact Laplacian adds up to zero *)
  Lemma laplace_total m F : (0 < m)%Z -> rsum (map (laplace arR (repeat m nd) F) (grid_cells (repeat m nd))) = 0.
  Proof using Type.
    intros Hm. set (dims := repeat m nd).
    rewrite (map_ext_in _ (stencil_sum arR dims stR F)).
    2:{ intros g Hg. apply in_cells' in Hg. pose proof (lap_is_laplace arR arR_exact dims F g Hg) as E. unfold dims in E at 2. rewrite repeat_length in E. symmetry. exact E. }
    pose proof (stencil_total arR (en_ring _ arR_exact) dims stR F) as Q.
    assert (Hpos : forall j, (j < length dims)%nat -> (0 < nth j dims 0)%Z) by (intros j Hj; unfold dims in *; rewrite repeat_length in Hj; rewrite square_nth by exact Hj; exact Hm).
    specialize (Q Hpos). assert (Hl : forall off w, In (off, w) stR -> length off = length dims).
    { intros off w Hin. apply (Permutation_in _ (proj1 (lap_perm arR nd))) in Hin. unfold dims. rewrite repeat_length. apply entry_cases in Hin as [[E1 _]|[E1 _]]; cbn [fst] in E1; [rewrite E1; apply repeat_length|exact E1]. }
    specialize (Q Hl). unfold stR in Q at 2. rewrite (lap_weights arR arR_exact) in Q. cbn [arR a_mul a_zero] in Q. rewrite Rmult_0_l in Q. exact Q.
  Qed.
End Weights.
