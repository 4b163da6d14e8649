(** * How small the values of the Fortran versions get *)
From Coq Require Import Reals ZArith Lia Lra Psatz Floats.SpecFloat List Permutation String.
From Flocq Require Import Core BinarySingleNaN.
From Verif Require Import Cpp CppProof MaiModel MaiSpec Radix MaiProof CdModel CdSpec FilterModel FilterSpec FilterProof FilterSum RealArith LapSpec
  UpModel UpSpec UpProof UpExact UpProps LangSpec FortModel FortProof FortProps Ieee Double DblSpec DblProof DblField DblProps FlowProof FortDbl.
From Coq Require Import List.
Import ListNotations.
Local Open Scope R_scope.
Local Arguments prodZ : simpl never.
Local Arguments Z.of_nat : simpl never.

(** A tenth, a little less and a little more *)
Definition lam : R := IZR (10 ^ 12 - 1) / IZR (10 ^ 13).
Definition mu : R := IZR (10 ^ 12 + 1) / IZR (10 ^ 13).
Lemma lam_mu : / 11 <= lam <= / 10 /\ / 10 <= mu <= 1 / 9 /\ lam <= / 10 - / 10 ^ 13 /\ / 10 + / 10 ^ 13 <= mu.
Proof.
  unfold lam, mu. change (10 ^ 12 - 1)%Z with 999999999999%Z. change (10 ^ 12 + 1)%Z with 1000000000001%Z. change (10 ^ 13)%Z with 10000000000000%Z.
  replace (10 ^ 13) with 10000000000000 by (simpl; ring). lra.
Qed.

(** [u] is so large that the smallest double does not matter *)
Definition visible (u : R) : Prop := 2 ^ 12 * eta <= / 10 ^ 14 * u.
Lemma visible_le u v : u <= v -> visible u -> visible v.
Proof. unfold visible. intros H V. apply Rle_trans with (1 := V). apply Rmult_le_compat_l; [|exact H]. apply Rlt_le, Rinv_0_lt_compat, pow_lt. lra. Qed.
Lemma visible_lam k : (k <= 280)%nat -> visible (lam ^ k).
Proof.
  intros Hk. destruct lam_mu as (L & _). apply visible_le with ((/ 11) ^ 280).
  - apply Rle_trans with ((/ 11) ^ k); [|apply pow_incr; lra]. rewrite !pow_inv. apply Rinv_le; [apply pow_lt; lra|]. apply Rle_pow; [lra|exact Hk].
  - unfold visible. rewrite pow_inv. rewrite <- Rinv_mult. unfold eta.
    replace (2 ^ 12) with (bpow radix2 12) by (rewrite bpow_powerRZ; reflexivity). rewrite <- bpow_plus. change (12 + -1075)%Z with (- (1063))%Z. rewrite bpow_opp.
    apply Rinv_le; [apply Rmult_lt_0_compat; apply pow_lt; lra|]. rewrite !pow_IZR, <- mult_IZR. rewrite <- (IZR_Zpower radix2) by lia. apply IZR_le.
    apply Z.leb_le. vm_compute. reflexivity.
Qed.

Section Leak.
  Variables d h : R.
  Hypotheses (Rh : / 2 ^ 11 <= h <= 1) (Rd : 0 <= d <= 111 / 1000 * h) (Sd : Rabs (d - h / 10) <= 3 * eps * h).

  Lemma eps13 : eps * 10 <= / 10 ^ 14 /\ / 10 ^ 14 = / 100000000000000 /\ / 10 ^ 13 = / 10000000000000.
  Proof using Type. unfold eps. repeat split; [simpl; lra|f_equal; simpl; ring|f_equal; simpl; ring]. Qed.

  Lemma rate_tenth : Rabs (d * / h - / 10) <= 3 * eps.
  Proof using Rh Rd Sd.
    destruct (inv_h d h Rh Rd) as (H0 & (I1 & I2) & _). replace (d * / h - / 10) with ((d - h / 10) * / h) by (field; lra). rewrite Rabs_mult, (Rabs_pos_eq (/ h)) by lra.
    apply Rle_trans with (3 * eps * h * / h); [apply Rmult_le_compat_r; lra|]. rewrite Rmult_assoc, Rinv_r by lra. lra.
  Qed.

  (** what an empty cell gets from its neighbour *)
  Lemma leak u : fmt u -> 0 <= u <= 1 -> visible u -> lam * u <= f90_flow d h 0 u <= mu * u.
  Proof using Rh Rd Sd.
    intros Fu Hu V. pose proof (f90_flow_error d h Rh Rd 0 u fmt_0 ltac:(lra) Fu Hu) as E. pose proof rate_tenth as K. destruct eps13 as (E13 & E14 & E15).
    unfold visible in V. rewrite E14 in *. apply Rabs_le_inv in E, K. destruct lam_mu as (_ & _ & L & M). rewrite E15 in *. pose proof eps_small as Ee.
    replace (- (d * / h) * (u - 0)) with (- (d * / h * u)) in E by ring. rewrite Rplus_0_r in E. set (k := d * / h) in *.
    assert (B : - (3 * eps * u) <= k * u - / 10 * u <= 3 * eps * u) by (rewrite <- Rmult_minus_distr_r; split; [rewrite Ropp_mult_distr_l|]; apply Rmult_le_compat_r; lra).
    assert (Eu : eps * 10 * u <= / 100000000000000 * u) by (apply Rmult_le_compat_r; lra).
    assert (0 <= eps * u) by (apply Rmult_le_pos; lra).
    split.
    - apply Rle_trans with ((/ 10 - / 10000000000000) * u); [apply Rmult_le_compat_r; lra|lra].
    - apply Rle_trans with ((/ 10 + / 10000000000000) * u); [lra|apply Rmult_le_compat_r; lra].
  Qed.
  Lemma leak_nn u : fmt u -> 0 <= u <= 1 -> 0 <= f90_flow d h 0 u.
  Proof using Rh Rd.
    intros Fu Hu. destruct (inv_h d h Rh Rd) as (H0 & (I1 & I2) & _). unfold f90_flow. apply rnd_nn. unfold Rdiv. apply Rmult_le_pos; [|lra]. apply rnd_nn, Rmult_le_pos; [lra|]. apply rnd_nn. lra.
  Qed.
  Lemma leak_0 : f90_flow d h 0 0 = 0.
  Proof using Type. unfold f90_flow. replace (0 - 0) with 0 by ring. rewrite rnd_0, Rmult_0_r, rnd_0. unfold Rdiv. rewrite Rmult_0_l. apply rnd_0. Qed.
  Lemma flow_fmt f u : fmt (f90_flow d h f u).
  Proof using Type. apply rnd_is_fmt. Qed.

  (** one step of a cell of value [f] with the neighbours [u], [v], [w] *)
  Definition cell3 (f u v w : R) : R := rnd64 (rnd64 (rnd64 (f + f90_flow d h f u) + f90_flow d h f v) + f90_flow d h f w).

  Lemma add_ge x y : 0 <= x -> fmt y -> y <= rnd64 (x + y).
  Proof using Type. intros Hx Fy. rewrite <- (rnd_fmt y Fy) at 1. apply rnd_le. lra. Qed.

  Definition unit_fmt (x : R) : Prop := fmt x /\ 0 <= x <= 1.

  (** no nonzero value is smaller than a tenth of the smallest before *)
  Lemma cell3_low f u v w s : unit_fmt f -> unit_fmt u -> unit_fmt v -> unit_fmt w -> visible s ->
    (f = 0 \/ s <= f) -> (u = 0 \/ s <= u) -> (v = 0 \/ s <= v) -> (w = 0 \/ s <= w) -> cell3 f u v w = 0 \/ lam * s <= cell3 f u v w.
  Proof using Rh Rd Sd.
    intros (Ff & Hf) (Fu & Hu) (Fv & Hv) (Fw & Hw) Vs Df Du Dv Dw. destruct lam_mu as (L & _ & _ & _).
    assert (S0 : 0 < s).
    { unfold visible in Vs. pose proof eta_tiny as Te. assert (0 < / 10 ^ 14) by (apply Rinv_0_lt_compat, pow_lt; lra). apply Rmult_lt_reg_l with (/ 10 ^ 14); [assumption|]. rewrite Rmult_0_r. apply Rlt_le_trans with (2 := Vs). apply Rmult_lt_0_compat; [apply pow_lt|]; lra. }
    unfold cell3. destruct Df as [-> | Df].
    - rewrite Rplus_0_l. rewrite (rnd_fmt _ (flow_fmt 0 u)). set (a := f90_flow d h 0 u). set (b := f90_flow d h 0 v). set (c := f90_flow d h 0 w).
      assert (A0 : 0 <= a) by (apply leak_nn; assumption). assert (B0 : 0 <= b) by (apply leak_nn; assumption). assert (C0 : 0 <= c) by (apply leak_nn; assumption).
      assert (AB : 0 <= rnd64 (a + b)) by (apply rnd_nn; lra).
      assert (Q : forall x, fmt x -> 0 <= x <= 1 -> s <= x -> lam * s <= f90_flow d h 0 x).
      { intros x Fx Hx Sx. apply Rle_trans with (lam * x); [apply Rmult_le_compat_l; lra|]. apply leak; [exact Fx|exact Hx|exact (visible_le _ _ Sx Vs)]. }
      assert (GA : a <= rnd64 (a + b)) by (rewrite Rplus_comm; apply add_ge; [exact B0|apply flow_fmt]).
      assert (GB : b <= rnd64 (a + b)) by (apply add_ge; [exact A0|apply flow_fmt]).
      assert (GX : rnd64 (a + b) <= rnd64 (rnd64 (a + b) + c)) by (rewrite (Rplus_comm (rnd64 (a + b))); apply add_ge; [exact C0|apply rnd_is_fmt]).
      assert (GC : c <= rnd64 (rnd64 (a + b) + c)) by (apply add_ge; [exact AB|apply flow_fmt]).
      destruct Dw as [-> | Dw]; [|right; pose proof (Q w Fw Hw Dw); fold c in H; lra].
      destruct Dv as [-> | Dv]; [|right; pose proof (Q v Fv Hv Dv); fold b in H; lra].
      destruct Du as [-> | Du]; [|right; pose proof (Q u Fu Hu Du); fold a in H; lra].
      left. unfold a, b, c. rewrite leak_0, !Rplus_0_r, !rnd_0. reflexivity.
    - right. destruct (f90_low_ok d h Rh Rd f Ff Hf) as (_ & L0 & L3). set (lo := f90_low d h f) in *.
      destruct (f90_flow_ok d h Rh Rd f u Ff Hf Fu Hu) as [P1 _]. destruct (f90_flow_ok d h Rh Rd f v Ff Hf Fv Hv) as [P2 _]. destruct (f90_flow_ok d h Rh Rd f w Ff Hf Fw Hw) as [P3 _]. fold lo in P1, P2, P3.
      set (a := f90_flow d h f u) in *. set (b := f90_flow d h f v) in *. set (c := f90_flow d h f w) in *.
      (* the bound of the decrease *)
      assert (LB : lo <= 12 / 100 * f).
      { pose proof (f90_flow_error d h Rh Rd f 0 Ff Hf fmt_0 ltac:(lra)) as E. pose proof rate_tenth as K. apply Rabs_le_inv in E, K. pose proof eps_small as Ee.
        assert (EQ : f90_flow d h f 0 = - lo).
        { unfold f90_flow, lo, f90_low. replace (0 - f) with (- f) by ring. rewrite (rnd_fmt (- f)) by (apply fmt_opp, Ff). rewrite <- Ropp_mult_distr_r, rnd_opp. unfold Rdiv. rewrite <- Ropp_mult_distr_l. apply rnd_opp. }
        rewrite EQ in E. pose proof (visible_le _ _ Df Vs) as Vf. unfold visible in Vf. destruct eps13 as (_ & E14 & _). rewrite E14 in Vf.
        assert (d * / h * f <= 11 / 100 * f) by (apply Rmult_le_compat_r; lra). assert (eps * f <= / 1000000 * f) by (apply Rmult_le_compat_r; lra).
        replace (- (d * / h) * (0 - f)) with (d * / h * f) in E by ring. lra. }
      assert (F0 : 0 < f) by lra.
      assert (G : forall x t, 0 <= x -> - lo <= t -> x - lo - / 1000 * x <= rnd64 (x + t) \/ x <= 12 / 100 * f).
      { intros x t Hx Ht. destruct (Rle_or_lt x (12 / 100 * f)) as [H|H]; [right; exact H|left]. apply Rle_trans with (rnd64 (x - lo)); [|apply rnd_le; lra].
        pose proof (rnd_error (x - lo)) as R. rewrite (Rabs_pos_eq (x - lo)) in R by lra. apply Rabs_le_inv in R. pose proof eps_small as Ee.
        assert (eps * (x - lo) <= / 1000000 * x) by (apply Rmult_le_compat; lra).
        pose proof (visible_le _ _ Df Vs) as Vf. unfold visible in Vf. destruct eps13 as (_ & E14 & _). rewrite E14 in Vf. pose proof eta_tiny. simpl in Vf. lra. }
      set (x1 := rnd64 (f + a)). set (x2 := rnd64 (x1 + b)). set (x3 := rnd64 (x2 + c)).
      assert (X1 : 87 / 100 * f <= x1) by (destruct (G f a ltac:(lra) P1) as [Q|Q]; fold x1 in Q; lra).
      assert (X2 : 74 / 100 * f <= x2).
      { destruct (Rle_or_lt x1 f) as [U|U].
        - destruct (G x1 b ltac:(lra) P2) as [Q|Q]; fold x2 in Q; lra.
        - apply Rle_trans with (rnd64 (f - lo)); [|apply rnd_le; lra]. destruct (G f (- lo) ltac:(lra) ltac:(lra)) as [Q|Q]; [|lra]. replace (f - lo) with (f + - lo) by ring. lra. }
      assert (X3 : 61 / 100 * f <= x3).
      { destruct (Rle_or_lt x2 f) as [U|U].
        - destruct (G x2 c ltac:(lra) P3) as [Q|Q]; fold x3 in Q; lra.
        - apply Rle_trans with (rnd64 (f - lo)); [|apply rnd_le; lra]. destruct (G f (- lo) ltac:(lra) ltac:(lra)) as [Q|Q]; [|lra]. replace (f - lo) with (f + - lo) by ring. lra. }
      fold x1 x2 x3. assert (lam * s <= / 10 * s) by (apply Rmult_le_compat_r; lra). lra.
  Qed.
End Leak.

Section Front.
  Variable n : Z.
  Hypotheses (H1 : (1 <= n)%Z) (H2 : (n * n * n < 2 ^ 31)%Z).
  Let dims := [n; n; n].
  Variables d h : R.
  Hypotheses (Vh : double_value (a_div arD uno (a_ofZ arD n)) h) (Rh : / 2 ^ 11 <= h <= 1).
  Variable dt : spec_float.
  Hypotheses (Vd : double_value dt d) (Rd : 0 <= d <= 111 / 1000 * h) (Sd : Rabs (d - h / 10) <= 3 * eps * h).
  Notation V := (f90_values n d h).

  Lemma values_unit k g : in_grid dims g -> unit_fmt (V k g).
  Proof using H1 H2 Vh Rh Vd Rd. intros Hg. destruct (proj1 (f90_is n H1 H2 k dt d h Vh Rh Vd Rd) g Hg) as [W R]. split; [exact (dv_fmt _ _ W)|exact R]. Qed.

  Definition down (j : nat) (g : list Z) : list Z := neighbour dims g j (-1).

  Lemma values_step k g : V (S k) g = cell3 d h (V k g) (V k (down 0 g)) (V k (down 1 g)) (V k (down 2 g)).
  Proof using Type. reflexivity. Qed.

  Lemma down_in j g : in_grid dims g -> in_grid dims (down j g).
  Proof using H1 H2. intros Hg. apply neighbour_in; [exact (up_pos _ _ _ (driver_args n H1 H2))|exact Hg]. Qed.

  Lemma values_low k : (k <= 280)%nat -> forall g, in_grid dims g -> V k g = 0 \/ lam ^ k <= V k g.
  Proof using H1 H2 Vh Rh Vd Rd Sd.
    induction k as [|k IH]; intros Hk g Hg.
    - change (V 0 g) with (start g). unfold start. destruct (list_eq_dec _ _ _); [right; simpl; lra|left; reflexivity].
    - rewrite values_step. cbn [pow]. apply cell3_low; try assumption; try (apply values_unit; auto using down_in); try (apply IH; [lia|auto using down_in]). apply visible_lam. lia.
  Qed.

  (** ** The front *)
  Definition level (g : list Z) : Z := (nth 0 g 0 + nth 1 g 0 + nth 2 g 0)%Z.
  Lemma down3 x y z : down 0 [x; y; z] = [(x - 1) mod n; (y + 0) mod n; (z + 0) mod n]%Z /\ down 1 [x; y; z] = [(x + 0) mod n; (y - 1) mod n; (z + 0) mod n]%Z /\
    down 2 [x; y; z] = [(x + 0) mod n; (y + 0) mod n; (z - 1) mod n]%Z.
  Proof using Type. repeat split; reflexivity. Qed.
  Lemma grid3 g : in_grid dims g -> exists x y z, g = [x; y; z] /\ (0 <= x < n)%Z /\ (0 <= y < n)%Z /\ (0 <= z < n)%Z.
  Proof using Type.
    intros (L & _ & H). change (List.length dims) with 3%nat in *. destruct g as [|x [|y [|z [|? ?]]]]; try discriminate L. exists x, y, z. split; [reflexivity|].
    pose proof (H 0%nat ltac:(cbn; lia)) as A. pose proof (H 1%nat ltac:(cbn; lia)) as B. pose proof (H 2%nat ltac:(cbn; lia)) as C. cbn in A, B, C. lia.
  Qed.
  Lemma mod_down x : (0 <= x < n)%Z -> (x - 1 <= (x - 1) mod n)%Z.
  Proof using H1. clear H2 Vh Vd. intros H. destruct (Z.eq_dec x 0) as [->|N]; [pose proof (Z.mod_pos_bound (0 - 1) n ltac:(lia)); lia|rewrite Z.mod_small by lia; lia]. Qed.
  Lemma down_level j g : in_grid dims g -> (j < 3)%nat -> (level g - 1 <= level (down j g))%Z.
  Proof using H1.
    intros Hg Hj. destruct (grid3 g Hg) as (x & y & z & -> & Hx & Hy & Hz). destruct (down3 x y z) as (E0 & E1 & E2).
    pose proof (mod_down x Hx). pose proof (mod_down y Hy). pose proof (mod_down z Hz).
    assert (S : forall a, (0 <= a < n)%Z -> ((a + 0) mod n = a)%Z) by (intros a Ha; rewrite Z.add_0_r; apply Z.mod_small, Ha).
    destruct j as [|[|[|j]]]; [rewrite E0|rewrite E1|rewrite E2|lia]; unfold level; cbn [nth]; rewrite ?S by assumption; lia.
  Qed.

  Lemma values_ahead k : forall g, in_grid dims g -> (Z.of_nat k < level g)%Z -> V k g = 0.
  Proof using H1 H2.
    induction k as [|k IH]; intros g Hg HL.
    - change (V 0 g) with (start g). unfold start. destruct (list_eq_dec _ _ _) as [->|_]; [|reflexivity]. cbn in HL. lia.
    - rewrite values_step. rewrite (IH g Hg) by lia. rewrite !IH by (auto using down_in; pose proof (down_level 0 g Hg); pose proof (down_level 1 g Hg); pose proof (down_level 2 g Hg); lia).
      unfold cell3. rewrite leak_0, !Rplus_0_r, !rnd_0. reflexivity.
  Qed.

  (** the cell reached last along the first axis *)
  Lemma values_front k : (k <= 280)%nat -> (Z.of_nat k < n)%Z -> lam ^ k <= V k [Z.of_nat k; 0%Z; 0%Z] <= mu ^ k.
  Proof using H1 H2 Vh Rh Vd Rd Sd.
    induction k as [|k IH]; intros Hk Hn; [change (V 0 [Z.of_nat 0; 0%Z; 0%Z]) with 1; simpl; lra|].
    assert (Hg : forall a, (0 <= a < n)%Z -> in_grid dims [a; 0%Z; 0%Z]).
    { intros a Ha. split; [reflexivity|]. split; [reflexivity|]. intros [|[|[|j]]] Hj; cbn in Hj |- *; lia. }
    specialize (IH ltac:(lia) ltac:(lia)). set (g := [Z.of_nat (S k); 0%Z; 0%Z]). assert (Gg : in_grid dims g) by (apply Hg; lia).
    rewrite values_step. destruct (down3 (Z.of_nat (S k)) 0 0) as (E0 & E1 & E2). fold g in E0, E1, E2.
    assert (M0 : forall a, (0 <= a < n)%Z -> ((a + 0) mod n = a)%Z) by (intros a Ha; rewrite Z.add_0_r; apply Z.mod_small, Ha).
    assert (D0 : down 0 g = [Z.of_nat k; 0%Z; 0%Z]) by (rewrite E0, !M0 by lia; rewrite Z.mod_small by lia; f_equal; lia).
    assert (M1 : ((0 - 1) mod n = n - 1)%Z) by (rewrite <- (Z_mod_plus_full (0 - 1) 1 n); rewrite Z.mod_small; lia).
    assert (Z0 : V k g = 0) by (apply values_ahead; [exact Gg|unfold g, level; cbn [nth]; lia]).
    assert (Z1 : V k (down 1 g) = 0) by (apply values_ahead; [apply down_in, Gg|rewrite E1, !M0, M1 by lia; unfold level; cbn [nth]; lia]).
    assert (Z2 : V k (down 2 g) = 0) by (apply values_ahead; [apply down_in, Gg|rewrite E2, !M0, M1 by lia; unfold level; cbn [nth]; lia]).
    rewrite Z0, Z1, Z2, D0. unfold cell3. rewrite leak_0, !Rplus_0_r, Rplus_0_l. rewrite !(rnd_fmt _ (rnd_is_fmt _)), !(rnd_fmt _ (flow_fmt _ _ _ _)).
    destruct (values_unit k [Z.of_nat k; 0%Z; 0%Z] (Hg (Z.of_nat k) ltac:(lia))) as (Fu & Hu). set (u := V k [Z.of_nat k; 0%Z; 0%Z]) in *.
    pose proof (leak d h Rh Rd Sd u Fu Hu (visible_le _ _ (proj1 IH) (visible_lam k ltac:(lia)))) as B. destruct lam_mu as (L & M & _). cbn [pow]. split.
    - apply Rle_trans with (lam * u); [apply Rmult_le_compat_l; lra|apply B].
    - apply Rle_trans with (mu * u); [apply B|apply Rmult_le_compat_l; lra].
  Qed.
End Front.
