(** * The standard deviation computed in double precision *)
From Coq Require Import Reals ZArith Lia Lra Psatz Floats.SpecFloat List Permutation.
From Flocq Require Import Core BinarySingleNaN.
From Verif Require Import Cpp CppProof MaiProof CdModel UpModel FilterSpec FilterSum RealArith UpSpec UpProof UpExact Ieee Double DblSpec DblProof DblField RoundProof.
From Coq Require Import List.
Import ListNotations.
Local Open Scope R_scope.

(** ** Square roots of doubles *)
(** std::sqrt of upwind.cxx:102 on doubles, assumed correctly rounded as IEEE 754 requires *)
Definition dbl_sqrt : spec_float -> spec_float := SFsqrt 53 1024.

Lemma SFsqrt_equiv (x : b64) : SFsqrt dprec demax (B2SF x) = B2SF (Bsqrt mode_NE x).
Proof.
  destruct x as [sx|sx| |sx mx ex Bx]; try reflexivity; destruct sx; try reflexivity.
  simpl. rewrite B2SF_SF2B. set (melz := SFsqrt_core_binary _ _ _ _). destruct melz as [[mz ez] lz]. apply binary_round_aux_equiv.
Qed.

Lemma dv_sqrt x a : double_value x a -> 0 <= a -> double_value (dbl_sqrt x) (rnd64 (sqrt a)).
Proof.
  intros Hx Ha. apply dv_b64 in Hx as (b & -> & Fb & <-). apply dv_b64. exists (Bsqrt mode_NE b). split; [apply SFsqrt_equiv|].
  destruct (Bsqrt_correct dprec demax Hprec64 Hmax64 mode_NE b) as (C1 & C2 & _). split; [|exact C1]. rewrite C2.
  destruct b as [s|s| |s m e Bm]; try reflexivity; try discriminate Fb. destruct s; [|reflexivity].
  exfalso. cbn [B2R] in Ha. assert (F2R (Float radix2 (cond_Zopp true (Z.pos m)) e) < 0) by (apply F2R_lt_0; simpl; lia). lra.
Qed.

(** ** The Euclidean norm *)
Definition norm2 {A} (L : list A) (f : A -> R) : R := sqrt (rsum (map (fun g => f g ^ 2) L)).

Lemma squares_nn {A} (L : list A) f : 0 <= rsum (map (fun g => f g ^ 2) L).
Proof. apply rsum_nn. intros x Hx. apply in_map_iff in Hx as (g & <- & _). apply pow2_ge_0. Qed.
Lemma norm2_nn {A} (L : list A) f : 0 <= norm2 L f.
Proof. apply sqrt_pos. Qed.
Lemma norm2_sq {A} (L : list A) f : norm2 L f * norm2 L f = rsum (map (fun g => f g ^ 2) L).
Proof. apply sqrt_sqrt, squares_nn. Qed.

Lemma cauchy {A} (L : list A) f g : rsum (map (fun a => f a * g a) L) <= norm2 L f * norm2 L g.
Proof.
  induction L as [|a L IH].
  - unfold norm2, rsum. simpl. rewrite sqrt_0. lra.
  - unfold norm2 in *. cbn [map]. change (rsum (?x :: ?k)) with (x + rsum k). set (X := rsum (map (fun a => f a ^ 2) L)) in *. set (Y := rsum (map (fun a => g a ^ 2) L)) in *.
    assert (X0 : 0 <= X) by apply squares_nn. assert (Y0 : 0 <= Y) by apply squares_nn.
    pose proof (sqrt_pos X) as sX. pose proof (sqrt_pos Y) as sY. pose proof (sqrt_sqrt X X0) as qX. pose proof (sqrt_sqrt Y Y0) as qY.
    set (x := sqrt X) in *. set (y := sqrt Y) in *. rewrite <- qX, <- qY.
    rewrite <- sqrt_mult by (pose proof (pow2_ge_0 (f a)); pose proof (pow2_ge_0 (g a)); nra).
    apply Rle_trans with (f a * g a + x * y); [lra|]. apply Rle_trans with (Rabs (f a * g a + x * y)); [apply Rle_abs|].
    rewrite <- sqrt_Rsqr_abs. apply sqrt_le_1_alt. unfold Rsqr. pose proof (pow2_ge_0 (f a * y - g a * x)). nra.
Qed.

Lemma norm2_triang {A} (L : list A) f g : norm2 L (fun a => f a + g a) <= norm2 L f + norm2 L g.
Proof.
  pose proof (norm2_nn L f) as F0. pose proof (norm2_nn L g) as G0. pose proof (norm2_nn L (fun a => f a + g a)) as S0.
  apply Rsqr_incr_0_var; [|lra]. unfold Rsqr. rewrite norm2_sq.
  rewrite (map_ext _ (fun a => f a ^ 2 + (2 * (f a * g a) + g a ^ 2))) by (intros; ring). rewrite rsum_add, rsum_add, rsum_scale, <- !norm2_sq.
  pose proof (cauchy L f g). nra.
Qed.

Lemma norm2_ext {A} (L : list A) f g : (forall a, f a = g a) -> norm2 L f = norm2 L g.
Proof. intros H. unfold norm2. f_equal. f_equal. apply map_ext. intros a. rewrite H. reflexivity. Qed.
Lemma norm2_diff {A} (L : list A) f g : Rabs (norm2 L f - norm2 L g) <= norm2 L (fun a => f a - g a).
Proof.
  pose proof (norm2_triang L g (fun a => f a - g a)) as T1. cbv beta in T1. rewrite (norm2_ext L (fun a => g a + (f a - g a)) f) in T1 by (intros; ring).
  pose proof (norm2_triang L f (fun a => -1 * (f a - g a))) as T2. cbv beta in T2. rewrite (norm2_ext L (fun a => f a + -1 * (f a - g a)) g) in T2 by (intros; ring).
  assert (E : norm2 L (fun a => -1 * (f a - g a)) = norm2 L (fun a => f a - g a)) by (unfold norm2; f_equal; f_equal; apply map_ext; intros; ring).
  rewrite E in T2. apply Rabs_le. lra.
Qed.
Lemma norm2_mono {A} (L : list A) f g : (forall a, In a L -> Rabs (f a) <= g a) -> norm2 L f <= norm2 L g.
Proof.
  intros H. apply sqrt_le_1_alt. apply rsum_le. intros a Ha. specialize (H a Ha). rewrite <- (pow2_abs (f a)). apply pow_incr. split; [apply Rabs_pos|exact H].
Qed.
Lemma norm2_scale {A} (L : list A) c f : 0 <= c -> norm2 L (fun a => c * f a) = c * norm2 L f.
Proof.
  intros H. unfold norm2. rewrite (map_ext _ (fun a => c ^ 2 * f a ^ 2)) by (intros; ring). rewrite rsum_scale, sqrt_mult by (try apply squares_nn; apply pow2_ge_0).
  f_equal. apply sqrt_pow2, H.
Qed.
Lemma norm2_const {A} (L : list A) c : 0 <= c -> norm2 L (fun _ => c) = sqrt (INR (length L)) * c.
Proof. intros H. unfold norm2. rewrite rsum_const, sqrt_mult by (try apply pos_INR; apply pow2_ge_0). f_equal. apply sqrt_pow2, H. Qed.
Lemma norm2_abs {A} (L : list A) f : norm2 L (fun a => Rabs (f a)) = norm2 L f.
Proof. unfold norm2. f_equal. f_equal. apply map_ext. intros a. apply pow2_abs. Qed.
Lemma norm2_norm1 {A} (L : list A) f : norm2 L f <= rsum (map (fun a => Rabs (f a)) L).
Proof.
  assert (N0 : forall L, 0 <= rsum (map (fun a => Rabs (f a)) L)).
  { intros l. apply rsum_nn. intros x Hx. apply in_map_iff in Hx as (a & <- & _). apply Rabs_pos. }
  apply Rsqr_incr_0_var; [|apply N0]. unfold Rsqr. rewrite norm2_sq. induction L as [|a L IH]; [unfold rsum; simpl; lra|].
  cbn [map]. change (rsum (?x :: ?k)) with (x + rsum k). specialize (N0 L). rewrite <- (pow2_abs (f a)). pose proof (Rabs_pos (f a)). nra.
Qed.

(** ** The loop of std() *)
Lemma std_loop {D} (ar : arith D) dsqrt u : (vlen (up_f u) < 2 ^ 31)%Z ->
  up_std ar dsqrt u = Ok (dsqrt (a_div ar (fold_left (a_add ar) (map (fun x => let d := a_sub ar x (a_div ar (up_checksum ar u) (a_ofZ ar (up_ntot u))) in a_mul ar d d) (up_f u)) (a_ofZ ar 0)) (a_ofZ ar (up_ntot u)))).
Proof.
  intros H. unfold up_std. set (mean := a_div ar (up_checksum ar u) _). set (f := up_f u) in *. set (sq := fun x => let d := a_sub ar x mean in a_mul ar d d).
  match goal with |- context [for_upto ?c ?bd ?s] =>
    destruct (for_upto_inv (fun i r => r = fold_left (a_add ar) (map sq (firstn i f)) (a_ofZ ar 0)) bd c s) as (r & -> & Hr) end.
  - reflexivity.
  - intros i r Hi ->. unfold vlen in *. rewrite (vget_nat f i (a_zero ar)) by lia. cbn [bind]. rewrite int_op_ok by (unfold two31; lia). cbn [bind].
    eexists; split; [reflexivity|]. rewrite (firstn_S_nth f (a_zero ar)) by lia. rewrite map_app, fold_left_app. reflexivity.
  - unfold vlen in Hr. rewrite Nat2Z.id, firstn_all in Hr. subst r. reflexivity.
Qed.

Lemma sqrt_close Y Q w nu : 0 <= Y -> 0 <= Q -> 0 <= w -> 0 <= nu <= / 1000 -> Rabs (Q - Y) <= 4 * nu * Y + w -> Rabs (sqrt Q - sqrt Y) <= 4 * nu * sqrt Y + sqrt w.
Proof.
  intros HY HQ Hw Hn H. apply Rabs_le_inv in H.
  pose proof (sqrt_pos Y) as y0. pose proof (sqrt_pos Q) as q0. pose proof (sqrt_pos w) as w0.
  pose proof (sqrt_sqrt Y HY) as yy. pose proof (sqrt_sqrt Q HQ) as qq. pose proof (sqrt_sqrt w Hw) as ww.
  set (y := sqrt Y) in *. set (q := sqrt Q) in *. set (x := sqrt w) in *.
  assert (Y1 : 0 <= nu * Y) by (apply Rmult_le_pos; lra). assert (Y2 : 0 <= nu * (nu * Y)) by (apply Rmult_le_pos; lra). assert (Y3 : nu * (nu * Y) <= / 1000 * (nu * Y)) by (apply Rmult_le_compat_r; lra).
  assert (ny : 0 <= nu * y) by (apply Rmult_le_pos; lra). assert (yx : 0 <= y * x) by (apply Rmult_le_pos; lra). assert (qx : 0 <= q * x) by (apply Rmult_le_pos; lra).
  assert (nyx : 0 <= nu * y * x) by (apply Rmult_le_pos; lra).
  assert (ny2 : (nu * y) * (nu * y) = nu * (nu * Y)) by (rewrite <- yy; ring). assert (nyy : nu * y * y = nu * Y) by (rewrite <- yy; ring).
  assert (U : q <= y + 2 * (nu * y) + x).
  { apply Rsqr_incr_0_var; [|lra]. unfold Rsqr. lra. }
  assert (L : y - 4 * (nu * y) <= q + x).
  { apply Rsqr_incr_0_var; [|lra]. unfold Rsqr. lra. }
  apply Rabs_le. lra.
Qed.

Section Std.
  Context {A : Type}.
  Variables (L : list A) (G : A -> spec_float) (F H : A -> R) (s : spec_float) (r delta : R) (n : Z).
  Notation N := (INR (length L)).
  Hypotheses (EN : N = IZR n) (HN : (1 <= n < 2 ^ 31)%Z).
  Hypothesis HF : forall a, In a L -> double_value (G a) (F a) /\ 0 <= F a <= 1.
  Hypotheses (HT : rsum (map F L) <= 1 + / 100000) (HD : rsum (map (fun a => Rabs (F a - H a)) L) <= delta) (Hd : delta <= / 100).
  Hypotheses (Hs : double_value s r) (Hr : Rabs (r - 1) <= / 100).
  Hypothesis HB : norm2 L (fun a => H a - 1 / N) <= 1.

  Let mean := a_div arD s (a_ofZ arD n).
  Let sq (x : spec_float) := a_mul arD (a_sub arD x mean) (a_sub arD x mean).

  Lemma std_close : exists z,
    double_value (dbl_sqrt (a_div arD (fold_left (a_add arD) (map sq (map G L)) (a_ofZ arD 0)) (a_ofZ arD n))) z /\
    Rabs (sqrt N * z - norm2 L (fun a => H a - 1 / N)) <= delta + Rabs (r - 1) + 10 * N * eps.
  Proof using HF HT HD Hd Hs Hr HB EN HN.
    pose proof eps_small as E. pose proof eta_tiny as T.
    assert (N1 : 1 <= N) by (rewrite EN; apply IZR_le; lia). assert (N31 : N <= 2 ^ 31) by (rewrite EN, pow_IZR; apply IZR_le; lia).
    assert (T31 : 2 ^ 31 * eps <= / 1000000) by (unfold eps; simpl; lra).
    assert (T53 : 100 + 2 ^ 31 <= 2 ^ 53) by (simpl; lra).
    set (nu := N * eps). assert (Hnu : eps <= nu <= / 1000000).
    { unfold nu. split; [rewrite <- (Rmult_1_l eps) at 1; apply Rmult_le_compat_r; lra|apply Rle_trans with (2 ^ 31 * eps); [apply Rmult_le_compat_r; lra|exact T31]]. }
    set (ne := N * eta). assert (Hne : 0 <= ne <= / 1000000 * (eps * eps)).
    { unfold ne. split; [apply Rmult_le_pos; lra|]. apply Rle_trans with (N * (eps * eps * eps)); [apply Rmult_le_compat_l; lra|].
      replace (N * (eps * eps * eps)) with (nu * (eps * eps)) by (unfold nu; ring). apply Rmult_le_compat_r; [apply Rmult_le_pos; lra|lra]. }
    assert (E2 : eps * eps <= / 1000000 * eps) by (apply Rmult_le_compat_r; lra). assert (E20 : 0 <= eps * eps) by (apply Rmult_le_pos; lra).
    assert (Hee : eta <= ne) by (unfold ne; rewrite <- (Rmult_1_l eta) at 1; apply Rmult_le_compat_r; lra).
    assert (sN : 1 <= sqrt N <= N).
    { split; [rewrite <- sqrt_1; apply sqrt_le_1_alt, N1|]. rewrite <- (sqrt_sqrt N) at 2 by lra. rewrite <- (Rmult_1_l (sqrt N)) at 1. apply Rmult_le_compat_r; [apply sqrt_pos|].
      rewrite <- sqrt_1. apply sqrt_le_1_alt, N1. }
    assert (Hr' := Rabs_le_inv _ _ Hr).
    (* the mean *)
    assert (iN : 0 < / N <= 1) by (split; [apply Rinv_0_lt_compat; lra|rewrite <- Rinv_1; apply Rinv_le; lra]).
    assert (NiN : N * / N = 1) by (apply Rinv_r; lra).
    assert (VN : double_value (a_ofZ arD n) N) by (rewrite EN; apply dv_ofZ; lia).
    set (m := rnd64 (r / N)).
    assert (RN : 0 <= r / N <= 102 / 100).
    { unfold Rdiv. split; [apply Rmult_le_pos; lra|]. apply Rle_trans with (102 / 100 * 1); [apply Rmult_le_compat; lra|lra]. }
    assert (Vm : double_value mean m) by (apply dv_div; [exact Hs|exact VN|lra|rewrite Rabs_pos_eq; lra]).
    pose proof (rnd_error (r / N)) as Em. rewrite (Rabs_pos_eq (r / N)) in Em by lra. fold m in Em.
    assert (Dm : N * Rabs (m - 1 / N) <= Rabs (r - 1) + 11 / 10 * eps).
    { replace (m - 1 / N) with ((m - r / N) + (r - 1) * / N) by (unfold Rdiv; ring).
      apply Rle_trans with (N * (Rabs (m - r / N) + Rabs ((r - 1) * / N))); [apply Rmult_le_compat_l; [lra|apply Rabs_triang]|].
      rewrite Rabs_mult, (Rabs_pos_eq (/ N)) by lra. rewrite Rmult_plus_distr_l.
      replace (N * (Rabs (r - 1) * / N)) with (Rabs (r - 1) * (N * / N)) by ring. rewrite NiN, Rmult_1_r.
      assert (N * Rabs (m - r / N) <= N * (eps * (r / N) + eta)) by (apply Rmult_le_compat_l; lra).
      replace (N * (eps * (r / N) + eta)) with (eps * r * (N * / N) + ne) in * by (unfold ne, Rdiv; ring). rewrite NiN, Rmult_1_r in *.
      assert (eps * r <= eps * (102 / 100)) by (apply Rmult_le_compat_l; lra). lra. }
    assert (m0 : 0 <= m) by (apply rnd_nn; lra).
    assert (mN : N * m <= 103 / 100).
    { apply Rabs_le_inv in Em. assert (N * m <= N * (r / N + (eps * (r / N) + eta))) by (apply Rmult_le_compat_l; lra).
      replace (N * (r / N + (eps * (r / N) + eta))) with (r * (N * / N) + eps * r * (N * / N) + ne) in * by (unfold ne, Rdiv; ring). rewrite NiN, !Rmult_1_r in *.
      assert (eps * r <= eps * (102 / 100)) by (apply Rmult_le_compat_l; lra). lra. }
    assert (m1 : m <= 103 / 100) by (apply Rle_trans with (N * m); [rewrite <- (Rmult_1_l m) at 1; apply Rmult_le_compat_r; lra|exact mN]).
    (* the deviations *)
    set (y := fun a => rnd64 (F a - m)).
    assert (Vy : forall a, In a L -> double_value (a_sub arD (G a) mean) (y a)).
    { intros a Ha. destruct (HF a Ha) as [Va Ra]. apply dv_sub; [exact Va|exact Vm|apply Rabs_le; lra]. }
    assert (NF : norm2 L (fun a => F a - m) <= 21 / 10).
    { eapply Rle_trans; [apply (norm2_triang L F (fun _ => - m))|].
      assert (Q1 : norm2 L F <= 1 + / 100000).
      { eapply Rle_trans; [apply norm2_norm1|]. eapply Rle_trans; [|exact HT]. apply rsum_le. intros a Ha. destruct (HF a Ha) as [_ Ra]. rewrite Rabs_pos_eq by lra. lra. }
      assert (Q2 : norm2 L (fun _ => - m) = sqrt N * m) by (rewrite <- norm2_const by exact m0; unfold norm2; f_equal; f_equal; apply map_ext; intros; ring).
      rewrite Q2. assert (sqrt N * m <= N * m) by (apply Rmult_le_compat_r; lra). lra. }
    assert (DY : Rabs (norm2 L y - norm2 L (fun a => H a - 1 / N)) <= delta + Rabs (r - 1) + 35 / 10 * eps).
    { eapply Rle_trans; [apply norm2_diff|].
      rewrite (norm2_ext L _ (fun a => (y a - (F a - m)) + ((F a - H a) + (1 / N - m)))) by (intros; ring).
      eapply Rle_trans; [apply (norm2_triang L (fun a => y a - (F a - m)) (fun a => (F a - H a) + (1 / N - m)))|].
      assert (P1 : norm2 L (fun a => y a - (F a - m)) <= 22 / 10 * eps).
      { eapply Rle_trans; [apply (norm2_mono L _ (fun a => eps * Rabs (F a - m) + eta)); intros a _; apply rnd_error|].
        eapply Rle_trans; [apply (norm2_triang L (fun a => eps * Rabs (F a - m)) (fun _ => eta))|]. rewrite norm2_scale, norm2_const by lra. rewrite (norm2_abs L (fun a => F a - m)).
        assert (sqrt N * eta <= ne) by (apply Rmult_le_compat_r; lra). assert (eps * norm2 L (fun a => F a - m) <= eps * (21 / 10)) by (apply Rmult_le_compat_l; lra). lra. }
      assert (P2 : norm2 L (fun a => (F a - H a) + (1 / N - m)) <= delta + (Rabs (r - 1) + 11 / 10 * eps)).
      { eapply Rle_trans; [apply (norm2_triang L (fun a => F a - H a) (fun _ => 1 / N - m))|]. apply Rplus_le_compat; [eapply Rle_trans; [apply norm2_norm1|exact HD]|].
        rewrite <- (norm2_abs L (fun _ => 1 / N - m)), norm2_const by apply Rabs_pos. rewrite Rabs_minus_sym.
        eapply Rle_trans; [apply (Rmult_le_compat_r _ _ N); [apply Rabs_pos|lra]|exact Dm]. }
      lra. }
    assert (Y1 : norm2 L y <= 103 / 100) by (apply Rabs_le_inv in DY; lra).
    pose proof (norm2_nn L y) as Y0. set (Y := rsum (map (fun a => y a ^ 2) L)).
    assert (HY : norm2 L y * norm2 L y = Y) by apply norm2_sq. assert (YB : 0 <= Y <= 107 / 100) by (rewrite <- HY; nra).
    (* the squares *)
    set (p := fun a => rnd64 (y a * y a)).
    assert (yb : forall a, In a L -> Rabs (y a) <= 3).
    { intros a Ha. destruct (HF a Ha) as [_ Ra]. pose proof (rnd_error (F a - m)) as R1. fold (y a) in R1. assert (Rabs (F a - m) <= 104 / 100) by (apply Rabs_le; lra).
      replace (y a) with ((y a - (F a - m)) + (F a - m)) by ring. eapply Rle_trans; [apply Rabs_triang|].
      assert (eps * Rabs (F a - m) <= / 1000000 * (104 / 100)) by (apply Rmult_le_compat; try lra; apply Rabs_pos). lra. }
    assert (Vp : forall a, In a L -> double_value (sq (G a)) (p a)).
    { intros a Ha. apply dv_mul; [apply Vy, Ha|apply Vy, Ha|]. rewrite Rabs_mult. apply Rle_trans with (3 * 3); [apply Rmult_le_compat; auto using Rabs_pos|lra]. }
    set (S := rsum (map p L)).
    assert (SY : Rabs (S - Y) <= eps * Y + ne).
    { unfold S, Y. replace (rsum (map p L) - rsum (map (fun a => y a ^ 2) L)) with (rsum (map (fun a => p a + -1 * y a ^ 2) L)) by (rewrite rsum_add, rsum_scale; ring).
      eapply Rle_trans; [apply rsum_abs|]. eapply Rle_trans; [apply (rsum_le _ (fun a => eps * y a ^ 2 + eta))|].
      - intros a _. replace (p a + -1 * y a ^ 2) with (p a - y a * y a) by ring. eapply Rle_trans; [apply rnd_error|]. rewrite Rabs_pos_eq by (apply Rle_0_sqr). apply Req_le. ring.
      - rewrite rsum_add, rsum_scale, rsum_const. unfold ne. lra. }
    assert (eY : 0 <= eps * Y <= nu * Y) by (split; [apply Rmult_le_pos; lra|apply Rmult_le_compat_r; lra]).
    assert (nY : 0 <= nu * Y <= / 1000000 * Y) by (split; [apply Rmult_le_pos; lra|apply Rmult_le_compat_r; lra]).
    apply Rabs_le_inv in SY as SY'.
    assert (SB : 0 <= S <= 11 / 10).
    { split; [|lra]. apply rsum_nn. intros x Hx. apply in_map_iff in Hx as (a & <- & _). apply rnd_nn, Rle_0_sqr. }
    assert (FA : Forall2 (fun x y => double_value x y /\ 0 <= y) (map sq (map G L)) (map p L)).
    { assert (HG : forall a, In a L -> double_value (sq (G a)) (p a) /\ 0 <= p a) by (intros a Ha; split; [apply Vp, Ha|apply rnd_nn, Rle_0_sqr]).
      revert HG. clearbody p sq. clear. induction L as [|a l IH]; intros HG; constructor; [apply HG; left; reflexivity|]. apply IH. intros b Hb. apply HG. right. exact Hb. }
    destruct (sum_double _ _ (a_ofZ arD 0) 0 S 0 FA (dv_ofZ 0 ltac:(reflexivity)) ltac:(lra) (Rle_refl _) ltac:(lra)) as (q & Vq & q0 & Hq).
    { fold S. rewrite Rminus_eq_0, Rminus_0_r, Rabs_R0. simpl INR. lra. }
    { rewrite !map_length. simpl Nat.add. exact N31. }
    rewrite !map_length in Hq. simpl Nat.add in Hq.
    replace (N * (11 / 10 * eps * S + 2 * eta)) with (11 / 10 * (nu * S) + 2 * ne) in Hq by (unfold nu, ne; ring).
    assert (nS : 0 <= nu * S <= / 1000000 * S) by (split; [apply Rmult_le_pos; lra|apply Rmult_le_compat_r; lra]).
    assert (nS' : nu * S <= 101 / 100 * (nu * Y) + / 100 * ne).
    { assert (nu * S <= nu * (Y + (eps * Y + ne))) by (apply Rmult_le_compat_l; lra). 
      assert (nu * (eps * Y) <= / 1000000 * (nu * Y)) by (apply Rmult_le_compat; lra). assert (nu * ne <= / 1000000 * ne) by (apply Rmult_le_compat_r; lra). lra. }
    apply Rabs_le_inv in Hq as Hq'.
    assert (qB : q <= 12 / 10) by lra.
    assert (eq : 0 <= eps * q <= 102 / 100 * (nu * Y) + / 10 * ne).
    { split; [apply Rmult_le_pos; lra|]. apply Rle_trans with (nu * (S + (11 / 10 * (nu * S) + 2 * ne))); [apply Rmult_le_compat; lra|].
      assert (nu * (nu * S) <= / 1000000 * (nu * S)) by (apply Rmult_le_compat_r; lra). assert (nu * ne <= / 1000000 * ne) by (apply Rmult_le_compat_r; lra). lra. }
    (* the division *)
    set (v := rnd64 (q / N)).
    assert (qN : 0 <= q / N <= 2) by (unfold Rdiv; split; [apply Rmult_le_pos; lra|apply Rle_trans with (2 * 1); [apply Rmult_le_compat; lra|lra]]).
    match goal with |- context [dbl_sqrt ?x] => set (X := x) in *; assert (VX : double_value X v) by (apply dv_div; [exact Vq|exact VN|lra|rewrite Rabs_pos_eq; lra]) end.
    assert (v0 : 0 <= v) by (apply rnd_nn; lra).
    pose proof (rnd_error (q / N)) as Ev. rewrite (Rabs_pos_eq (q / N)) in Ev by lra. fold v in Ev.
    assert (DQ : Rabs (N * v - q) <= eps * q + ne).
    { replace (N * v - q) with (N * (v - q / N)) by (unfold Rdiv; transitivity (N * v - q * (N * / N)); [ring|rewrite NiN; ring]).
      rewrite Rabs_mult, (Rabs_pos_eq N) by lra. apply Rle_trans with (N * (eps * (q / N) + eta)); [apply Rmult_le_compat_l; lra|].
      apply Req_le. unfold ne, Rdiv. transitivity (eps * q * (N * / N) + N * eta); [ring|rewrite NiN; ring]. }
    apply Rabs_le_inv in DQ as DQ'.
    assert (QY : Rabs (N * v - Y) <= 4 * nu * Y + 5 * ne) by (apply Rabs_le; lra).
    assert (Q0 : 0 <= N * v) by (apply Rmult_le_pos; lra).
    pose proof (sqrt_close Y (N * v) (5 * ne) nu (proj1 YB) Q0 ltac:(lra) ltac:(lra) QY) as SQ.
    fold (norm2 L y) in SQ. change (sqrt Y) with (norm2 L y) in SQ.
    assert (w1 : sqrt (5 * ne) <= eps) by (rewrite <- (sqrt_Rsqr eps) by lra; apply sqrt_le_1_alt; unfold Rsqr; lra).
    assert (nn : nu * norm2 L y <= nu * (103 / 100)) by (apply Rmult_le_compat_l; lra).
    set (Qr := sqrt (N * v)) in *. apply Rabs_le_inv in SQ as SQ'. assert (Qr0 : 0 <= Qr) by apply sqrt_pos.
    assert (QrB : Qr <= 104 / 100) by lra.
    (* the root *)
    exists (rnd64 (sqrt v)). split; [apply dv_sqrt; assumption|].
    pose proof (rnd_error (sqrt v)) as Ez. rewrite (Rabs_pos_eq (sqrt v)) in Ez by apply sqrt_pos.
    assert (DZ : Rabs (sqrt N * rnd64 (sqrt v) - Qr) <= 105 / 100 * eps).
    { unfold Qr. rewrite sqrt_mult by lra. replace (sqrt N * rnd64 (sqrt v) - sqrt N * sqrt v) with (sqrt N * (rnd64 (sqrt v) - sqrt v)) by ring.
      rewrite Rabs_mult, (Rabs_pos_eq (sqrt N)) by lra. apply Rle_trans with (sqrt N * (eps * sqrt v + eta)); [apply Rmult_le_compat_l; lra|].
      replace (sqrt N * (eps * sqrt v + eta)) with (eps * (sqrt N * sqrt v) + sqrt N * eta) by ring. rewrite <- sqrt_mult by lra. fold Qr.
      assert (sqrt N * eta <= ne) by (apply Rmult_le_compat_r; lra). assert (eps * Qr <= eps * (104 / 100)) by (apply Rmult_le_compat_l; lra). lra. }
    replace (sqrt N * rnd64 (sqrt v) - norm2 L (fun a => H a - 1 / N)) with ((sqrt N * rnd64 (sqrt v) - Qr) + ((Qr - norm2 L y) + (norm2 L y - norm2 L (fun a => H a - 1 / N)))) by ring.
    eapply Rle_trans; [apply Rabs_triang|]. pose proof (Rabs_triang (Qr - norm2 L y) (norm2 L y - norm2 L (fun a => H a - 1 / N))) as TR.
    replace (10 * N * eps) with (10 * nu) by (unfold nu; ring). lra.
  Qed.
End Std.
