(** * IEEE binary64: the standard library's executable specification related to real numbers through
    Flocq.  Used by proofs only. *)
From Coq Require Import Reals ZArith Lia Lra Psatz Floats.SpecFloat.
From Flocq Require Import Core BinarySingleNaN Relative.
From Verif Require Import Cpp CdModel.
Local Open Scope Z_scope.

Definition dprec : Z := 53.
Definition demax : Z := 1024.
#[global] Instance Hprec64 : FLX.Prec_gt_0 dprec := eq_refl _.
#[global] Instance Hmax64 : Prec_lt_emax dprec demax := eq_refl _.
Notation b64 := (binary_float dprec demax).
Notation fexp64 := (SpecFloat.fexp dprec demax).
Notation rnd64 := (round radix2 fexp64 ZnearestE).

#[global] Instance fexp64_valid : Valid_exp fexp64 := fexp_correct dprec demax Hprec64.

Lemma round_nearest_even_equiv s m l :
  round_nearest_even m l = choice_mode mode_NE s m l.
Proof.
  case l; [reflexivity|intro c]. case c; [|reflexivity..].
  now simpl; unfold Round.cond_incr; case Z.even.
Qed.

Lemma binary_round_aux_equiv sx mx ex lx :
  SpecFloat.binary_round_aux dprec demax sx mx ex lx
  = binary_round_aux dprec demax mode_NE sx mx ex lx.
Proof.
  unfold SpecFloat.binary_round_aux, binary_round_aux.
  set (mrse' := shr_fexp _ _ _). case mrse'; intros mrs' e'; simpl.
  now rewrite (round_nearest_even_equiv sx).
Qed.

Lemma binary_round_equiv s m e :
  SpecFloat.binary_round dprec demax s m e = binary_round dprec demax mode_NE s m e.
Proof.
  unfold SpecFloat.binary_round, binary_round, shl_align_fexp.
  set (mez := shl_align _ _ _); case mez as [mz ez]. apply binary_round_aux_equiv.
Qed.

Lemma binary_normalize_equiv m e szero :
  SpecFloat.binary_normalize dprec demax m e szero
  = B2SF (binary_normalize dprec demax Hprec64 Hmax64 mode_NE m e szero).
Proof.
  case m as [|p|p].
  - reflexivity.
  - simpl; rewrite B2SF_SF2B; apply binary_round_equiv.
  - simpl; rewrite B2SF_SF2B; apply binary_round_equiv.
Qed.

Lemma SFdiv_equiv (x y : b64) : SFdiv dprec demax (B2SF x) (B2SF y) = B2SF (Bdiv mode_NE x y).
Proof.
  destruct x as [sx|sx| |sx mx ex Bx]; destruct y as [sy|sy| |sy my ey By]; try reflexivity.
  simpl. rewrite B2SF_SF2B. set (melz := SFdiv_core_binary _ _ _ _ _ _).
  destruct melz as [[mz ez] lz]. apply binary_round_aux_equiv.
Qed.

Lemma SFmul_equiv (x y : b64) : SFmul dprec demax (B2SF x) (B2SF y) = B2SF (Bmult mode_NE x y).
Proof.
  destruct x as [sx|sx| |sx mx ex Bx]; destruct y as [sy|sy| |sy my ey By]; try reflexivity.
  simpl. rewrite B2SF_SF2B. apply binary_round_aux_equiv.
Qed.

Lemma SFadd_equiv (x y : b64) : SFadd dprec demax (B2SF x) (B2SF y) = B2SF (Bplus mode_NE x y).
Proof.
  destruct x as [sx|sx| |sx mx ex Bx]; destruct y as [sy|sy| |sy my ey By];
    try reflexivity; try (simpl; destruct (Bool.eqb _ _); reflexivity).
  apply binary_normalize_equiv.
Qed.

Lemma SFsub_equiv (x y : b64) : SFsub dprec demax (B2SF x) (B2SF y) = B2SF (Bminus mode_NE x y).
Proof.
  destruct x as [sx|sx| |sx mx ex Bx]; destruct y as [sy|sy| |sy my ey By];
    try reflexivity; try (simpl; destruct (Bool.eqb _ _); reflexivity).
  simpl. unfold Zminus. rewrite <- cond_Zopp_negb. apply binary_normalize_equiv.
Qed.

(** Integers below 2^53 are exact. *)
Definition b64_of_Z (n : Z) : b64 := binary_normalize dprec demax Hprec64 Hmax64 mode_NE n 0 false.

Lemma dbl_of_Z_equiv n : dbl_of_Z n = B2SF (b64_of_Z n).
Proof. apply binary_normalize_equiv. Qed.

Lemma F2R_int n : F2R (Float radix2 n 0) = IZR n.
Proof. unfold F2R; simpl. lra. Qed.

Lemma format_int n : Z.abs n < 2 ^ 53 -> generic_format radix2 fexp64 (IZR n).
Proof.
  intros H. rewrite <- F2R_int. apply generic_format_FLT.
  exists (Float radix2 n 0); [reflexivity|exact H|discriminate].
Qed.

Lemma b64_of_Z_correct n :
  Z.abs n < 2 ^ 53 -> B2R (b64_of_Z n) = IZR n /\ is_finite (b64_of_Z n) = true.
Proof.
  intros H. pose proof (binary_normalize_correct dprec demax Hprec64 Hmax64 mode_NE n 0 false) as C.
  cbv zeta in C. rewrite F2R_int in C. simpl round_mode in C.
  rewrite (round_generic radix2 fexp64 ZnearestE (IZR n) (format_int n H)) in C.
  rewrite Rlt_bool_true in C.
  - destruct C as (C1 & C2 & _). split; assumption.
  - rewrite <- abs_IZR. apply Rlt_le_trans with (IZR (2 ^ 53)).
    + apply IZR_lt. exact H.
    + change (2 ^ 53) with (radix2 ^ 53). rewrite IZR_Zpower by lia. apply bpow_le. discriminate.
Qed.

(** The quotient of two such integers: correctly rounded, finite. *)
Lemma b64_quot_correct s v :
  0 <= s < 2 ^ 53 -> 0 < v < 2 ^ 53 ->
  B2R (Bdiv mode_NE (b64_of_Z s) (b64_of_Z v)) = rnd64 (IZR s / IZR v) /\
  is_finite (Bdiv mode_NE (b64_of_Z s) (b64_of_Z v)) = true /\
  (0 <= rnd64 (IZR s / IZR v) <= IZR s)%R.
Proof.
  intros Hs Hv.
  destruct (b64_of_Z_correct s ltac:(lia)) as [Rs Fs].
  destruct (b64_of_Z_correct v ltac:(lia)) as [Rv Fv].
  assert (Hv1 : (1 <= IZR v)%R) by (apply IZR_le; lia).
  assert (Hs0 : (0 <= IZR s)%R) by (apply IZR_le; lia).
  assert (Hq0 : (0 <= IZR s / IZR v)%R).
  { apply Rmult_le_pos; [exact Hs0|]. apply Rlt_le, Rinv_0_lt_compat. lra. }
  assert (Hq1 : (IZR s / IZR v <= IZR s)%R).
  { apply Rmult_le_reg_r with (IZR v); [lra|]. unfold Rdiv. rewrite Rmult_assoc, Rinv_l by lra.
    rewrite Rmult_1_r. nra. }
  assert (Hr : (0 <= rnd64 (IZR s / IZR v) <= IZR s)%R).
  { split.
    - apply round_ge_generic; auto with typeclass_instances. apply generic_format_0.
    - apply round_le_generic; auto with typeclass_instances. apply format_int. lia. }
  pose proof (Bdiv_correct dprec demax Hprec64 Hmax64 mode_NE (b64_of_Z s) (b64_of_Z v)) as C.
  rewrite Rs, Rv in C. simpl round_mode in C.
  specialize (C ltac:(lra)). rewrite Rlt_bool_true in C.
  - destruct C as (C1 & C2 & _). rewrite C2. split; [exact C1|]. split; [exact Fs|exact Hr].
  - rewrite Rabs_pos_eq by apply Hr. apply Rle_lt_trans with (IZR s); [apply Hr|].
    apply Rlt_le_trans with (IZR (2 ^ 53)).
    + apply IZR_lt, Hs.
    + change (2 ^ 53) with (radix2 ^ 53). rewrite IZR_Zpower by lia. apply bpow_le. discriminate.
Qed.

Lemma rnd64_error s v :
  0 < s < 2 ^ 53 -> 0 < v < 2 ^ 53 ->
  (Rabs (rnd64 (IZR s / IZR v) - IZR s / IZR v) <= / IZR (2 ^ 53) * (IZR s / IZR v))%R.
Proof.
  intros Hs Hv.
  assert (Hv0 : (0 < IZR v)%R) by (apply IZR_lt; lia).
  assert (Hs0 : (0 < IZR s)%R) by (apply IZR_lt; lia).
  assert (Hq0 : (0 < IZR s / IZR v)%R).
  { apply Rmult_lt_0_compat; [exact Hs0|]. apply Rinv_0_lt_compat. exact Hv0. }
  pose proof (relative_error_N_FLT radix2 (-1074) 53 ltac:(reflexivity) (fun x => negb (Z.even x))
               (IZR s / IZR v)) as E.
  rewrite (Rabs_pos_eq (IZR s / IZR v)) in E by lra.
  assert (Hlow : (bpow radix2 (-1074 + 53 - 1) <= IZR s / IZR v)%R).
  { apply Rle_trans with (/ IZR (2 ^ 53))%R.
    - change (2 ^ 53) with (radix2 ^ 53). rewrite IZR_Zpower by lia. rewrite <- bpow_opp. apply bpow_le. discriminate.
    - apply Rle_trans with (/ IZR v)%R.
      + apply Rinv_le; [exact Hv0|]. apply IZR_le. lia.
      + rewrite <- (Rmult_1_l (/ IZR v)). apply Rmult_le_compat_r.
        * apply Rlt_le, Rinv_0_lt_compat, Hv0.
        * apply IZR_le. lia. }
  specialize (E Hlow).
  replace (/ IZR (2 ^ 53))%R with (/ 2 * bpow radix2 (-53 + 1))%R.
  - exact E.
  - change (2 ^ 53) with (radix2 ^ 53). rewrite IZR_Zpower by lia. rewrite <- bpow_opp.
    change (-53 + 1) with (1 + - (53)). rewrite bpow_plus. change (bpow radix2 1) with 2%R.
    change (Z.opp 53) with (-53). lra.
Qed.

(** Comparing rounded quotients with the same denominator is comparing the numerators. *)
Lemma dbl_quot_lt s1 s2 v :
  0 < s1 < 2 ^ 50 -> 0 < s2 < 2 ^ 50 -> 0 < v < 2 ^ 53 ->
  dbl_lt (dbl_div (dbl_of_Z s1) (dbl_of_Z v)) (dbl_div (dbl_of_Z s2) (dbl_of_Z v)) = (s1 <? s2).
Proof.
  intros H1 H2 Hv. change (2 ^ 50) with 1125899906842624 in *. change (2 ^ 53) with 9007199254740992 in *.
  unfold dbl_lt, dbl_div. rewrite !dbl_of_Z_equiv.
  change (SFdiv 53 1024) with (SFdiv dprec demax). rewrite !SFdiv_equiv.
  change (SFltb ?a ?b) with (SFltb a b).
  set (q1 := Bdiv mode_NE (b64_of_Z s1) (b64_of_Z v)). set (q2 := Bdiv mode_NE (b64_of_Z s2) (b64_of_Z v)).
  change (SFltb (B2SF q1) (B2SF q2)) with (Bltb q1 q2).
  destruct (b64_quot_correct s1 v) as (R1 & F1 & _); [change (2 ^ 53) with 9007199254740992; lia|exact Hv|].
  destruct (b64_quot_correct s2 v) as (R2 & F2 & _); [change (2 ^ 53) with 9007199254740992; lia|exact Hv|].
  fold q1 in R1, F1. fold q2 in R2, F2.
  rewrite Bltb_correct by assumption. rewrite R1, R2.
  assert (Hv0 : (0 < IZR v)%R) by (apply IZR_lt; lia).
  assert (Strict : forall a b, 0 < a < 1125899906842624 -> 0 < b < 1125899906842624 -> a < b ->
     (rnd64 (IZR a / IZR v) < rnd64 (IZR b / IZR v))%R).
  { intros a b Ha Hb Hab.
    pose proof (rnd64_error a v ltac:(change (2 ^ 53) with 9007199254740992; lia) Hv) as Ea.
    pose proof (rnd64_error b v ltac:(change (2 ^ 53) with 9007199254740992; lia) Hv) as Eb.
    apply Rabs_le_inv in Ea. apply Rabs_le_inv in Eb.
    change (2 ^ 53) with 9007199254740992 in *.
    set (ra := rnd64 (IZR a / IZR v)) in *. set (rb := rnd64 (IZR b / IZR v)) in *.
    assert (Hiv : (0 < / IZR v)%R) by (apply Rinv_0_lt_compat; exact Hv0).
    unfold Rdiv in Ea, Eb. set (iv := (/ IZR v)%R) in *.
    assert (A : (IZR a + 1 <= IZR b)%R) by (rewrite <- plus_IZR; apply IZR_le; lia).
    assert (B : (IZR b <= 1125899906842624)%R) by (apply IZR_le; lia).
    assert (A0 : (0 < IZR a)%R) by (apply IZR_lt; lia).
    assert (U : (/ 9007199254740992 * (IZR a * iv) + / 9007199254740992 * (IZR b * iv) < iv)%R).
    { rewrite <- Rmult_plus_distr_l, <- Rmult_plus_distr_r, <- Rmult_assoc.
      rewrite <- (Rmult_1_l iv) at 2. apply Rmult_lt_compat_r; [exact Hiv|]. lra. }
    assert (D : (iv <= IZR b * iv - IZR a * iv)%R).
    { rewrite <- Rmult_minus_distr_r. rewrite <- (Rmult_1_l iv) at 1.
      apply Rmult_le_compat_r; lra. }
    lra. }
  destruct (Z.ltb_spec s1 s2) as [H|H].
  - apply Rlt_bool_true. apply Strict; lia.
  - apply Rlt_bool_false. destruct (Z.eq_dec s1 s2) as [->|N]; [lra|]. apply Rlt_le, Strict; lia.
Qed.

Lemma dbl_quot_lt_max s v :
  0 <= s < 2 ^ 53 -> 0 < v < 2 ^ 53 ->
  dbl_lt (dbl_div (dbl_of_Z s) (dbl_of_Z v)) dbl_max = true.
Proof.
  intros Hs Hv. unfold dbl_lt, dbl_div. rewrite !dbl_of_Z_equiv.
  change (SFdiv 53 1024) with (SFdiv dprec demax). rewrite SFdiv_equiv.
  set (q := Bdiv mode_NE (b64_of_Z s) (b64_of_Z v)).
  destruct (b64_quot_correct s v Hs Hv) as (R & F & B). fold q in R, F.
  set (mx := @B754_finite dprec demax false 9007199254740991 971 eq_refl).
  change dbl_max with (B2SF mx). change (SFltb (B2SF q) (B2SF mx)) with (Bltb q mx).
  rewrite Bltb_correct by (exact F || reflexivity). apply Rlt_bool_true. rewrite R.
  apply Rle_lt_trans with (IZR s); [apply B|]. apply Rlt_le_trans with (IZR (2 ^ 53)); [apply IZR_lt, Hs|].
  unfold mx. simpl B2R. unfold F2R; simpl Fnum; simpl Fexp.
  change (IZR (2 ^ 53)) with (IZR 9007199254740992).
  assert (2 <= bpow radix2 971)%R by (change 2%R with (bpow radix2 1); apply bpow_le; discriminate).
  apply Rle_trans with (9007199254740991 * 2)%R; [lra|]. apply Rmult_le_compat_l; lra.
Qed.
