(** * What the text of a number tells: property C66 *)
From Coq Require Import Reals ZArith Lia Lra Floats.SpecFloat String Ascii.
From Flocq Require Import Core BinarySingleNaN Relative.
From Verif Require Import Cpp CdModel Ieee Double DblSpec DblProof NumModel NumSpec NumProof.
Local Open Scope string_scope.
Local Open Scope Z_scope.

Lemma six_opp r : six_digits (- r) = (- six_digits r)%R.
Proof. unfold six_digits. apply round_NE_opp. Qed.
Lemma six_0 : six_digits 0 = 0%R.
Proof. unfold six_digits. apply round_0. apply valid_rnd_N. Qed.

(** A finite non-zero double: sign and normalised pair *)
Lemma show_double_pair s m e r : double_value (S754_finite s m e) r -> exists X D,
  show_double (S754_finite s m e) = (if s then "-" else "") ++ show_pair X D /\ 100000 <= D < 1000000 /\
  six_digits r = (IZR (if s then - D else D) * bpow radix10 (X - 5))%R.
Proof.
  intros (V & _ & Er). destruct (finite_range s m e V) as (Pa & Pb & EV & B).
  destruct (show_positive_pair _ _ Pa Pb B) as (X & D & E & HD & E6). exists X, D.
  cbn [show_double]. rewrite E. split; [reflexivity|]. split; [exact HD|]. rewrite EV in E6. rewrite <- Er. cbn [SF2R].
  destruct s; cbn [cond_Zopp].
  - change (- Zpos m) with (Z.opp (Zpos m)). rewrite F2R_Zopp, six_opp, E6, opp_IZR. ring.
  - exact E6.
Qed.

Lemma numeral_minus s m k : read_unsigned s = Some (m, k) -> numeral ("-" ++ s) = Some (- m, k).
Proof. intros H. cbn [append numeral]. rewrite H. reflexivity. Qed.

(** C66: the text is a decimal numeral, and its value is the number rounded to six significant digits *)
Theorem C66_printed_value x r : double_value x r -> denotes (show_double x) (six_digits r).
Proof.
  intros HV. destruct x as [s|s| |s m e].
  - destruct HV as (_ & _ & <-). cbn [SF2R]. rewrite six_0. unfold denotes. destruct s; [exists (-0), 0|exists 0, 0]; (split; [reflexivity|]); simpl; ring.
  - destruct HV as (_ & H & _). discriminate.
  - destruct HV as (_ & H & _). discriminate.
  - destruct (show_double_pair s m e r HV) as (X & D & -> & HD & E6).
    destruct (read_pair X D ltac:(lia)) as (mm & k & R & EV). unfold denotes. destruct s.
    + exists (- mm), k. split; [apply numeral_minus, R|]. rewrite E6, !opp_IZR. rewrite <- !Ropp_mult_distr_l, EV. reflexivity.
    + exists mm, k. split; [apply numeral_unsigned, R|]. rewrite E6, EV. reflexivity.
Qed.
Print Assumptions C66_printed_value.

(** An infinity or a NaN is not printed as a numeral. *)
Theorem C66_not_finite x : is_finite_SF x = false -> numeral (show_double x) = None.
Proof. destruct x as [s|s| |s m e]; try discriminate; intros _; [destruct s|]; reflexivity. Qed.
Print Assumptions C66_not_finite.

(** An int, a size_t: exact *)
Theorem C66_integer z : numeral (show_int z) = Some (z, 0).
Proof.
  unfold show_int.
  assert (G : forall n, 0 <= n -> read_unsigned (show_nat n) = Some (n, 0)).
  { intros n Hn. unfold read_unsigned. destruct (read_show_nat n 0 0 Hn) as (w & Hw & ->). destruct (Z.eqb_spec (0 + w) 0); [lia|].
    apply f_equal. f_equal; lia. }
  destruct (Z.ltb_spec z 0).
  - rewrite (numeral_minus _ (- z) 0) by (apply G; lia). apply f_equal. f_equal; lia.
  - apply numeral_unsigned, G. lia.
Qed.
Print Assumptions C66_integer.

(** The error is at most half a unit of the sixth digit. *)
Theorem C66_error r : (Rabs (six_digits r - r) <= Rabs r / 200000)%R.
Proof.
  unfold six_digits. pose proof (relative_error_N_FLX radix10 6 (eq_refl : 0 < 6) (fun x => negb (Z.even x)) r) as H.
  change (bpow radix10 _) with (/ 100000)%R in H. lra.
Qed.
Print Assumptions C66_error.

(** Printing preserves order. *)
Theorem C66_order x y r r' p q : double_value x r -> double_value y r' -> (r <= r')%R ->
  denotes (show_double x) p -> denotes (show_double y) q -> (p <= q)%R.
Proof.
  intros Hx Hy L Hp Hq.
  assert (U : forall s a b, denotes s a -> denotes s b -> a = b).
  { intros s a b (m & k & E & ->) (m' & k' & E' & ->). rewrite E in E'. injection E' as -> ->. reflexivity. }
  rewrite (U _ _ _ Hp (C66_printed_value x r Hx)), (U _ _ _ Hq (C66_printed_value y r' Hy)).
  unfold six_digits. apply round_le; [apply FLX_exp_valid; reflexivity|apply valid_rnd_N|exact L].
Qed.
Print Assumptions C66_order.

(** ** The text depends on the rounded value only *)
Lemma pair_unique X D X' D' : 100000 <= D < 1000000 -> 100000 <= D' < 1000000 ->
  (IZR D * bpow radix10 (X - 5) = IZR D' * bpow radix10 (X' - 5))%R -> X = X' /\ D = D'.
Proof.
  intros H H' E.
  assert (M : forall X D, 100000 <= D < 1000000 -> mag radix10 (IZR D * bpow radix10 (X - 5)) = X + 1 :> Z).
  { clear. intros X D H. apply mag_unique. rewrite Rabs_pos_eq by (apply Rmult_le_pos; [apply IZR_le; lia|apply bpow_ge_0]).
    pose proof (bpow_gt_0 radix10 (X - 5)) as P. split.
    - replace (X + 1 - 1) with (5 + (X - 5)) by lia. rewrite bpow_plus. apply Rmult_le_compat_r; [lra|]. change (bpow radix10 5) with 100000%R. apply IZR_le. lia.
    - replace (X + 1) with (6 + (X - 5)) by lia. rewrite bpow_plus. apply Rmult_lt_compat_r; [exact P|]. change (bpow radix10 6) with 1000000%R. apply IZR_lt. lia. }
  pose proof (M X D H) as M1. rewrite E, (M X' D' H') in M1. assert (X = X') by lia. subst X'. split; [reflexivity|].
  apply Rmult_eq_reg_r in E; [apply eq_IZR, E|]. pose proof (bpow_gt_0 radix10 (X - 5)). lra.
Qed.

Theorem C66_same_text x y r r' : double_value x r -> double_value y r' -> r <> 0%R -> r' <> 0%R ->
  (show_double x = show_double y <-> six_digits r = six_digits r').
Proof.
  intros Hx Hy N N'. split.
  - intros E. destruct (C66_printed_value x r Hx) as (m & k & E1 & ->). destruct (C66_printed_value y r' Hy) as (m' & k' & E2 & ->).
    rewrite E, E2 in E1. injection E1 as -> ->. reflexivity.
  - intros E. destruct x as [s|s| |s m e]; [destruct Hx as (_ & _ & <-); cbn [SF2R] in N; congruence|destruct Hx as (_ & H & _); discriminate..|].
    destruct y as [s'|s'| |s' m' e']; [destruct Hy as (_ & _ & <-); cbn [SF2R] in N'; congruence|destruct Hy as (_ & H & _); discriminate..|].
    destruct (show_double_pair _ _ _ _ Hx) as (X & D & -> & HD & E6). destruct (show_double_pair _ _ _ _ Hy) as (X' & D' & -> & HD' & E6').
    rewrite E6, E6' in E. pose proof (bpow_gt_0 radix10 (X - 5)) as P. pose proof (bpow_gt_0 radix10 (X' - 5)) as P'.
    assert (L : (0 < IZR D)%R) by (apply IZR_lt; lia). assert (L' : (0 < IZR D')%R) by (apply IZR_lt; lia).
    pose proof (Rmult_lt_0_compat _ _ L P) as Q. pose proof (Rmult_lt_0_compat _ _ L' P') as Q'.
    destruct s, s'; rewrite ?opp_IZR in E.
    + rewrite <- !Ropp_mult_distr_l in E. apply Ropp_eq_compat in E. rewrite !Ropp_involutive in E. destruct (pair_unique _ _ _ _ HD HD' E) as [-> ->]. reflexivity.
    + rewrite <- Ropp_mult_distr_l in E. lra.
    + rewrite <- (Ropp_mult_distr_l (IZR D')) in E. lra.
    + destruct (pair_unique _ _ _ _ HD HD' E) as [-> ->]. reflexivity.
Qed.
Print Assumptions C66_same_text.

(** Integers of at most six digits stored in a double are printed as the integer. *)
Lemma six_integer n : Z.abs n < 1000000 -> six_digits (IZR n) = IZR n.
Proof.
  intros H. unfold six_digits. apply round_generic; [apply valid_rnd_N|].
  apply generic_format_FLX. exists (Float radix10 n 0); [unfold F2R; simpl; ring|exact H].
Qed.

Lemma show_nat_double n : 0 < n < 1000000 -> forall a b, 0 < a -> 0 < b -> (IZR a / IZR b = IZR n)%R -> show_positive a b = show_nat n.
Proof.
  intros Hn a b Ha Hb E.
  assert (B : (bpow radix10 (-324) <= IZR a / IZR b < bpow radix10 309)%R).
  { rewrite E. split.
    - apply Rle_trans with (bpow radix10 0); [apply bpow_le; lia|]. apply (IZR_le 1). lia.
    - apply Rlt_trans with (bpow radix10 6); [apply (IZR_lt n 1000000); lia|apply bpow_lt; lia]. }
  destruct (show_positive_pair a b Ha Hb B) as (X & D & -> & HD & E6). rewrite E, six_integer in E6 by lia.
  assert (HX : exists w, (w <= 5)%nat /\ 10 ^ Z.of_nat w <= n < 10 ^ (Z.of_nat w + 1)).
  { destruct (Z_lt_ge_dec n 10); [exists O; simpl; lia|]. destruct (Z_lt_ge_dec n 100); [exists 1%nat; simpl; lia|].
    destruct (Z_lt_ge_dec n 1000); [exists 2%nat; simpl; lia|]. destruct (Z_lt_ge_dec n 10000); [exists 3%nat; simpl; lia|].
    destruct (Z_lt_ge_dec n 100000); [exists 4%nat; simpl; lia|]. exists 5%nat; simpl; lia. }
  destruct HX as (w & Hw & L & U). set (W := Z.of_nat w) in *.
  assert (P : 0 < 10 ^ (5 - W)) by (apply Z.pow_pos_nonneg; lia).
  assert (PW : 10 ^ W * 10 ^ (5 - W) = 100000) by (rewrite <- Z.pow_add_r by lia; replace (W + (5 - W)) with 5 by lia; reflexivity).
  rewrite Z.pow_add_r in U by lia. change (10 ^ 1) with 10 in U.
  destruct (pair_unique X D W (n * 10 ^ (5 - W)) HD) as [-> ->].
  { split; [rewrite <- PW; apply Z.mul_le_mono_nonneg_r; lia|]. replace 1000000 with (10 ^ W * 10 * 10 ^ (5 - W)) by lia.
    apply Z.mul_lt_mono_pos_r; lia. }
  { rewrite <- E6, mult_IZR, <- bpow10_pos by lia. rewrite Rmult_assoc, <- bpow_plus. replace (5 - W + (W - 5)) with 0 by lia. simpl. ring. }
  unfold show_pair. destruct (Z.leb_spec (-4) W); [|lia]. destruct (Z.ltb_spec W 6); [|lia]. cbn [andb].
  unfold show_fixed. rewrite Z2Nat.id by lia. rewrite Z.div_mul, Z.mod_mul by lia. unfold show_frac. rewrite strip_digits_0. apply append_nil.
Qed.

Theorem C66_small_integer x n : double_value x (IZR n) -> Z.abs n < 1000000 -> n <> 0 -> show_double x = show_int n.
Proof.
  intros HV Hn N. destruct x as [s|s| |s m e]; [destruct HV as (_ & _ & E); cbn [SF2R] in E; apply eq_IZR in E; lia|destruct HV as (_ & H & _); discriminate..|].
  destruct HV as (V & _ & Er). destruct (finite_range s m e V) as (Pa & Pb & EV & _). cbn [SF2R] in Er. cbn [show_double]. unfold show_int.
  pose proof (F2R_gt_0 radix2 (Float radix2 (Zpos m) e) ltac:(reflexivity)) as P.
  destruct s; cbn [cond_Zopp] in Er.
  - change (- Zpos m) with (Z.opp (Zpos m)) in Er. rewrite F2R_Zopp in Er.
    assert (n < 0) by (apply lt_IZR; lra). destruct (Z.ltb_spec n 0); [|lia].
    rewrite (show_nat_double (- n)); [reflexivity|lia|exact Pa|exact Pb|]. rewrite EV, opp_IZR. lra.
  - assert (0 < n) by (apply lt_IZR; lra). destruct (Z.ltb_spec n 0); [lia|].
    rewrite (show_nat_double n); [reflexivity|lia|exact Pa|exact Pb|]. rewrite EV. exact Er.
Qed.
Print Assumptions C66_small_integer.

(** A printed double cannot be recovered: 1 and its successor are both printed as 1. *)
Theorem C66_lossless_refuted : exists x y r r', double_value x r /\ double_value y r' /\ r <> r' /\ show_double x = show_double y.
Proof.
  exists (S754_finite false 4503599627370496 (-52)), (S754_finite false 4503599627370497 (-52)).
  eexists _, _. split; [split; [reflexivity|split; reflexivity]|]. split; [split; [reflexivity|split; reflexivity]|].
  split; [|vm_compute; reflexivity]. cbn [SF2R cond_Zopp]. unfold F2R. cbn [Fnum Fexp]. intros E. pose proof (bpow_gt_0 radix2 (-52)) as P.
  apply Rmult_eq_reg_r in E; [apply eq_IZR in E; discriminate|]. lra.
Qed.
Print Assumptions C66_lossless_refuted.

(** ** Examples *)

(** The tenth, the largest double, the smallest positive one, a tie (123456.5), 999999.5, 10^-5 *)
Example C66_texts :
  List.map show_double [a_dec arD 1 1; dbl_max; S754_finite false 1 (-1074); a_dec arD 1234565 1; a_dec arD 9999995 1; a_dec arD 1 5; a_neg arD (a_dec arD 25 1)]%list =
  ["0.1"; "1.79769e+308"; "4.94066e-324"; "123456"; "1e+06"; "1e-05"; "-2.5"]%list.
Proof. vm_compute. reflexivity. Qed.
Example C66_meaning : denotes "1.79769e+308" (179769 * bpow radix10 303)%R /\ denotes "-2.5" (- (25 / 10))%R.
Proof.
  split; [exists 179769, 303; split; [vm_compute; reflexivity|reflexivity]|].
  exists (-25), (-1). split; [vm_compute; reflexivity|]. change (bpow radix10 (-1)) with (/ 10)%R. lra.
Qed.
(** Hypotheses of the theorems: the doubles -2 and 1 *)
Example C66_values : double_value (a_ofZ arD (-2)) (IZR (-2)) /\ show_double (a_ofZ arD (-2)) = "-2" /\ six_digits (IZR (-2)) = IZR (-2).
Proof. split; [apply dv_ofZ; reflexivity|]. split; [vm_compute; reflexivity|]. apply six_integer. reflexivity. Qed.
