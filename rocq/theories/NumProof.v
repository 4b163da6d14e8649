(** * Reading back printed numbers: proofs *)
From Coq Require Import Reals ZArith Lia Lra Floats.SpecFloat String Ascii.
From Flocq Require Import Core BinarySingleNaN.
From Verif Require Import Cpp CdModel DblSpec NumModel NumSpec.
Local Open Scope string_scope.
Local Open Scope Z_scope.

Lemma append_assoc (s t u : string) : (s ++ t) ++ u = s ++ t ++ u.
Proof. induction s as [|c s IH]; [reflexivity|]. cbn [append]. rewrite IH. reflexivity. Qed.
Lemma append_nil (s : string) : s ++ "" = s.
Proof. induction s as [|c s IH]; [reflexivity|]. cbn [append]. rewrite IH. reflexivity. Qed.

(** ** Digits *)
Lemma digit_case d : 0 <= d < 10 -> d = 0 \/ d = 1 \/ d = 2 \/ d = 3 \/ d = 4 \/ d = 5 \/ d = 6 \/ d = 7 \/ d = 8 \/ d = 9.
Proof. lia. Qed.
Lemma digit_of_show d : 0 <= d < 10 -> digit_of (show_digit d) = Some d.
Proof. intros H. destruct (digit_case d H) as [->|[->|[->|[->|[->|[->|[->|[->|[->| ->]]]]]]]]]; reflexivity. Qed.

Lemma read_digits_app t : forall acc k v n rest, read_digits acc k t = (v, n, "") ->
  read_digits acc k (t ++ rest) = read_digits v n rest.
Proof.
  induction t as [|c t IH]; intros acc k v n rest H; cbn [read_digits append] in *.
  - injection H as <- <-. reflexivity.
  - destruct (digit_of c) as [d|]; [|discriminate]. apply IH, H.
Qed.
Lemma read_digits_split t : forall acc k v n u, read_digits acc k (t ++ u) = (v, n, "") ->
  exists v' n', read_digits acc k t = (v', n', "") /\ read_digits v' n' u = (v, n, "").
Proof.
  induction t as [|c t IH]; intros acc k v n u H; cbn [read_digits append] in *; [eauto|].
  destruct (digit_of c) as [d|]; [|discriminate]. apply IH, H.
Qed.

Lemma read_show_digits w : forall n acc k, 0 <= n < 10 ^ Z.of_nat w ->
  read_digits acc k (show_digits w n) = (acc * 10 ^ Z.of_nat w + n, k + Z.of_nat w, "").
Proof.
  induction w as [|w IH]; intros n acc k Hn.
  - change (10 ^ Z.of_nat 0) with 1 in *. cbn [show_digits read_digits]. f_equal; f_equal; lia.
  - rewrite Nat2Z.inj_succ, Z.pow_succ_r in * by lia. cbn [show_digits].
    pose proof (Z.div_mod n 10 ltac:(lia)). pose proof (Z.mod_pos_bound n 10 ltac:(lia)).
    assert (Hq : 0 <= n / 10 < 10 ^ Z.of_nat w) by (split; [apply Z.div_pos; lia|apply Z.div_lt_upper_bound; lia]).
    rewrite (read_digits_app _ _ _ _ _ _ (IH _ acc k Hq)). cbn [read_digits].
    rewrite digit_of_show by lia. f_equal; f_equal; nia.
Qed.

Lemma width_ok fuel : forall n, 0 <= n < 2 ^ Z.of_nat (S fuel) -> 0 <= n < 10 ^ Z.of_nat (width fuel n).
Proof.
  induction fuel as [|f IH]; intros n Hn.
  - change (2 ^ Z.of_nat 1) with 2 in Hn. change (10 ^ Z.of_nat (width 0 n)) with 10. lia.
  - cbn [width]. destruct (Z.ltb_spec n 10); [change (10 ^ Z.of_nat 1) with 10; lia|].
    rewrite (Nat2Z.inj_succ (width f (n / 10))), Z.pow_succ_r by lia.
    rewrite Nat2Z.inj_succ, Z.pow_succ_r in Hn by lia.
    assert (Hq : 0 <= n / 10 < 2 ^ Z.of_nat (S f)).
    { split; [apply Z.div_pos; lia|]. apply Z.div_lt_upper_bound; lia. }
    pose proof (IH _ Hq). pose proof (Z.div_mod n 10 ltac:(lia)). pose proof (Z.mod_pos_bound n 10 ltac:(lia)). nia.
Qed.
Lemma width_pos fuel n : (1 <= width fuel n)%nat.
Proof. destruct fuel; cbn [width]; [lia|]. destruct (n <? 10); lia. Qed.

Lemma nat_width n : 0 <= n -> 0 <= n < 10 ^ Z.of_nat (width (Z.to_nat (Z.log2 n)) n).
Proof.
  intros H. apply width_ok. split; [exact H|]. rewrite Nat2Z.inj_succ, Z2Nat.id by apply Z.log2_nonneg.
  destruct (Z.eq_dec n 0) as [->|Hn]; [reflexivity|]. apply (Z.log2_spec n). lia.
Qed.
Lemma read_show_nat n acc k : 0 <= n -> exists w, 1 <= w /\
  read_digits acc k (show_nat n) = (acc * 10 ^ w + n, k + w, "").
Proof.
  intros H. exists (Z.of_nat (width (Z.to_nat (Z.log2 n)) n)).
  split; [pose proof (width_pos (Z.to_nat (Z.log2 n)) n); lia|].
  apply read_show_digits, nat_width, H.
Qed.
Lemma read_nat_show n : 0 <= n -> read_nat (show_nat n) = Some n.
Proof.
  intros H. unfold read_nat. destruct (read_show_nat n 0 0 H) as (w & Hw & ->).
  destruct (Z.eqb_spec (0 + w) 0); [lia|]. apply f_equal. lia.
Qed.

(** ** Trailing zeros *)
Fixpoint zeros (j : nat) : string := match j with O => "" | S j' => String "0" (zeros j') end.
Lemma zeros_snoc j : zeros j ++ "0" = zeros (S j).
Proof. induction j as [|j IH]; [reflexivity|]. cbn [zeros append] in *. rewrite IH. reflexivity. Qed.
Lemma strip_split s : exists j, s = strip_zeros s ++ zeros j.
Proof.
  induction s as [|c t (j & IH)]; [exists O; reflexivity|]. cbn [strip_zeros]. destruct (strip_zeros t) as [|c' t'].
  - destruct (Ascii.eqb_spec c "0") as [->|N].
    + exists (S j). cbn [append zeros] in *. rewrite IH at 1. reflexivity.
    + exists j. cbn [append]. rewrite IH at 1. reflexivity.
  - exists j. cbn [append] in *. rewrite IH at 1. reflexivity.
Qed.
Lemma read_zeros j : forall acc k, read_digits acc k (zeros j) = (acc * 10 ^ Z.of_nat j, k + Z.of_nat j, "").
Proof.
  induction j as [|j IH]; intros acc k; [cbn [zeros read_digits]; change (10 ^ Z.of_nat 0) with 1; f_equal; f_equal; lia|].
  cbn [zeros read_digits]. change (digit_of "0") with (Some 0). cbv iota. rewrite IH, Nat2Z.inj_succ, Z.pow_succ_r by lia. f_equal; f_equal; lia.
Qed.
Lemma strip_digits_0 p : strip_zeros (show_digits p 0) = "".
Proof.
  assert (E : show_digits p 0 = zeros p).
  { induction p as [|p IH]; [reflexivity|]. cbn [show_digits]. change (0 / 10) with 0. rewrite IH. apply zeros_snoc. }
  rewrite E. induction p as [|p IH]; [reflexivity|]. cbn [zeros strip_zeros].
  cbn [show_digits] in E. rewrite IH; [reflexivity|].
  clear. induction p as [|p IH]; [reflexivity|]. cbn [show_digits]. change (0 / 10) with 0. rewrite IH. apply zeros_snoc.
Qed.

Lemma strip_read p f acc : 0 <= f < 10 ^ Z.of_nat p -> exists v n,
  read_digits acc 0 (strip_zeros (show_digits p f)) = (v, n, "") /\ 0 <= n <= Z.of_nat p /\
  v * 10 ^ (Z.of_nat p - n) = acc * 10 ^ Z.of_nat p + f.
Proof.
  intros Hf. pose proof (read_show_digits p f acc 0 Hf) as R. destruct (strip_split (show_digits p f)) as (j & E).
  rewrite E in R. destruct (read_digits_split _ _ _ _ _ _ R) as (v & n & R1 & R2). rewrite read_zeros in R2.
  injection R2 as E1 E2. exists v, n. split; [exact R1|].
  assert (N0 : 0 <= n).
  { clear - R1. assert (G : forall s a k v n r, read_digits a k s = (v, n, r) -> k <= n).
    { induction s as [|c t IH]; intros a k v' n' r H; cbn [read_digits] in H; [injection H; lia|].
      destruct (digit_of c); [apply IH in H; lia|injection H; lia]. }
    apply (G _ _ _ _ _ _ R1). }
  split; [lia|]. rewrite <- E1. f_equal. f_equal. lia.
Qed.

(** ** Fixed notation *)
Lemma read_fixed p D rest : 0 <= D -> (rest = "" \/ exists t, rest = String "e" t) -> exists v n,
  0 <= n <= Z.of_nat p /\ v * 10 ^ (Z.of_nat p - n) = D /\
  read_unsigned (show_fixed p D ++ rest) =
    match rest with
    | EmptyString => Some (v, - n)
    | String "e" (String "+" t) => match read_nat t with Some e => Some (v, e - n) | None => None end
    | String "e" (String "-" t) => match read_nat t with Some e => Some (v, - e - n) | None => None end
    | _ => None
    end.
Proof.
  intros HD Hrest. assert (P : 0 < 10 ^ Z.of_nat p) by (apply Z.pow_pos_nonneg; lia).
  unfold show_fixed. set (i := D / 10 ^ Z.of_nat p). set (f := D mod 10 ^ Z.of_nat p).
  assert (Hi : 0 <= i) by (apply Z.div_pos; lia). assert (Hf : 0 <= f < 10 ^ Z.of_nat p) by (apply Z.mod_pos_bound; lia).
  assert (ED : D = i * 10 ^ Z.of_nat p + f) by (unfold i, f; pose proof (Z.div_mod D (10 ^ Z.of_nat p)); lia).
  destruct (strip_read p f i Hf) as (v & n & R & Hn & Ev). exists v, n. split; [exact Hn|]. split; [lia|].
  unfold read_unsigned. rewrite append_assoc.
  destruct (read_show_nat i 0 0 Hi) as (w & Hw & Ri). rewrite (read_digits_app _ _ _ _ _ _ Ri).
  replace (0 * 10 ^ w + i) with i by lia. unfold show_frac.
  destruct (strip_zeros (show_digits p f)) as [|c s] eqn:Es.
  - cbn [read_digits] in R. injection R as <- <-.
    assert (Er : read_digits i (0 + w) ("" ++ rest) = (i, 0 + w, rest)).
    { destruct Hrest as [->|(t & ->)]; reflexivity. }
    rewrite Er. destruct (Z.eqb_spec (0 + w) 0); [lia|]. destruct Hrest as [->|(t & ->)]; reflexivity.
  - cbn [append]. cbn [read_digits]. change (digit_of ".") with (@None Z). cbv iota.
    destruct (Z.eqb_spec (0 + w) 0); [lia|].
    change (String c (s ++ rest)) with (String c s ++ rest). rewrite (read_digits_app _ _ _ _ _ _ R).
    assert (Er : read_digits v n rest = (v, n, rest)) by (destruct Hrest as [->|(t & ->)]; reflexivity).
    rewrite Er. destruct Hrest as [->|(t & ->)]; reflexivity.
Qed.

Lemma read_exp X : match show_exp X with
                   | String "+" t => read_nat t = Some X
                   | String "-" t => read_nat t = Some (- X)
                   | _ => False
                   end.
Proof.
  unfold show_exp.
  assert (G : forall n, 0 <= n -> read_nat ((if n <? 10 then "0" else "") ++ show_nat n) = Some n).
  { intros n Hn. destruct (n <? 10); [|apply read_nat_show, Hn]. cbn [append]. unfold read_nat. cbn [read_digits].
    change (digit_of "0") with (Some 0). cbv iota. destruct (read_show_nat n (10 * 0 + 0) (0 + 1) Hn) as (w & Hw & ->).
    destruct (Z.eqb_spec (0 + 1 + w) 0); [lia|]. apply f_equal. lia. }
  destruct (Z.ltb_spec X 0); cbn [append]; rewrite G by lia; f_equal; lia.
Qed.

Lemma numeral_unsigned s m k : read_unsigned s = Some (m, k) -> numeral s = Some (m, k).
Proof.
  intros H. unfold numeral. destruct s as [|c t]; [exact H|].
  destruct c as [[] [] [] [] [] [] [] []]; try exact H. discriminate H.
Qed.

(** ** Rounding *)
Lemma round_div_ok n d : 0 < d -> round_div n d = ZnearestE (IZR n / IZR d).
Proof.
  intros Hd. unfold round_div. unfold Znearest. pose proof (Z.div_mod n d ltac:(lia)) as E. pose proof (Z.mod_pos_bound n d Hd) as B.
  assert (Hd' : (0 < IZR d)%R) by (apply IZR_lt; lia).
  rewrite Zfloor_div by lia.
  assert (EF : (IZR n / IZR d - IZR (n / d) = IZR (n mod d) / IZR d)%R).
  { rewrite E at 1. rewrite plus_IZR, mult_IZR. field. lra. }
  rewrite EF.
  assert (C : Rcompare (IZR (n mod d) / IZR d) (/ 2) = (2 * (n mod d) ?= d)).
  { rewrite <- (Rcompare_mult_r (2 * IZR d)%R) by lra.
    replace (IZR (n mod d) / IZR d * (2 * IZR d))%R with (IZR (2 * (n mod d))) by (rewrite mult_IZR; field; lra).
    replace (/ 2 * (2 * IZR d))%R with (IZR d) by field. apply Rcompare_IZR. }
  rewrite C.
  assert (Hc : 0 < n mod d -> Zceil (IZR n / IZR d) = n / d + 1).
  { intros Hp. apply Zceil_imp. replace (n / d + 1 - 1) with (n / d) by lia. rewrite plus_IZR.
    assert (0 < IZR (n mod d) / IZR d <= 1)%R; [|lra]. split.
    - apply Rdiv_lt_0_compat; [apply IZR_lt; lia|exact Hd'].
    - apply Rmult_le_reg_r with (IZR d); [exact Hd'|]. unfold Rdiv. rewrite Rmult_assoc, Rinv_l by lra. rewrite Rmult_1_r, Rmult_1_l.
      apply IZR_le. lia. }
  destruct (Z.compare_spec (2 * (n mod d)) d) as [H|H|H].
  - rewrite Hc by lia. destruct (Z.even (n / d)); reflexivity.
  - reflexivity.
  - symmetry. apply Hc. lia.
Qed.

Lemma bpow10_pos k : 0 <= k -> bpow radix10 k = IZR (10 ^ k).
Proof. intros H. symmetry. apply (IZR_Zpower radix10). exact H. Qed.

Lemma bpow2_pos k : 0 <= k -> bpow radix2 k = IZR (2 ^ k).
Proof. intros H. symmetry. apply (IZR_Zpower radix2). exact H. Qed.

Section Positive.
  Variables (a b : Z).
  Hypotheses (Ha : 0 < a) (Hb : 0 < b).
  Let v : R := (IZR a / IZR b)%R.
  Local Lemma Hb' : (0 < IZR b)%R. Proof using Hb. apply IZR_lt. exact Hb. Qed.
  Local Lemma v_pos : (0 < v)%R. Proof using Ha Hb. apply Rdiv_lt_0_compat; [apply IZR_lt; exact Ha|exact Hb']. Qed.
  Local Lemma v_mul : (v * IZR b = IZR a)%R. Proof using Hb. unfold v. field. pose proof Hb'. lra. Qed.

  Lemma pow10_le_ok X : pow10_le X a b = true <-> (bpow radix10 X <= v)%R.
  Proof using Ha Hb.
    pose proof Hb' as Hb1. pose proof v_mul as EV. unfold pow10_le. destruct (Z.leb_spec 0 X) as [H|H].
    - rewrite Z.leb_le, bpow10_pos by exact H. split; intros L.
      + apply Rmult_le_reg_r with (IZR b); [exact Hb1|]. rewrite EV, <- mult_IZR. apply IZR_le, L.
      + apply le_IZR. rewrite mult_IZR. rewrite <- EV. apply Rmult_le_compat_r; [lra|exact L].
    - rewrite Z.leb_le. assert (EP : (bpow radix10 X * IZR (10 ^ (- X)) = 1)%R).
      { rewrite <- bpow10_pos by lia. rewrite <- bpow_plus. replace (X + - X) with 0 by lia. reflexivity. }
      assert (P : (0 < IZR (10 ^ (- X)))%R) by (apply IZR_lt, Z.pow_pos_nonneg; lia).
      split; intros L.
      + apply Rmult_le_reg_r with (IZR b); [exact Hb1|]. rewrite EV.
        apply Rmult_le_reg_r with (IZR (10 ^ (- X))); [exact P|].
        replace (bpow radix10 X * IZR b * IZR (10 ^ (- X)))%R with (bpow radix10 X * IZR (10 ^ (- X)) * IZR b)%R by ring.
        rewrite EP, Rmult_1_l, <- mult_IZR. apply IZR_le, L.
      + apply le_IZR. rewrite mult_IZR, <- EV.
        replace (v * IZR b * IZR (10 ^ (- X)))%R with (v * IZR (10 ^ (- X)) * IZR b)%R by ring.
        rewrite <- (Rmult_1_l (IZR b)) at 1. apply Rmult_le_compat_r; [lra|]. rewrite <- EP. apply Rmult_le_compat_r; [lra|exact L].
  Qed.

  Lemma dec_exp_ok fuel : forall X, (bpow radix10 (X - Z.of_nat fuel) <= v)%R -> (v < bpow radix10 (X + 1))%R ->
    (bpow radix10 (dec_exp fuel X a b) <= v < bpow radix10 (dec_exp fuel X a b + 1))%R.
  Proof using Ha Hb.
    induction fuel as [|f IH]; intros X HL HU; cbn [dec_exp].
    - replace (X - Z.of_nat 0) with X in HL by lia. split; assumption.
    - destruct (pow10_le X a b) eqn:E.
      + split; [apply pow10_le_ok, E|exact HU].
      + apply IH; [replace (X - 1 - Z.of_nat f) with (X - Z.of_nat (S f)) by lia; exact HL|].
        replace (X - 1 + 1) with X by lia. apply Rnot_le_lt. intros L. apply pow10_le_ok in L. congruence.
  Qed.

  Lemma six_units_ok X : six_units X a b = ZnearestE (v * bpow radix10 (5 - X)).
  Proof using Ha Hb.
    pose proof Hb' as Hb1. unfold six_units. destruct (Z.leb_spec X 5) as [H|H].
    - rewrite round_div_ok by exact Hb. f_equal. rewrite bpow10_pos, mult_IZR by lia. unfold v. field. lra.
    - assert (P : 0 < 10 ^ (X - 5)) by (apply Z.pow_pos_nonneg; lia).
      rewrite round_div_ok by nia. f_equal. rewrite mult_IZR. replace (5 - X) with (- (X - 5)) by lia.
      rewrite bpow_opp, bpow10_pos by lia. unfold v. field. apply IZR_lt in P. split; lra.
  Qed.

  Lemma six_round X : (bpow radix10 X <= v < bpow radix10 (X + 1))%R ->
    six_digits v = (IZR (six_units X a b) * bpow radix10 (X - 5))%R /\ 100000 <= six_units X a b <= 1000000.
  Proof using Ha Hb.
    intros (L & U). pose proof v_pos as VP.
    assert (EM : mag radix10 v = X + 1 :> Z).
    { apply mag_unique. rewrite Rabs_pos_eq by lra. replace (X + 1 - 1) with X by lia. split; assumption. }
    split.
    - unfold six_digits, round, F2R, scaled_mantissa, cexp, FLX_exp. cbn [Fnum Fexp]. rewrite EM.
      replace (- (X + 1 - 6)) with (5 - X) by lia. replace (X + 1 - 6) with (X - 5) by lia. rewrite six_units_ok. reflexivity.
    - rewrite six_units_ok. assert (B : (IZR 100000 <= v * bpow radix10 (5 - X) <= IZR 1000000)%R).
      { pose proof (bpow_gt_0 radix10 (5 - X)) as P. split.
        - change (IZR 100000) with (bpow radix10 5). replace 5 with (X + (5 - X)) at 1 by lia. rewrite bpow_plus.
          apply Rmult_le_compat_r; lra.
        - change (IZR 1000000) with (bpow radix10 6). replace 6 with (X + 1 + (5 - X)) by lia. rewrite bpow_plus.
          apply Rmult_le_compat_r; lra. }
      destruct B as [B1 B2]. apply (@Zrnd_le ZnearestE (valid_rnd_N _)) in B1. apply (@Zrnd_le ZnearestE (valid_rnd_N _)) in B2. rewrite (@Zrnd_IZR ZnearestE (valid_rnd_N _)) in B1, B2. lia.
  Qed.
End Positive.

(** The text of a positive number is determined by a normalised pair (X, D). *)
Definition show_pair (X D : Z) : string :=
  if (-4 <=? X) && (X <? 6) then show_fixed (Z.to_nat (5 - X)) D else show_fixed 5 D ++ "e" ++ show_exp X.

Lemma show_positive_pair a b : 0 < a -> 0 < b -> (bpow radix10 (-324) <= IZR a / IZR b < bpow radix10 309)%R ->
  exists X D, show_positive a b = show_pair X D /\ 100000 <= D < 1000000 /\
    six_digits (IZR a / IZR b) = (IZR D * bpow radix10 (X - 5))%R.
Proof.
  intros Ha Hb (L & U).
  assert (E : let X := dec_exp 632 (if pow10_le 7 a b then 308 else 6) a b in (bpow radix10 X <= IZR a / IZR b < bpow radix10 (X + 1))%R).
  { apply (dec_exp_ok a b Ha Hb).
    - apply Rle_trans with (2 := L). apply bpow_le. destruct (pow10_le 7 a b); lia.
    - destruct (pow10_le 7 a b) eqn:E7; [exact U|]. apply Rnot_le_lt. intros L7. apply (pow10_le_ok a b Ha Hb 7) in L7. congruence. }
  cbv zeta in E.
  destruct (six_round a b Ha Hb _ E) as (ER & EB). unfold show_positive.
  set (X := dec_exp 632 (if pow10_le 7 a b then 308 else 6) a b) in *. set (D := six_units X a b) in *. clearbody X D.
  destruct (Z.eqb_spec D 1000000) as [->|N].
  - exists (X + 1), 100000. split; [reflexivity|]. split; [lia|]. rewrite ER.
    replace (X + 1 - 5) with (1 + (X - 5)) by lia. rewrite bpow_plus. change (bpow radix10 1) with 10%R. ring.
  - exists X, D. split; [reflexivity|]. split; [lia|exact ER].
Qed.

Lemma read_pair X D : 0 <= D -> exists m k, read_unsigned (show_pair X D) = Some (m, k) /\
  (IZR m * bpow radix10 k = IZR D * bpow radix10 (X - 5))%R.
Proof.
  intros HD. unfold show_pair.
  assert (V : forall p v n e, 0 <= n <= p -> v * 10 ^ (p - n) = D -> e = X - 5 + p ->
    (IZR v * bpow radix10 (e - n) = IZR D * bpow radix10 (X - 5))%R).
  { intros p v n e Hn <- ->. rewrite mult_IZR, <- bpow10_pos by lia. rewrite Rmult_assoc, <- bpow_plus. f_equal. f_equal. lia. }
  destruct ((-4 <=? X) && (X <? 6)) eqn:C.
  - apply andb_prop in C as [C1 C2]. apply Z.leb_le in C1. apply Z.ltb_lt in C2.
    destruct (read_fixed (Z.to_nat (5 - X)) D "" HD (or_introl eq_refl)) as (v & n & Hn & Ev & R).
    rewrite append_nil in R. rewrite R. exists v, (- n). split; [reflexivity|].
    rewrite Z2Nat.id in * by lia. replace (- n) with (0 - n) by lia. apply (V (5 - X)); [exact Hn|exact Ev|lia].
  - destruct (read_fixed 5 D ("e" ++ show_exp X) HD (or_intror (ex_intro _ _ eq_refl))) as (v & n & Hn & Ev & R).
    rewrite R. cbn [append]. pose proof (read_exp X) as RX.
    destruct (show_exp X) as [|c t]; [contradiction|].
    destruct c as [[] [] [] [] [] [] [] []]; try contradiction; rewrite RX.
    + exists v, (X - n). split; [reflexivity|]. apply (V 5); [exact Hn|exact Ev|lia].
    + exists v, (- - X - n). split; [reflexivity|]. replace (- - X) with X by lia. apply (V 5); [exact Hn|exact Ev|lia].
Qed.

(** ** Doubles *)
Lemma finite_range s m e : valid_binary 53 1024 (S754_finite s m e) = true ->
  let a := Zpos m * 2 ^ Z.max e 0 in let b := 2 ^ Z.max (- e) 0 in
  0 < a /\ 0 < b /\ (IZR a / IZR b = F2R (Float radix2 (Zpos m) e))%R /\ (bpow radix10 (-324) <= IZR a / IZR b < bpow radix10 309)%R.
Proof.
  intros HV a b. assert (Pb : 0 < b) by (apply Z.pow_pos_nonneg; lia).
  assert (Pa : 0 < a) by (unfold a; apply Z.mul_pos_pos; [lia|apply Z.pow_pos_nonneg; lia]).
  assert (EV : (IZR a / IZR b = F2R (Float radix2 (Zpos m) e))%R).
  { unfold a, b, F2R. cbn [Fnum Fexp]. rewrite mult_IZR. rewrite <- !bpow2_pos by lia.
    unfold Rdiv. rewrite <- bpow_opp, Rmult_assoc, <- bpow_plus. f_equal. f_equal. lia. }
  split; [exact Pa|]. split; [exact Pb|]. split; [exact EV|]. rewrite EV.
  assert (HB : bounded 53 1024 m e = true) by exact HV. split.
  - apply Rle_trans with (bpow radix2 (-1074)).
    + change (-324) with (Z.opp 324). change (-1074) with (Z.opp 1074). rewrite !bpow_opp. apply Rinv_le; [apply bpow_gt_0|].
      rewrite bpow10_pos by lia. rewrite bpow2_pos by lia. apply IZR_le. vm_compute. discriminate.
    + exact (bounded_ge_emin 53 1024 m e HB).
  - apply Rlt_trans with (bpow radix2 1024).
    + apply (bounded_lt_emax 53 1024 m e HB).
    + rewrite bpow10_pos by lia. rewrite bpow2_pos by lia. apply IZR_lt. vm_compute. reflexivity.
Qed.
