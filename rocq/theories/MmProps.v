(** * Properties of matmult: C80 *)
From Coq Require Import List ZArith Bool Lia Permutation Reals Lra String SpecFloat.
From Flocq Require Import Core BinarySingleNaN.
From Verif Require Import Cpp CppProof FilterSpec RealArith Ieee Double DblSpec DblProof ParModel ParSpec ParProof ParProps FortModel PySpec FortProps MmModel MmSpec MmProof.
From Coq Require Import List.
Import ListNotations.
Local Open Scope Z_scope.
Local Arguments Z.of_nat : simpl never.

(** ** The product *)

(** The naive version computes the product of any two matrices of matching sizes, each element being the sum of the products
    added in the order of the subscript; c may contain anything. *)
Theorem C80_product {D} (ar : arith D) n m el A B a b c :
  mm_rows a = n -> mm_cols a = m -> by_columns n m A (mm_data a) ->
  mm_rows b = m -> mm_cols b = el -> by_columns m el B (mm_data b) ->
  mm_rows c = n -> mm_cols c = el -> vlen (mm_data c) = n * el ->
  exists c', matmult0 ar a b c = Ok c' /\ mm_rows c' = n /\ mm_cols c' = el /\ by_columns n el (dot_product ar m A B) (mm_data c').
Proof.
  intros Ha1 Ha2 Ha Hb1 Hb2 Hb Hc1 Hc2 Hc.
  destruct (matmult0_ok ar n m el A B a b c (conj Ha1 (conj Ha2 Ha)) (conj Hb1 (conj Hb2 Hb)) (conj Hc1 (conj Hc2 Hc))) as (c' & E & H). exists c'. split; [exact E|exact H].
Qed.
Print Assumptions C80_product.

(** In exact arithmetic this is the product of linear algebra. *)
Theorem C80_real_product m A B i k : dot_product arR m A B i k = fold_right Rplus 0%R (map (fun j => A i j * B j k)%R (upto m)).
Proof.
  unfold dot_product. cbn [a_add a_mul a_ofZ arR]. generalize (upto m) as l. intros l.
  assert (H : forall s, fold_left (fun s j => s + A i j * B j k)%R l s = (s + fold_right Rplus 0 (map (fun j => A i j * B j k) l))%R).
  { induction l as [|j l IH]; intros s; cbn [fold_left map fold_right]; [ring|]. rewrite IH. ring. }
  rewrite H. simpl IZR. ring.
Qed.
Print Assumptions C80_real_product.

(** The concurrent version: with any number of threads, any distribution of the iterations over them and any interleaving of
    their accesses, nothing undefined happens, there is no race, and the result is the one of the naive version; and every
    execution can be continued to its end. *)
Theorem C80_every_schedule {D} (ar : arith D) a b c c' T who :
  matmult0 ar a b c = Ok c' -> (0 < T)%nat -> shares T (mm_cols c) who ->
  (forall s r, run s (mm_region ar T a b c who) = Some r -> exists cf, r = Ok cf /\ ~ race cf /\ (finished cf -> fst (fst cf) = mm_data c')) /\
  (forall s cf, run s (mm_region ar T a b c who) = Some (Ok cf) -> exists s' cf', run s' cf = Some (Ok cf') /\ finished cf').
Proof.
  intros E HT Hw. pose proof (mm_chain ar T a b c c' who E Hw) as Hc. split.
  - intros s r Hr. destruct (region_runs T _ _ _ HT Hc s r Hr) as (cf & -> & H1 & H2 & _). exists cf. split; [reflexivity|]. split; [exact H1|].
    intros Hf. rewrite (H2 Hf). reflexivity.
  - apply region_completes.
    { intros l t [<-|[]]. eexists. apply atmost_share. apply task_atmost. }
    intros s r Hr. destruct (region_runs T _ _ _ HT Hc s r Hr) as (cf & -> & _ & _ & H). exists cf. split; [reflexivity|].
    destruct (finished_dec cf); auto.
Qed.
Print Assumptions C80_every_schedule.

(** initmat fills a and then b with 1, 2, 3, ... by columns. *)
Theorem C80_initmat {D} (ar : arith D) n m el a b : 0 <= n -> 0 <= m -> 0 <= el ->
  mm_rows a = n -> mm_cols a = m -> vlen (mm_data a) = n * m -> mm_rows b = m -> mm_cols b = el -> vlen (mm_data b) = m * el ->
  exists a' b', mm_initmat ar a b = Ok (a', b') /\ mm_rows a' = n /\ mm_cols a' = m /\ mm_rows b' = m /\ mm_cols b' = el /\
    mm_data a' = map (counted ar) (seq 0 (Z.to_nat (n * m))) /\
    mm_data b' = map (counted ar) (seq (Z.to_nat (n * m)) (Z.to_nat (m * el))).
Proof.
  intros Hn Hm Hel A1 A2 A3 B1 B2 B3. unfold mm_initmat. rewrite A1, B1, B2.
  destruct (fill_ok ar n m a (a_ofZ ar 1) 0 (conj A1 (conj A2 A3)) Hn Hm eq_refl) as (a' & -> & Ha). cbn [bind Nat.add].
  destruct (fill_ok ar m el b _ (Z.to_nat (n * m)) (conj B1 (conj B2 B3)) Hm Hel eq_refl) as (b' & -> & Hb). cbn [bind].
  exists a', b'. split; [reflexivity|]. destruct Ha as (R1 & R2 & Ha). destruct Hb as (R3 & R4 & Hb). repeat (split; [assumption|]). split.
  - apply (by_columns_eq n m _ _ _ Hn Hm Ha). split; [rewrite map_length, seq_length; nia|]. intros i j Hi Hj. pose proof (pos_range n m i j Hi Hj).
    apply map_nth_error. rewrite (nth_error_nth' _ O) by (rewrite seq_length; lia). rewrite seq_nth by lia. reflexivity.
  - apply (by_columns_eq m el _ _ _ Hm Hel Hb). split; [rewrite map_length, seq_length; nia|]. intros i j Hi Hj. pose proof (pos_range m el i j Hi Hj).
    apply map_nth_error. rewrite (nth_error_nth' _ O) by (rewrite seq_length; lia). rewrite seq_nth by lia. reflexivity.
Qed.
Print Assumptions C80_initmat.

(** ** Double precision *)
Section Doubles.
  Local Open Scope R_scope.
  Lemma large_ok x : Rabs x <= bpow radix2 1000 -> Rabs (rnd64 x) < bpow radix2 demax.
  Proof.
    intros H. apply Rle_lt_trans with (bpow radix2 1000).
    - apply abs_round_le_generic; auto with typeclass_instances. apply generic_format_bpow. vm_compute. discriminate.
    - apply bpow_lt. reflexivity.
  Qed.
  Lemma dv_add_large x y a b : double_value x a -> double_value y b -> Rabs (a + b) <= bpow radix2 1000 -> double_value (a_add arD x y) (rnd64 (a + b)).
  Proof.
    intros Hx Hy S. apply dv_b64 in Hx as (bx & -> & Fx & <-). apply dv_b64 in Hy as (b' & -> & Fy & <-). apply dv_b64.
    pose proof (Bplus_correct dprec demax Hprec64 Hmax64 mode_NE bx b' Fx Fy) as C. simpl round_mode in C.
    rewrite Rlt_bool_true in C by (apply large_ok; exact S). destruct C as (C1 & C2 & _).
    exists (Bplus mode_NE bx b'). split; [apply SFadd_equiv|]. split; assumption.
  Qed.
  Lemma dv_mul_large x y a b : double_value x a -> double_value y b -> Rabs (a * b) <= bpow radix2 1000 -> double_value (a_mul arD x y) (rnd64 (a * b)).
  Proof.
    intros Hx Hy S. apply dv_b64 in Hx as (bx & -> & Fx & <-). apply dv_b64 in Hy as (b' & -> & Fy & <-). apply dv_b64.
    pose proof (Bmult_correct dprec demax Hprec64 Hmax64 mode_NE bx b') as C. simpl round_mode in C.
    rewrite Rlt_bool_true in C by (apply large_ok; exact S). destruct C as (C1 & C2 & _).
    exists (Bmult mode_NE bx b'). split; [apply SFmul_equiv|]. split; [rewrite C2, Fx, Fy; reflexivity|assumption].
  Qed.
  (** j 2^e is a double for |j| <= 2^53. *)
  Lemma fmt_scaled j e : (Z.abs j <= 2 ^ 53)%Z -> (0 <= e)%Z -> fmt (IZR j * bpow radix2 e).
  Proof.
    intros Hj He. destruct (Z.eq_dec (Z.abs j) (2 ^ 53)) as [E|N].
    - assert (F53 : fmt (bpow radix2 (53 + e))) by (apply generic_format_bpow; unfold fexp64, SpecFloat.fexp, SpecFloat.emin, dprec, demax; lia).
      rewrite bpow_plus in F53. replace (bpow radix2 53) with (IZR (2 ^ 53)) in F53 by (rewrite <- IZR_Zpower by lia; reflexivity).
      assert (Hcase : j = (2 ^ 53)%Z \/ j = (- 2 ^ 53)%Z) by lia. destruct Hcase as [-> | ->]; [exact F53|].
      rewrite opp_IZR. replace (- IZR (2 ^ 53) * bpow radix2 e) with (- (IZR (2 ^ 53) * bpow radix2 e)) by ring.
      apply generic_format_opp. exact F53.
    - apply generic_format_FLT. exists (Float radix2 j e); [reflexivity| |].
      + cbn [Fnum]. change (Z.abs j < 2 ^ 53)%Z. lia.
      + cbn [Fexp]. apply Z.le_trans with 0%Z; [discriminate|exact He].
  Qed.
  Lemma rnd_IZR z : (Z.abs z <= 2 ^ 53)%Z -> rnd64 (IZR z) = IZR z.
  Proof. intros H. apply rnd_fmt. replace (IZR z) with (IZR z * bpow radix2 0) by (simpl; ring). apply fmt_scaled; [exact H|lia]. Qed.

  (** Counting stops at 2^53: adding one to it changes nothing. *)
  Lemma rnd_stuck : rnd64 (2 ^ 53 + 1) = 2 ^ 53.
  Proof.
    set (x := S754_finite false 4503599627370496 1). assert (Vx : double_value x (2 ^ 53)).
    { split; [vm_compute; reflexivity|]. split; [reflexivity|]. unfold x. cbn [SF2R]. unfold F2R. cbn [Fnum Fexp cond_Zopp]. rewrite bpow_powerRZ. simpl. lra. }
    assert (V1 : double_value (a_ofZ arD 1) 1) by (exact (dv_ofZ 1 ltac:(reflexivity))).
    assert (B : Rabs (2 ^ 53 + 1) <= bpow radix2 1000).
    { rewrite Rabs_pos_eq by (simpl; lra). apply Rle_trans with (bpow radix2 54); [rewrite bpow_powerRZ; simpl; lra|apply bpow_le; lia]. }
    pose proof (dv_add_large _ _ _ _ Vx V1 B) as H. assert (E : a_add arD x (a_ofZ arD 1) = x) by (vm_compute; reflexivity).
    rewrite E in H. apply (dv_unique _ _ _ H Vx).
  Qed.

  Lemma counted_range k : exists r, double_value (counted arD k) r /\ 1 <= r <= 2 ^ 53.
  Proof.
    induction k as [|k (r & V & L & U)].
    - exists 1. split; [exact (dv_ofZ 1 ltac:(reflexivity))|]. simpl. lra.
    - exists (rnd64 (r + 1)). split.
      + apply dv_add_large; [exact V|exact (dv_ofZ 1 ltac:(reflexivity))|]. rewrite Rabs_pos_eq by lra.
        apply Rle_trans with (bpow radix2 54); [rewrite bpow_powerRZ; simpl in *; lra|apply bpow_le; lia].
      + split.
        * pose proof (rnd_le 1 (r + 1) ltac:(lra)) as H1. rewrite (rnd_IZR 1) in H1 by lia. exact H1.
        * pose proof (rnd_le (r + 1) (2 ^ 53 + 1) ltac:(lra)) as H1. rewrite rnd_stuck in H1. exact H1.
  Qed.

  Lemma dot_range A B i k m : (0 <= m <= 2 ^ 53)%Z -> (forall j, exists r, double_value (A i j) r /\ 1 <= r <= 2 ^ 53) ->
    (forall j, exists r, double_value (B j k) r /\ 1 <= r <= 2 ^ 53) -> exists r, double_value (dot_product arD m A B i k) r.
  Proof.
    intros Hm HA HB. assert (H : forall q, (Z.of_nat q <= 2 ^ 53)%Z ->
      exists r, double_value (dot_product arD (Z.of_nat q) A B i k) r /\ 0 <= r <= IZR (Z.of_nat q) * bpow radix2 106).
    { induction q as [|q IH]; intros Hq.
      - exists 0. split; [exact (dv_ofZ 0 ltac:(reflexivity))|]. rewrite Rmult_0_l. lra.
      - destruct IH as (r & V & L & U); [lia|]. destruct (HA (Z.of_nat q + 1)%Z) as (x & Vx & Lx & Ux). destruct (HB (Z.of_nat q + 1)%Z) as (y & Vy & Ly & Uy).
        pose proof (bpow_ge_0 radix2 106) as P0.
        assert (Hxy : 0 <= x * y <= bpow radix2 106).
        { split; [nra|]. replace (bpow radix2 106) with (2 ^ 53 * 2 ^ 53) by (rewrite bpow_powerRZ; simpl; lra). apply Rmult_le_compat; lra. }
        assert (Hp : 0 <= rnd64 (x * y) <= bpow radix2 106).
        { split; [apply rnd_nn; lra|]. rewrite <- (rnd_fmt (bpow radix2 106)) by (apply generic_format_bpow; vm_compute; discriminate). apply rnd_le. lra. }
        assert (HS : IZR (Z.of_nat (S q)) * bpow radix2 106 <= bpow radix2 1000).
        { apply Rle_trans with (bpow radix2 53 * bpow radix2 106).
          - apply Rmult_le_compat_r; [exact P0|]. rewrite <- IZR_Zpower by lia. apply IZR_le. exact Hq.
          - rewrite <- bpow_plus. apply bpow_le. lia. }
        assert (Hs : 0 <= r + rnd64 (x * y) <= IZR (Z.of_nat (S q)) * bpow radix2 106).
        { split; [lra|]. rewrite Nat2Z.inj_succ, succ_IZR. lra. }
        exists (rnd64 (r + rnd64 (x * y))). split.
        + unfold dot_product. rewrite upto_S, fold_left_app. cbn [fold_left]. apply dv_add_large; [exact V|apply dv_mul_large; [exact Vx|exact Vy|]|].
          * rewrite Rabs_pos_eq by lra. apply Rle_trans with (bpow radix2 106); [lra|apply bpow_le; lia].
          * rewrite Rabs_pos_eq by lra. lra.
        + split; [apply rnd_nn; lra|]. rewrite <- (rnd_fmt (IZR (Z.of_nat (S q)) * bpow radix2 106)) by (apply fmt_scaled; lia). apply rnd_le. lra. }
    destruct (H (Z.to_nat m)) as (r & V & _); [lia|]. exists r. rewrite Z2Nat.id in V by lia. exact V.
  Qed.

  (** Sums of zeros. *)
  Lemma zeros_reduce l x : reduction (a_add arD) l x -> (forall y, In y l -> double_value y 0) -> double_value x 0.
  Proof.
    induction 1 as [x|l l1 l2 a b P _ IH1 _ IH2]; intros H; [apply H; left; reflexivity|].
    assert (Va : double_value a 0) by (apply IH1; intros y Hy; apply H; apply (Permutation_in _ (Permutation_sym P)), in_or_app; auto).
    assert (Vb : double_value b 0) by (apply IH2; intros y Hy; apply H; apply (Permutation_in _ (Permutation_sym P)), in_or_app; auto).
    pose proof (dv_add _ _ _ _ Va Vb) as HV. rewrite Rplus_0_r, rnd_0 in HV. apply HV. rewrite Rabs_R0. simpl. lra.
  Qed.
  Lemma zeros_sum psum l : sums arD psum -> (forall y, In y l -> double_value y 0) -> double_value (psum l) 0.
  Proof.
    intros Hs H. destruct (Hs l) as (zs & _ & Hz & Hr). apply (zeros_reduce _ _ Hr). intros y Hy. apply in_app_or in Hy as [Hy|Hy]; [|auto].
    destruct (Hz y Hy) as [-> | ->]; [exact (dv_ofZ 0 ltac:(reflexivity))|]. split; [reflexivity|split; reflexivity].
  Qed.
  Lemma diff_zero psum l : sums arD psum -> (forall x, In x l -> exists r, double_value x r) ->
    double_value (psum (map (fun '(x, y) => mm_abs arD (a_sub arD x y)) (combine l l))) 0.
  Proof.
    intros Hs H. apply zeros_sum; [exact Hs|]. intros y Hy. apply in_map_iff in Hy as ([x x'] & <- & Hi).
    assert (x' = x /\ In x l) as [-> Hx].
    { clear -Hi. induction l as [|z l IH]; [destruct Hi|]. cbn [combine] in Hi. destruct Hi as [E|Hi]; [injection E as <- <-; split; [reflexivity|left; reflexivity]|].
      destruct (IH Hi). split; [assumption|right; assumption]. }
    destruct (H x Hx) as (r & V). pose proof (dv_sub _ _ _ _ V V) as HV. replace (r - r) with 0 in HV by ring. rewrite rnd_0 in HV.
    assert (V0 : double_value (a_sub arD x x) 0) by (apply HV; rewrite Rabs_R0; simpl; lra). unfold mm_abs.
    rewrite (dv_lt _ _ 0 0 V0 (dv_ofZ 0 ltac:(reflexivity))), Rlt_bool_false by lra. exact V0.
  Qed.

  (** Exact counting. *)
  Lemma counted_exact k : (Z.of_nat k + 1 <= 2 ^ 53)%Z -> double_value (counted arD k) (IZR (Z.of_nat k + 1)).
  Proof.
    induction k as [|k IH]; intros Hk; [exact (dv_ofZ 1 ltac:(reflexivity))|]. cbn [counted]. rewrite Nat2Z.inj_succ in *.
    replace (Z.succ (Z.of_nat k) + 1)%Z with (Z.of_nat k + 1 + 1)%Z by lia. rewrite <- (rnd_IZR (Z.of_nat k + 1 + 1)) by lia. rewrite plus_IZR.
    apply dv_add; [apply IH; lia|exact (dv_ofZ 1 eq_refl)|]. rewrite <- plus_IZR. rewrite <- abs_IZR.
    replace (2 ^ 53) with (IZR (2 ^ 53)) by (symmetry; exact (pow_IZR 2 53)). apply IZR_le. lia.
  Qed.
End Doubles.

Lemma zsum_S q f : zsum (Z.of_nat (S q)) f = zsum (Z.of_nat q) f + f (Z.of_nat q + 1).
Proof.
  unfold zsum. rewrite upto_S, map_app. cbn [map]. generalize (map f (upto (Z.of_nat q))) as l. intros l. rewrite fold_right_app. cbn [fold_right].
  induction l as [|x l IH]; cbn [fold_right]; lia.
Qed.

Lemma dot_exact A B (X Y : Z -> Z -> Z) i k m N : 0 <= m -> 0 <= N -> m * (N * N) <= 2 ^ 53 ->
  (forall j, 1 <= j <= m -> double_value (A i j) (IZR (X i j)) /\ 0 <= X i j <= N) ->
  (forall j, 1 <= j <= m -> double_value (B j k) (IZR (Y j k)) /\ 0 <= Y j k <= N) ->
  double_value (dot_product arD m A B i k) (IZR (zsum m (fun j => X i j * Y j k))).
Proof.
  intros Hm HN Hb HA HB.
  assert (L53 : forall z, 0 <= z <= 2 ^ 53 -> (Rabs (IZR z) <= 2 ^ 53)%R).
  { intros z Hz. rewrite <- abs_IZR. replace (2 ^ 53)%R with (IZR (2 ^ 53)) by (symmetry; exact (pow_IZR 2 53)). apply IZR_le. lia. }
  assert (H : forall q, Z.of_nat q <= m -> double_value (dot_product arD (Z.of_nat q) A B i k) (IZR (zsum (Z.of_nat q) (fun j => X i j * Y j k))) /\
    0 <= zsum (Z.of_nat q) (fun j => X i j * Y j k) <= Z.of_nat q * (N * N)).
  { induction q as [|q IH]; intros Hq.
    - split; [exact (dv_ofZ 0 ltac:(reflexivity))|]. unfold zsum. simpl. lia.
    - destruct IH as (V & L); [lia|]. rewrite zsum_S. destruct (HA (Z.of_nat q + 1) ltac:(lia)) as (Vx & Lx). destruct (HB (Z.of_nat q + 1) ltac:(lia)) as (Vy & Ly).
      set (x := X i (Z.of_nat q + 1)) in *. set (y := Y (Z.of_nat q + 1) k) in *. set (S := zsum (Z.of_nat q) _) in *.
      assert (Hxy : 0 <= x * y <= N * N) by nia. assert (HS : 0 <= S + x * y <= Z.of_nat (Datatypes.S q) * (N * N)) by (rewrite Nat2Z.inj_succ; nia).
      assert (HM : Z.of_nat (Datatypes.S q) * (N * N) <= m * (N * N)) by (apply Z.mul_le_mono_nonneg_r; nia).
      split; [|exact HS]. unfold dot_product. rewrite upto_S, fold_left_app. cbn [fold_left]. fold (dot_product arD (Z.of_nat q) A B i k).
      rewrite <- (rnd_IZR (S + x * y)) by lia. rewrite plus_IZR. apply dv_add.
      + exact V.
      + rewrite <- (rnd_IZR (x * y)) by nia. rewrite mult_IZR. apply dv_mul; [exact Vx|exact Vy|]. rewrite <- mult_IZR. apply L53. nia.
      + rewrite <- plus_IZR. apply L53. lia. }
  destruct (H (Z.to_nat m) ltac:(lia)) as (V & _). rewrite Z2Nat.id in V by lia. exact V.
Qed.

(** The matrices of the program. *)
Lemma program_matrices {D} (ar : arith D) junk0 junk1 n m el :
  exists a b, mm_initmat ar (mm_alloc junk0 n m) (mm_alloc junk1 m el) = Ok (a, b) /\
    let n := Z.max 0 n in let m := Z.max 0 m in let el := Z.max 0 el in
    holds n m (fun i j => counted ar (Z.to_nat (i - 1 + n * (j - 1)))) a /\
    holds m el (fun j k => counted ar (Z.to_nat (n * m) + Z.to_nat (j - 1 + m * (k - 1)))) b.
Proof.
  assert (HA : forall (j : Z -> D) p q, mm_alloc j p q = mm_alloc j (Z.max 0 p) (Z.max 0 q)) by (intros; unfold mm_alloc; rewrite !(Z.max_r 0 (Z.max 0 _)) by lia; reflexivity).
  rewrite (HA junk0), (HA junk1). generalize (Z.le_max_l 0 n) (Z.le_max_l 0 m) (Z.le_max_l 0 el). generalize (Z.max 0 n) (Z.max 0 m) (Z.max 0 el). clear. intros n m el Hn Hm Hel.
  pose proof (mm_alloc_shaped junk0 n m Hn Hm) as SA. pose proof (mm_alloc_shaped junk1 m el Hm Hel) as SB. unfold mm_initmat.
  destruct SA as (A1 & A2 & A3). destruct SB as (B1 & B2 & B3). rewrite A1, B1, B2.
  destruct (fill_ok ar n m _ (a_ofZ ar 1) 0 (conj A1 (conj A2 A3)) Hn Hm eq_refl) as (a' & -> & Ha). cbn [bind Nat.add].
  destruct (fill_ok ar m el _ _ (Z.to_nat (n * m)) (conj B1 (conj B2 B3)) Hm Hel eq_refl) as (b' & -> & Hb). cbn [bind].
  exists a', b'. split; [reflexivity|]. split; [exact Ha|exact Hb].
Qed.

(** While m (n m + m el)^2 does not exceed 2^53 nothing is rounded: the elements of the product are the exact integers. *)
Theorem C80_exact n m el junk0 junk1 junk2 : 0 <= n -> 0 <= m -> 0 <= el -> m * ((n * m + m * el) * (n * m + m * el)) <= 2 ^ 53 ->
  exists a b c, mm_initmat arD (mm_alloc junk0 n m) (mm_alloc junk1 m el) = Ok (a, b) /\ matmult0 arD a b (mm_alloc junk2 n el) = Ok c /\
    forall i k, 1 <= i <= n -> 1 <= k <= el -> exists x, nth_error (mm_data c) (Z.to_nat (i - 1 + n * (k - 1))) = Some x /\
      double_value x (IZR (zsum m (fun j => (i + n * (j - 1)) * (n * m + j + m * (k - 1))))).
Proof.
  intros Hn Hm Hel Hb. destruct (program_matrices arD junk0 junk1 n m el) as (a & b & E & Ha & Hbm).
  cbv zeta in Ha, Hbm. rewrite (Z.max_r 0 n), (Z.max_r 0 m) in Ha by lia. rewrite (Z.max_r 0 n), (Z.max_r 0 m), (Z.max_r 0 el) in Hbm by lia.
  destruct (matmult0_ok arD n m el _ _ a b (mm_alloc junk2 n el) Ha Hbm (mm_alloc_shaped junk2 n el Hn Hel)) as (c & Ec & Hc).
  exists a, b, c. split; [exact E|]. split; [exact Ec|]. intros i k Hi Hk. destruct Hc as (_ & _ & _ & Hc). eexists. split; [apply Hc; assumption|].
  destruct (Z.eq_dec m 0) as [->|Hm0]; [exact (dv_ofZ 0 ltac:(reflexivity))|].
  assert (HN0 : 0 <= n * m + m * el) by nia.
  assert (HN : n * m + m * el <= 2 ^ 53) by (clear - Hb HN0 Hm0 Hm; set (N := n * m + m * el) in *; assert (1 * (N * N) <= m * (N * N)) by (apply Z.mul_le_mono_nonneg_r; nia); nia).
  apply (dot_exact _ _ (fun i j => i + n * (j - 1)) (fun j k => n * m + j + m * (k - 1)) i k m (n * m + m * el)); [exact Hm|nia|exact Hb| |].
  - intros j Hj. pose proof (pos_range n m i j Hi Hj). assert (0 <= m * el) by nia. split; [|lia].
    replace (i + n * (j - 1)) with (Z.of_nat (Z.to_nat (i - 1 + n * (j - 1))) + 1) by lia. apply counted_exact. lia.
  - intros j Hj. pose proof (pos_range m el j k Hj Hk). assert (0 <= n * m) by nia. split; [|lia].
    replace (n * m + j + m * (k - 1)) with (Z.of_nat (Z.to_nat (n * m) + Z.to_nat (j - 1 + m * (k - 1))) + 1) by lia. apply counted_exact. lia.
Qed.
Print Assumptions C80_exact.

(** ** The program *)

(** The k-th size: argument k if there is one and zero was found in ier, the default otherwise. *)
Definition chosen (ier : nat -> Z) (vals : list Z) (k : nat) (default : Z) : Z :=
  match nth_error vals (k - 1) with Some v => if ier k =? 0 then v else default | None => default end.

Lemma sizes_given read blank ier args vals : given read blank args vals ->
  mm_sizes read blank ier 1 args (3, 4, 5) = Some (chosen ier vals 1 3, chosen ier vals 2 4, chosen ier vals 3 5).
Proof.
  intros (used & rest & -> & Hu & Hr & H2).
  assert (HR : forall q s, mm_sizes read blank ier q rest s = Some s) by (intros q s; destruct Hr as [->|(a & r & -> & Ha)]; cbn [mm_sizes]; [reflexivity|rewrite Ha; reflexivity]).
  assert (HT : forall q vs us s, (3 < q)%nat -> (forall a, In a us -> blank a = false) -> Forall2 (fun a v => read a = Some v) us vs -> mm_sizes read blank ier q (us ++ rest) s = Some s).
  { intros q vs us s Hq Hb HF. revert q s Hq Hb. induction HF as [|a v us vs Hv _ IH]; intros q s Hq Hb; [apply HR|]. cbn [app mm_sizes].
    rewrite (Hb a (or_introl eq_refl)), Hv. destruct s as [[n m] el]. destruct (Nat.eqb_spec q 1), (Nat.eqb_spec q 2), (Nat.eqb_spec q 3); try lia.
    destruct (ier q =? 0); (rewrite IH; [reflexivity|lia|intros; apply Hb; right; assumption]). }
  unfold chosen. destruct H2 as [|a v us vs Ha H2]; cbn [app nth_error Nat.sub]; [apply HR|]. cbn [mm_sizes]. rewrite (Hu a (or_introl eq_refl)), Ha. cbn [Nat.eqb].
  destruct H2 as [|a2 v2 us vs Ha2 H2]; cbn [app nth_error]; [rewrite HR; destruct (ier 1%nat =? 0); reflexivity|]. cbn [mm_sizes]. rewrite (Hu a2 (or_intror (or_introl eq_refl))), Ha2. cbn [Nat.eqb].
  destruct H2 as [|a3 v3 us vs Ha3 H2]; cbn [app nth_error]; [destruct (ier 1%nat =? 0); cbv beta iota; rewrite HR; destruct (ier 2%nat =? 0); reflexivity|]. cbn [mm_sizes].
  rewrite (Hu a3 (or_intror (or_intror (or_introl eq_refl)))), Ha3. cbn [Nat.eqb].
  destruct (ier 1%nat =? 0), (ier 2%nat =? 0), (ier 3%nat =? 0); cbv beta iota; apply (HT 4%nat vs); auto; intros x Hx; apply Hu; right; right; right; exact Hx.
Qed.

(** [mult1] is an execution of the concurrent loop: some number of threads, some distribution of the iterations, some
    complete interleaving. *)
Definition concurrent_product {D} (ar : arith D) (mult1 : mat D -> mat D -> mat D -> res (mat D)) : Prop :=
  forall a b c, exists T who s, (0 < T)%nat /\ shares T (mm_cols c) who /\
    match run s (mm_region ar T a b c who) with
    | Some (Ok cf) => finished cf /\ mult1 a b c = Ok (mm_with c (fst (fst cf)))
    | Some (Undef u) => mult1 a b c = Undef u
    | None => False
    end.

(** One thread that executes the iterations in order is one of them. *)
Lemma run_alone {D} (c : cmd D) : forall m, exists s, run s (m, [(c, [])]) = Some (match alone c m with Ok m' => Ok (m', [(Done, [])]) | Undef u => Undef u end).
Proof.
  induction c as [|a k IH|a x k IH|u]; intros m; cbn [alone].
  - exists []. reflexivity.
  - destruct (mget m a) as [x|] eqn:E; cbn [bind].
    + destruct (IH x m) as (s & Hs). exists (0%nat :: s). cbn [run turn nth_error]. rewrite E. cbn [bind upd]. exact Hs.
    + exists [0%nat]. cbn [run turn nth_error]. rewrite E. reflexivity.
  - destruct (mset m a x) as [m'|] eqn:E; cbn [bind].
    + destruct (IH m') as (s & Hs). exists (0%nat :: s). cbn [run turn nth_error]. rewrite E. cbn [bind upd]. exact Hs.
    + exists [0%nat]. cbn [run turn nth_error]. rewrite E. reflexivity.
  - exists [0%nat]. reflexivity.
Qed.

Theorem C80_in_order {D} (ar : arith D) : concurrent_product ar (matmult0 ar).
Proof.
  intros a b c. set (all := map Z.of_nat (seq 0 (Z.to_nat (mm_cols c)))). exists 1%nat, (fun _ => all).
  destruct (run_alone (share (mm_task ar a b (mm_rows c) (mm_cols c)) all) (mm_data c, [])) as (s & Hs). exists (0%nat :: s).
  split; [lia|]. split; [unfold shares; cbn [seq flat_map]; rewrite app_nil_r; apply Permutation_refl|].
  unfold mm_region, region. cbn [seq map run turn nth_error forallb arrived fst snd List.length is_done Nat.ltb Nat.leb Nat.eqb andb orb upd].
  lazymatch goal with |- match ?x with _ => _ end => assert (Hs2 : x = _) by exact Hs; rewrite Hs2; clear Hs Hs2 end.
  unfold all. rewrite (share_mat (mm_rows c) (mm_cols c) _ (fun k => mm_column ar a b (k + 1)) (mm_cols c)
    (column_keeps ar _ _ a b) (fun i l => task_alone ar _ _ a b i l)). destruct c as [rows cols l]. cbn [mm_rows mm_cols mm_data].
  unfold matmult0. cbn [mm_cols]. unfold f_do. change (fun k : Z => (fun (k0 : Z) (c : mat D) => mm_column ar a b k0 c) (k + 1)) with (fun k => mm_column ar a b (k + 1)).
  destruct (for_upto cols (fun k => mm_column ar a b (k + 1)) (mkMat rows cols l)) as [c'|] eqn:E; cbn [bind].
  - split; [intros th [<-|[]]; reflexivity|]. f_equal. unfold for_upto in E. exact (for_keeps rows cols _ (column_keeps ar rows cols a b) _ _ _ _ E).
  - reflexivity.
Qed.
Print Assumptions C80_in_order.

(** For whatever sizes and whatever is found in ier, the program reports success: the two products are equal to the last bit
    and consist of finite numbers. *)
Theorem C80_program read blank ier junk mult1 psum eps e args vals :
  given read blank args vals -> (forall v, In v vals -> v < 2 ^ 31) -> concurrent_product arD mult1 -> sums arD psum -> double_value eps e -> (0 <= e)%R ->
  mm_program arD read blank ier junk mult1 psum eps args = Ok (MmSuccess (chosen ier vals 1 3, chosen ier vals 2 4, chosen ier vals 3 5)).
Proof.
  intros Hg Hv Hm Hs He He0. unfold mm_program. rewrite (sizes_given _ _ _ _ _ Hg). cbv beta iota.
  assert (HC : forall k d, d < 2 ^ 31 -> chosen ier vals k d < 2 ^ 31).
  { intros k d Hd. unfold chosen. destruct (nth_error vals (k - 1)) eqn:E; [|exact Hd]. destruct (ier k =? 0); [|exact Hd]. apply Hv. exact (nth_error_In _ _ E). }
  pose proof (HC 2%nat 4 ltac:(lia)) as Hm31. generalize dependent (chosen ier vals 2 4). generalize (chosen ier vals 1 3) (chosen ier vals 3 5). intros n el m Hm31.
  destruct (program_matrices arD (junk 0%nat) (junk 1%nat) n m el) as (a & b & E & Ha & Hb). rewrite E. cbn [bind].
  assert (HS : forall j, shaped (Z.max 0 n) (Z.max 0 el) (mm_alloc (D := spec_float) j n el)).
  { intros j. replace (mm_alloc j n el) with (mm_alloc (D := spec_float) j (Z.max 0 n) (Z.max 0 el)); [apply mm_alloc_shaped; lia|]. unfold mm_alloc. rewrite !(Z.max_r 0 (Z.max 0 _)) by lia. reflexivity. }
  destruct (matmult0_ok arD _ _ _ _ _ a b _ Ha Hb (HS (junk 2%nat))) as (c0 & E0 & H0). rewrite E0. cbn [bind].
  destruct (matmult0_ok arD _ _ _ _ _ a b _ Ha Hb (HS (junk 3%nat))) as (c1 & E1 & H1).
  destruct (Hm a b (mm_alloc (junk 3%nat) n el)) as (T & who & s & HT & Hw & Hrun).
  destruct (C80_every_schedule arD a b _ c1 T who E1 HT Hw) as (Hall & _).
  destruct (run s (mm_region arD T a b (mm_alloc (junk 3%nat) n el) who)) as [r|] eqn:Er; [|contradiction].
  destruct (Hall s r Er) as (cf & -> & _ & Hfin). destruct Hrun as (Hf & ->). cbn [bind]. unfold mm_with. cbn [mm_data]. rewrite (Hfin Hf).
  destruct H0 as (_ & _ & H0). destruct H1 as (_ & _ & H1). rewrite <- (by_columns_eq _ _ _ _ _ (Z.le_max_l 0 n) (Z.le_max_l 0 el) H0 H1).
  assert (HV : forall x, In x (mm_data c0) -> exists r, double_value x r).
  { intros x Hx. apply In_nth_error in Hx as (p & Hp). destruct H0 as (L & H0). assert (Hlt : (p < List.length (mm_data c0))%nat) by (apply nth_error_Some; congruence).
    set (N := Z.max 0 n) in *. set (E' := Z.max 0 el) in *. assert (0 < N) by nia.
    assert (Hi : 1 <= Z.of_nat p mod N + 1 <= N) by (pose proof (Z.mod_pos_bound (Z.of_nat p) N); lia).
    assert (Hk : 1 <= Z.of_nat p / N + 1 <= E').
    { pose proof (Z.div_pos (Z.of_nat p) N). assert (Z.of_nat p / N < E') by (apply Z.div_lt_upper_bound; lia). lia. }
    specialize (H0 _ _ Hi Hk). replace (Z.to_nat _) with p in H0 by (pose proof (Z.div_mod (Z.of_nat p) N); lia). rewrite Hp in H0. injection H0 as ->.
    apply dot_range; [lia| |]; intros j; apply counted_range. }
  pose proof (diff_zero psum (mm_data c0) Hs HV) as Hd. rewrite (dv_lt _ _ _ _ He Hd), Rlt_bool_false by lra. reflexivity.
Qed.
Print Assumptions C80_program.

(** An argument that is no integer ends the program; nothing else does. *)
Theorem C80_read_error {D} (ar : arith D) read blank ier junk mult1 psum eps args :
  mm_program ar read blank ier junk mult1 psum eps args = Ok MmReadError <->
  exists used a rest, args = (used ++ a :: rest)%list /\ (forall x, In x used -> blank x = false /\ read x <> None) /\ blank a = false /\ read a = None.
Proof.
  assert (HN : forall s q, mm_sizes read blank ier q args s = None <->
    exists used a rest, args = (used ++ a :: rest)%list /\ (forall x, In x used -> blank x = false /\ read x <> None) /\ blank a = false /\ read a = None).
  { induction args as [|a args IH]; intros s q; cbn [mm_sizes].
    - split; [discriminate|]. intros (used & a & rest & E & _). destruct used; discriminate.
    - destruct (blank a) eqn:Eb.
      + split; [discriminate|]. intros ([|u used] & a' & rest & E & Hu & Hb & _); injection E as -> ->; [congruence|]. destruct (Hu u (or_introl eq_refl)). congruence.
      + destruct (read a) as [v|] eqn:Ea.
        * destruct s as [[n m] el]. rewrite IH. split.
          -- intros (used & a' & rest & -> & Hu & H). exists (a :: used), a', rest. split; [reflexivity|]. split; [|exact H].
             intros x [<-|Hx]; [split; congruence|apply Hu; exact Hx].
          -- intros ([|u used] & a' & rest & E & Hu & Hb & Hr); injection E as -> ->; [congruence|]. exists used, a', rest. split; [reflexivity|]. split; [|auto]. intros x Hx. apply Hu. right. exact Hx.
        * split; [|reflexivity]. intros _. exists [], a, args. split; [reflexivity|]. split; [intros x []|auto]. }
  unfold mm_program. rewrite <- (HN (3, 4, 5) 1%nat). destruct (mm_sizes read blank ier 1 args (3, 4, 5)) as [[[n m] el]|]; [|split; reflexivity].
  split; [|discriminate]. intros E. exfalso.
  apply bind_ok in E as ([a b] & _ & E). apply bind_ok in E as (c0 & _ & E). apply bind_ok in E as (c1 & _ & E). cbv beta iota zeta in E.
  destruct (a_lt ar eps _); discriminate.
Qed.
Print Assumptions C80_read_error.

(** The sizes asked for need not be used: ier is never assigned. *)
Theorem C80_sizes_refuted read blank a b c x y z : blank a = false -> blank b = false -> blank c = false ->
  read a = Some x -> read b = Some y -> read c = Some z -> (x, y, z) <> (3, 4, 5) ->
  exists ier, mm_sizes read blank ier 1 [a; b; c] (3, 4, 5) <> Some (x, y, z).
Proof.
  intros Ba Bb Bc Ra Rb Rc N. exists (fun _ => 1). cbn [mm_sizes]. rewrite Ba, Bb, Bc, Ra, Rb, Rc. cbn. congruence.
Qed.
Print Assumptions C80_sizes_refuted.

(** ** Examples *)
Definition ex_a : mat Z := mkMat 2 3 [1; 2; 3; 4; 5; 6].      (* rows 1 3 5 and 2 4 6 *)
Definition ex_b : mat Z := mkMat 3 2 [1; 0; 2; 0; 1; 1].      (* columns 1 0 2 and 0 1 1 *)
Definition ex_c : mat Z := mkMat 2 2 [7; 7; 7; 7].
Example ex_product : matmult0 arInt ex_a ex_b ex_c = Ok (mkMat 2 2 [11; 14; 8; 10]).
Proof. vm_compute. reflexivity. Qed.
Example ex_columns : by_columns 2 3 (fun i j => i + 2 * (j - 1)) (mm_data ex_a).
Proof.
  split; [reflexivity|]. intros i j Hi Hj. assert (Ci : i = 1 \/ i = 2) by lia. assert (Cj : j = 1 \/ j = 2 \/ j = 3) by lia.
  destruct Ci as [-> | ->], Cj as [-> |[-> | ->]]; reflexivity.
Qed.
(** Two threads, one column each, one access at a time in turn. *)
Example ex_turns : exists cf, run (0 :: 1 :: List.concat (repeat [1; 0] 14))%nat (mm_region arInt 2 ex_a ex_b ex_c (fun t => [Z.of_nat t])) = Some (Ok cf) /\
  finished cf /\ fst (fst cf) = [11; 14; 8; 10].
Proof. eexists. split; [vm_compute; reflexivity|]. split; [|reflexivity]. intros th [<-|[<-|[]]]; reflexivity. Qed.
Example ex_shares : shares 2 (mm_cols ex_c) (fun t => [Z.of_nat t]).
Proof. vm_compute. apply Permutation_refl. Qed.

(** The default sizes 3 x 4 x 5 in double precision, without arguments. *)
Definition ex_read (s : string) : option Z := if String.eqb s "2" then Some 2 else if String.eqb s "7" then Some 7 else None.
Definition ex_blank (s : string) : bool := String.eqb s "".
Definition ex_sum (l : list spec_float) : spec_float := fold_left (a_add arD) l (a_ofZ arD 0).
Definition ex_run (ier : nat -> Z) (args : list string) : res (mm_end spec_float) :=
  mm_program arD ex_read ex_blank ier (fun _ _ => S754_nan) (matmult0 arD) ex_sum (a_dec arD 1 10) args.
Example ex_defaults : ex_run (fun _ => 0) [] = Ok (MmSuccess (3, 4, 5)).
Proof. vm_compute. reflexivity. Qed.
Example ex_arguments : ex_run (fun _ => 0) ["2"; "7"]%string = Ok (MmSuccess (2, 7, 5)) /\ ex_run (fun k => Z.of_nat k - 2) ["2"; "7"]%string = Ok (MmSuccess (3, 7, 5)).
Proof. split; vm_compute; reflexivity. Qed.
Example ex_word : ex_run (fun _ => 0) ["2"; "x"]%string = Ok MmReadError.
Proof. vm_compute. reflexivity. Qed.
Example ex_given : given ex_read ex_blank ["2"; "7"; ""; "x"]%string [2; 7].
Proof.
  exists ["2"; "7"]%string, [""; "x"]%string. split; [reflexivity|]. split; [intros a [<-|[<-|[]]]; reflexivity|]. split; [right; exists ""%string, ["x"%string]; split; reflexivity|].
  repeat constructor.
Qed.
Lemma left_to_right : forall (l : list spec_float) z, reduction (a_add arD) (z :: l) (fold_left (a_add arD) l z).
Proof.
  intros l. induction l as [|x l IH] using rev_ind; intros z; [constructor|]. rewrite fold_left_app. cbn [fold_left].
  apply (red_node _ _ (z :: l) [x]); [apply Permutation_refl|apply IH|constructor].
Qed.
Example ex_sums : sums arD ex_sum.
Proof.
  intros l. exists [a_ofZ arD 0]. split; [simpl; lia|]. split; [intros z [<-|[]]; left; reflexivity|]. unfold ex_sum. apply left_to_right.
Qed.
(** The sizes for which the exactness theorem applies include the default ones. *)
Example ex_exact : 4 * ((3 * 4 + 4 * 5) * (3 * 4 + 4 * 5)) <= 2 ^ 53.
Proof. vm_compute. discriminate. Qed.
