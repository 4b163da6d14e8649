(** * Property C70, continued: what the MPI programs print in IEEE double precision *)
From Coq Require Import Reals Lra ZArith Lia Floats.SpecFloat.
From Flocq Require Import Core.
From Verif Require Import Cpp CppProof OMap MaiModel MaiSpec Radix MaiProof CdModel CdSpec CdProof CdProps CmdModel CmdSpec CmdProof CmdProps
  FilterModel FilterSpec FilterSum FilterProps LapModel LapSpec LapProof LapProps UpMpiModel UpMpiSpec UpMpiProps VtkModel VtkSpec VtkProps Ieee Double DblSpec DblProof DblField DblSten DblProps UmDblProps
  DrvSpec DrvProps NumModel NumSpec NumProof NumProps TextModel TextSpec TextProof TextRun TextProps FileProps MpiTextModel MpiTextSpec MpiTextProof MpiTextProps.
From Coq Require Import List.
Import ListNotations.
Local Open Scope list_scope.
Local Open Scope string_scope.
Local Open Scope Z_scope.
Local Arguments prodZ : simpl never.
Local Arguments Z.of_nat : simpl never.

(** ** upwindMpi in double precision: every check sum printed is 1, whatever the order of the reductions *)
Section Doubles.
  Local Open Scope R_scope.

  Lemma dyadic_fmt (i : Z) (e : nat) : (Z.abs i < 2 ^ 53)%Z -> (e <= 100)%nat -> fmt (IZR i / IZR (2 ^ Z.of_nat e)).
  Proof.
    intros Hi He. apply generic_format_FLT. exists (Float radix2 i (- Z.of_nat e)).
    - unfold F2R. cbn [Fnum Fexp]. rewrite bpow_opp. rewrite <- (IZR_Zpower radix2) by lia. reflexivity.
    - exact Hi.
    - change (-1074 <= - Z.of_nat e)%Z. lia.
  Qed.

  Lemma power_exp n : In n [1; 2; 4; 8; 16; 32; 64; 128; 256; 512; 1024]%Z -> exists e, (e <= 10)%nat /\ n = (2 ^ Z.of_nat e)%Z.
  Proof.
    intros H. repeat (destruct H as [<-|H]; [|]);
      [exists 0%nat|exists 1%nat|exists 2%nat|exists 3%nat|exists 4%nat|exists 5%nat|exists 6%nat|exists 7%nat|exists 8%nat|exists 9%nat|exists 10%nat|destruct H];
      (split; [lia|reflexivity]).
  Qed.

  (** A coordinate of the file: exact *)
  Lemma node_exact n i : In n [1; 2; 4; 8; 16; 32; 64; 128; 256; 512; 1024]%Z -> (0 <= i <= n)%Z ->
    double_value (node arD (a_dec arD 0 1) (a_dec arD 10 1) n i) (IZR i / IZR n).
  Proof.
    intros Hn Hi. destruct (power_exp n Hn) as (e & He & En).
    assert (Hn' : (1 <= n <= 1024)%Z) by (clear - Hn; repeat (destruct Hn as [<-|Hn]; [lia|]); destruct Hn).
    assert (N1 : 1 <= IZR n) by (apply IZR_le; lia). assert (N2 : IZR n <= 1024) by (apply IZR_le; lia).
    assert (I0 : 0 <= IZR i) by (apply IZR_le; lia). assert (I1 : IZR i <= IZR n) by (apply IZR_le; lia).
    assert (Fi : forall z, (0 <= z <= 1024)%Z -> fmt (IZR z)).
    { intros z Hz. pose proof (dyadic_fmt z 0 ltac:(lia) ltac:(lia)) as F. change (2 ^ Z.of_nat 0)%Z with 1%Z in F. unfold Rdiv in F. rewrite Rinv_1, Rmult_1_r in F. exact F. }
    assert (Q1 : 0 <= IZR i / IZR n <= 1).
    { split; [apply Rmult_le_pos; [exact I0|left; apply Rinv_0_lt_compat; lra]|]. apply Rmult_le_reg_r with (IZR n); [lra|]. unfold Rdiv. rewrite Rmult_assoc, Rinv_l by lra. lra. }
    assert (V1 : double_value (a_sub arD (a_dec arD 10 1) (a_dec arD 0 1)) 1).
    { replace 1 with (rnd64 (1 - 0)) by (rewrite Rminus_0_r; apply rnd_fmt, fmt_1). apply dv_sub; [exact dv_one|exact dv_zero|]. rewrite Rminus_0_r, Rabs_R1. simpl. lra. }
    assert (V2 : double_value (a_mul arD (a_sub arD (a_dec arD 10 1) (a_dec arD 0 1)) (a_ofZ arD i)) (IZR i)).
    { rewrite <- (rnd_fmt (IZR i)) by (apply Fi; lia). rewrite <- (Rmult_1_l (IZR i)). apply dv_mul; [exact V1|apply dv_ofZ; lia|].
      rewrite Rmult_1_l, Rabs_pos_eq by exact I0. apply Rle_trans with 1024; [lra|simpl; lra]. }
    assert (V3 : double_value (a_div arD (a_mul arD (a_sub arD (a_dec arD 10 1) (a_dec arD 0 1)) (a_ofZ arD i)) (a_ofZ arD n)) (IZR i / IZR n)).
    { rewrite <- (rnd_fmt (IZR i / IZR n)) by (rewrite En; apply dyadic_fmt; lia). apply dv_div; [exact V2|apply dv_ofZ; lia|lra|].
      rewrite Rabs_pos_eq by tauto. apply Rle_trans with 1; [tauto|simpl; lra]. }
    unfold node. rewrite <- (rnd_fmt (IZR i / IZR n)) by (rewrite En; apply dyadic_fmt; lia). rewrite <- (Rplus_0_l (IZR i / IZR n)).
    apply dv_add; [exact dv_zero|exact V3|]. rewrite Rplus_0_l, Rabs_pos_eq by tauto. apply Rle_trans with 1; [tauto|simpl; lra].
  Qed.
End Doubles.

(** [reduce] combines contributions in some order. *)
Definition some_order (reduce : nat -> list spec_float -> spec_float) : Prop :=
  forall i l, l <> [] -> reduction (a_add arD) l (reduce i l).

Lemma map_const_repeat {A B} (f : A -> B) y l : (forall x, In x l -> f x = y) -> map f l = repeat y (List.length l).
Proof. induction l as [|a l IH]; intros H; [reflexivity|]. cbn [map List.length repeat]. rewrite (H a (or_introl eq_refl)), IH; [reflexivity|]. intros x Hx. apply H. right. exact Hx. Qed.

Theorem C70_upwindMpi_report reduce times atof sz exec args n k :
  readable ["-numCells"; "-numSteps"] args -> int_option args "-numCells" 128 n -> int_option args "-numSteps" 10 k ->
  known um_options args -> flag args "-h" = false -> grid_ok [n; n; n] -> 1 <= sz <= 2 ^ 30 ->
  decomposable sz [n; n; n] -> (n | 2 ^ 64) -> 0 <= k <= 2 * 10 ^ 8 -> some_order reduce ->
  exists parts files, is_decomp sz [n; n; n] parts /\ map fst files = (if flag args "-vtk" then ["upMpi.vtk"] else []) /\
    um_program arD show_double reduce times atof sz (exec :: args) =
    Ok (only_root sz (mkRun
      (decomp_report (show_int sz) (repeat (show_int n) 3) (map show_int parts) ++
       iter_lines 0 (repeat ("1", "1") (Z.to_nat k)) ++
       file_line (flag args "-vtk") "upMpi.vtk" ++
       times_line (show_double (fst (fst times))) (show_double (snd (fst times))) (show_double (a_div arD (snd times) (a_ofZ arD sz))) ++
       "Check sum: " ++ (if k =? 0 then "0" else "1") ++ line_end) "" files 0)).
Proof.
  intros Hrd Hn Hk K Fh Hg Hs Hd Hm Hkr Hred.
  destruct (C70_upwindMpi_run arD show_double reduce times atof sz exec args n k Hrd Hn Hk K Fh Hg Hs) as (G & _).
  destruct (G Hd Hm ltac:(lia)) as (r & parts & files & Er & Hp & HV & E). clear G. exists parts, files. split; [exact Hp|]. split.
  { destruct (flag args "-vtk"); [destruct HV as (field & file & _ & _ & _ & ->); reflexivity|rewrite HV; reflexivity]. }
  rewrite E. clear E.
  destruct (C69_upwindMpi sz n (Z.to_nat k) (flag args "-vtk") Hg Hs Hd Hm ltac:(lia)) as (r' & Er' & _ & Lsum & Hsum & Hfin & _).
  rewrite Z2Nat.id in Er' by lia. change (a_dec arD 10 1) with one in Er. rewrite Er in Er'. injection Er' as <-.
  assert (N3 : (12 / 10 * (IZR (n * n * n) + IZR sz) <= 12 / 10 * (2 ^ 30 + 2 ^ 30))%R).
  { assert (Hmr : 0 < n /\ n * n * n < 2 ^ 31).
    { pose proof Hg as (_ & _ & P & Q). pose proof (P 0%nat ltac:(simpl; lia)). rewrite prod3 in Q. cbn [nth] in *. split; assumption. }
    assert (IZR (n * n * n) <= 2 ^ 30)%R.
    { rewrite pow_IZR. apply IZR_le. change (2 ^ Z.of_nat 30) with (1024 * 1024 * 1024).
      pose proof (power_sizes n (proj1 Hmr) (proj2 Hmr) Hm) as HI. assert (1 <= n <= 1024) by (clear - HI; repeat (destruct HI as [<-|HI]; [lia|]); destruct HI). nia. }
    assert (IZR sz <= 2 ^ 30)%R by (rewrite pow_IZR; apply IZR_le; change (2 ^ Z.of_nat 30) with (2 ^ 30); lia). lra. }
  assert (Bound : forall i s, (i <= Z.to_nat k)%nat -> (Rabs (s - 1) <= (8 * INR i + 12 / 10 * (IZR (n * n * n) + IZR sz)) * / 2 ^ 53)%R -> (Rabs (s - 1) < / 2000000)%R).
  { intros i s Hi B. assert (INR i <= 2 * 10 ^ 8)%R by (rewrite INR_IZR_INZ; replace (2 * 10 ^ 8)%R with (IZR (2 * 10 ^ 8)) by (simpl; lra); apply IZR_le; lia).
    eapply Rle_lt_trans; [exact B|]. apply Rle_lt_trans with ((8 * (2 * 10 ^ 8) + 12 / 10 * (2 ^ 30 + 2 ^ 30)) * / 2 ^ 53)%R.
    - apply Rmult_le_compat_r; [left; apply Rinv_0_lt_compat; simpl; lra|]. lra.
    - simpl. lra. }
  assert (Ne : forall i ins outs, nth_error (um_sums r) i = Some (ins, outs) -> ins <> [] /\ outs <> []).
  { destruct (C49_driver_field spec_float arD (repeat one 3) (repeat one 3) sz n (Z.to_nat k) (flag args "-vtk") eq_refl eq_refl Hg Hs Hd Hm ltac:(rewrite Z2Nat.id by lia; lia))
      as (deltas & signs & dt & st & r' & _ & _ & _ & Er' & _ & _ & Esum & _ & _ & Lb). cbv zeta in *. rewrite Z2Nat.id, Er in Er' by lia. injection Er' as <-.
    intros i ins outs Hi. apply nth_error_In in Hi. rewrite Esum in Hi. apply in_map_iff in Hi as (j & Ej & _). injection Ej as <- <-.
    unfold box_sums. split; intros Q; apply map_eq_nil in Q; rewrite Q in Lb; cbn [List.length] in Lb; lia. }
  assert (Nf : um_final r <> []).
  { destruct (C49_driver_field spec_float arD (repeat one 3) (repeat one 3) sz n (Z.to_nat k) (flag args "-vtk") eq_refl eq_refl Hg Hs Hd Hm ltac:(rewrite Z2Nat.id by lia; lia))
      as (deltas & signs & dt & st & r' & _ & _ & _ & Er' & _ & _ & _ & Efin & _ & Lb). cbv zeta in *. rewrite Z2Nat.id, Er in Er' by lia. injection Er' as <-.
    rewrite Efin. unfold box_sums. intros Q. apply map_eq_nil in Q. rewrite Q in Lb. cbn [List.length] in Lb. lia. }
  assert (El : map (fun s => (show_double (reduce (2 * fst s)%nat (fst (snd s))), show_double (reduce (2 * fst s + 1)%nat (snd (snd s)))))
                   (combine (seq 0 (Z.to_nat k)) (um_sums r)) = repeat ("1", "1") (Z.to_nat k)).
  { rewrite (map_const_repeat _ ("1", "1")).
    - rewrite combine_length, seq_length, Lsum, Nat.min_id. reflexivity.
    - intros [i [ins outs]] Hi. cbn [fst snd].
      assert (Hi' : nth_error (um_sums r) i = Some (ins, outs) /\ (i < Z.to_nat k)%nat).
      { apply In_nth_error in Hi as (j & Hj).
        assert (Hc : forall (l : list nat) (t : list (list spec_float * list spec_float)) j x y, nth_error (combine l t) j = Some (x, y) -> nth_error l j = Some x /\ nth_error t j = Some y).
        { clear. induction l as [|a l IH]; intros [|b t] [|j] x y H; try discriminate H; cbn [combine nth_error] in *; [injection H as <- <-; auto|apply IH, H]. }
        destruct (Hc _ _ _ _ _ Hj) as (A & B). assert (j < Z.to_nat k)%nat by (rewrite <- Lsum; apply nth_error_Some; congruence).
        rewrite (nth_error_nth' _ 0%nat) in A by (rewrite seq_length; assumption). rewrite seq_nth in A by assumption. injection A as <-. split; assumption. }
      destruct Hi' as (Hi' & Lt). destruct (Ne i ins outs Hi') as (N1 & N2).
      destruct (Hsum i ins outs (reduce (2 * i)%nat ins) Hi') as (S1 & _). destruct (S1 (Hred _ _ N1)) as (s1 & V1 & B1).
      destruct (Hsum i ins outs (reduce (2 * i + 1)%nat outs) Hi') as (_ & S2). destruct (S2 (Hred _ _ N2)) as (s2 & V2 & B2).
      rewrite (show_one _ s1 V1 (Bound i s1 ltac:(lia) B1)), (show_one _ s2 V2 (Bound (S i) s2 ltac:(lia) B2)). reflexivity. }
  rewrite El. destruct (Hfin _ (Hred (2 * Z.to_nat k)%nat _ Nf)) as (s & V & S0 & S1).
  assert (Ef : show_double (reduce (2 * Z.to_nat k)%nat (um_final r)) = if k =? 0 then "0" else "1").
  { destruct (Z.eqb_spec k 0); [rewrite S0 by lia; reflexivity|]. apply (show_one _ s V). apply (Bound (Z.to_nat k)); [lia|]. apply S1. lia. }
  rewrite Ef. reflexivity.
Qed.
Print Assumptions C70_upwindMpi_report.

(** With -vtk the file holds the field after the last step on the unit cube; the first axis varies fastest. *)
Theorem C70_upwindMpi_file reduce times atof sz exec args n k :
  readable ["-numCells"; "-numSteps"] args -> int_option args "-numCells" 128 n -> int_option args "-numSteps" 10 k ->
  known um_options args -> flag args "-h" = false -> flag args "-vtk" = true -> grid_ok [n; n; n] -> 1 <= sz <= 2 ^ 30 ->
  decomposable sz [n; n; n] -> (n | 2 ^ 64) -> 0 <= k < 2 ^ 31 ->
  exists r text doc, um_program arD show_double reduce times atof sz (exec :: args) = Ok (only_root sz r) /\
    r_files r = [("upMpi.vtk", text)] /\ read_structured text = Some doc /\
    gd_dims doc = (n + 1, n + 1, n + 1) /\ gd_name doc = "outData" /\ Z.of_nat (List.length (gd_values doc)) = n * n * n /\
    (forall x y z, 0 <= x < n -> 0 <= y < n -> 0 <= z < n -> exists v,
       nth_error (gd_values doc) (Z.to_nat (x + n * (y + n * z))) = Some (show_double v) /\
       v = (if k =? 0 then a_zero arD else stencil_iter arD (Z.to_nat k) [n; n; n] um_weights (origin_field arD [n; n; n]) [x; y; z]) /\
       exists p, double_value v p /\ denotes (show_double v) (six_digits p) /\ (0 <= six_digits p <= 1)%R) /\
    (forall x y z c, 0 <= x <= n -> 0 <= y <= n -> 0 <= z <= n -> (c < 3)%nat -> exists w,
       nth_error (gd_points doc) (3 * Z.to_nat (x + (n + 1) * (y + (n + 1) * z)) + c) = Some w /\
       denotes w (six_digits (IZR (nth c [x; y; z] 0) / IZR n))).
Proof.
  intros Hrd Hn Hk K Fh Fv Hg Hs Hd Hm Hkr.
  destruct (C70_upwindMpi_run arD show_double reduce times atof sz exec args n k Hrd Hn Hk K Fh Hg Hs) as (G & _).
  destruct (G Hd Hm Hkr) as (r & parts & files & Er & Hp & HV & E). clear G. rewrite Fv in *. destruct HV as (field & file & Ef & Ew & _ & ->).
  destruct (C69_upwindMpi sz n (Z.to_nat k) true Hg Hs Hd Hm ltac:(lia)) as (r' & Er' & _ & _ & _ & _ & Hfield).
  rewrite Z2Nat.id in Er' by lia. change (a_dec arD 10 1) with one in Er. rewrite Er in Er'. injection Er' as <-.
  destruct (Hfield field Ef) as (Hunit & Efd). clear Hfield.
  assert (Hmr : 0 < n /\ n * n * n < 2 ^ 31).
  { pose proof Hg as (_ & _ & P & Q). pose proof (P 0%nat ltac:(simpl; lia)). rewrite prod3 in Q. cbn [nth] in *. split; assumption. }
  assert (Hpow : In n [1; 2; 4; 8; 16; 32; 64; 128; 256; 512; 1024]) by (apply power_sizes; tauto).
  assert (Lf : vlen field = n * n * n).
  { rewrite Efd. unfold vlen. rewrite map_length. change (col_major [0; 0; 0] [n; n; n]) with (nested_loops false [0; 0; 0] [n; n; n]).
    rewrite nested_loops_length; [unfold extents; cbn [combine map fst snd]; rewrite !Z.sub_0_r, prod3; reflexivity|reflexivity|].
    intros [|[|[|j]]] Hj; [cbn; lia..|cbn in Hj; lia]. }
  assert (HP : forall i j l c, 0 <= i <= n -> 0 <= j <= n -> 0 <= l <= n -> (c < 3)%nat ->
    double_value (nth c (grid_point arD [n; n; n] (repeat (a_dec arD 0 1) 3) (repeat (a_dec arD 10 1) 3) [i; j; l]) one) (IZR (nth c [i; j; l] 0) / IZR n)).
  { intros i j l c Hi Hj Hl Hc. destruct c as [|[|[|c]]]; [| | |lia];
      cbn [nth grid_point map pad3 repeat]; apply (node_exact n); assumption. }
  destruct (C68_writeVTK "upMpi.vtk" [n; n; n] (repeat (a_dec arD 0 1) 3) (repeat (a_dec arD 10 1) 3) field "outData"
    (vtk_args_ok [n; n; n] _ _ Hg ltac:(simpl; lia)) ltac:(rewrite Lf, prod3; lia) eq_refl ltac:(discriminate)) as (text & doc & Et & Rt & Ed & En & Ev & Epts).
  { intros i j l c Hi Hj Hl Hc. cbn [nth] in Hi, Hj, Hl. apply (In_nth _ _ one) in Hc as (c' & Lc & <-). eexists. apply HP; assumption. }
  { intros x Hx. destruct (Hunit x Hx) as (q & Vq & _). exists q. exact Vq. }
  assert (Etx : text = grid_text show_double "outData" file).
  { unfold writeVTK_text in Et. rewrite Ew in Et. injection Et as <-. reflexivity. }
  rewrite Efd in Ev.
  assert (Evals : gd_values doc = map show_double field).
  { rewrite Ev, <- Efd. f_equal. rewrite <- (firstn_all field) at 2. f_equal. unfold vlen in Lf. rewrite prod3. lia. }
  eexists _, text, doc. split; [exact E|]. cbn [r_files]. split; [rewrite Etx; reflexivity|]. split; [exact Rt|]. split; [exact Ed|]. split; [exact En|].
  split; [rewrite Evals, map_length; exact Lf|]. split.
  - intros x y z Hx Hy Hz.
    set (out := match Z.to_nat k with O => fun _ : list Z => a_zero arD | _ => stencil_iter arD (Z.to_nat k) [n; n; n] um_weights (origin_field arD [n; n; n]) end) in *.
    exists (out [x; y; z]).
    assert (Nf : nth_error field (Z.to_nat (x + n * (y + n * z))) = Some (out [x; y; z])).
    { pose proof (col3_get out n n n x y z Hx Hy Hz ltac:(lia)) as Q. rewrite <- Efd in Q. unfold vget in Q.
      destruct ((0 <=? x + n * (y + n * z)) && (x + n * (y + n * z) <? vlen field)); [|discriminate].
      destruct (nth_error field _) as [v|]; [|discriminate]. injection Q as ->. reflexivity. }
    split; [rewrite Evals, nth_error_map, Nf; reflexivity|]. split.
    + unfold out. destruct (Z.eqb_spec k 0) as [->|N0]; [reflexivity|]. destruct (Z.to_nat k) eqn:E0; [lia|reflexivity].
    + apply nth_error_In in Nf. destruct (Hunit _ Nf) as (q & Vq & B). exists q. split; [exact Vq|]. split; [apply C66_printed_value, Vq|apply six_unit, B].
  - intros x y z c Hx Hy Hz Hc. specialize (Epts x y z c Hx Hy Hz Hc). cbn [nth] in Epts. eexists. split; [exact Epts|].
    apply C66_printed_value, HP; assumption.
Qed.
Print Assumptions C70_upwindMpi_file.

(** ** The tests laplacian2D and laplacian3D

    The pattern is found in the output of rank 0 whenever there is a decomposition, whatever the numbers are; the
    pattern is found nowhere if there is none. *)
Fixpoint has_pattern (s : string) : bool :=
  match s with
  | EmptyString => false
  | String c t => (Ascii.eqb c "C" || Ascii.eqb c "c") && String.prefix "heck sums:" t || has_pattern t
  end.

Lemma prefix_app p s : String.prefix p (p ++ s) = true.
Proof. induction p as [|c p IH]; [destruct s; reflexivity|]. cbn [append String.prefix]. destruct (Ascii.ascii_dec c c); [exact IH|congruence]. Qed.

Lemma accepts_pattern s : laplacian_accepts s -> has_pattern s = true.
Proof.
  intros (pre & c & post & -> & Hc). pose proof (prefix_app "heck sums:" post) as P. revert P. generalize ("heck sums:" ++ post). intros t P.
  induction pre as [|a pre IH]; cbn [append has_pattern].
  - rewrite P. destruct Hc as [-> | ->]; reflexivity.
  - rewrite IH. apply orb_true_r.
Qed.

Lemma accepts_right t s : laplacian_accepts s -> laplacian_accepts (t ++ s).
Proof. intros (pre & c & post & -> & Hc). exists (t ++ pre), c, post. split; [symmetry; apply append_assoc|exact Hc]. Qed.

Lemma accepts_left t s : laplacian_accepts s -> laplacian_accepts (s ++ t).
Proof.
  intros (pre & c & post & -> & Hc). exists pre, c, (post ++ t). split; [|exact Hc]. rewrite append_assoc. reflexivity.
Qed.

(** All that the ranks write *)
Definition all_text (rs : list run) : string := fold_right (fun r t => r_out r ++ r_err r ++ t) "" rs.

Lemma all_only_root sz r : all_text (only_root sz r) = r_out r ++ r_err r ++ "".
Proof.
  unfold only_root, all_text. cbn [fold_right]. f_equal. f_equal. generalize (Z.to_nat sz - 1)%nat. induction n as [|n IH]; [reflexivity|].
  cbn [repeat fold_right r_out r_err append]. exact IH.
Qed.

Theorem C70_laplacian_test {D} (ar : arith D) show reduce times atof dsin m_pi sz exec args n nd :
  readable ["-numCells"; "-numDims"] args -> int_option args "-numCells" 8000 n -> int_option args "-numDims" 2 nd ->
  known lap_options args -> flag args "-h" = false -> 0 <= nd -> grid_ok (repeat n (Z.to_nat nd)) -> 1 <= sz <= 2 ^ 30 -> (n | 2 ^ 64) ->
  exists rs, lap_program ar show reduce times atof dsin m_pi sz (exec :: args) = Ok rs /\
    (decomposable sz (repeat n (Z.to_nat nd)) <-> laplacian_accepts (all_text rs)).
Proof.
  intros Hrd Hn Hk K Fh Hnd Hg Hs Hm.
  destruct (C70_laplacian_run ar show reduce times atof dsin m_pi sz exec args n nd Hrd Hn Hk K Fh Hnd Hg Hs) as (G1 & G2). cbv zeta in *.
  destruct (C05_build_iff_decomposition_exists cd_empty sz _ Hg ltac:(lia)) as (ok & c & _ & Hiff).
  assert (Hdec : decomposable sz (repeat n (Z.to_nat nd)) \/ ~ decomposable sz (repeat n (Z.to_nat nd))).
  { unfold decomposable. destruct ok; [left; apply Hiff; reflexivity|right; intros H; apply Hiff in H; discriminate]. }
  destruct Hdec as [Hd|Hd].
  - destruct (G1 Hd Hm) as (r & parts & warning & files & _ & _ & _ & _ & E). eexists. split; [exact E|]. split; [intros _|intros _; exact Hd].
    rewrite all_only_root. cbn [r_out r_err]. apply accepts_left. do 4 apply accepts_right.
    match goal with |- laplacian_accepts ("Check sums: input = " ++ ?t) => exists "", "C"%char, (" input = " ++ t) end. split; [reflexivity|left; reflexivity].
  - eexists. split; [exact (G2 Hd)|]. split; [intros H; destruct (Hd H)|]. intros H. apply accepts_pattern in H. rewrite all_only_root in H. vm_compute in H. discriminate H.
Qed.
Print Assumptions C70_laplacian_test.

(** ** Examples *)

(** Contributions added in the order of the ranks *)
Definition in_order (_ : nat) (l : list spec_float) : spec_float := fold_left (a_add arD) (tl l) (hd (a_zero arD) l).
Definition ex_times : spec_float * spec_float * spec_float := (a_dec arD 1 2, a_dec arD 3 2, a_dec arD 4 2).
(** A stand-in for sin on the nodes used in the examples *)
Definition ex_sin (x : spec_float) : spec_float := x.

Example C70_run : um_program arD show_double in_order ex_times (fun _ => one) 2 ["upwindMpi"; "-numCells"; "2"; "-numSteps"; "2"; "-vtk"] =
  Ok [mkRun "Number of procs: 2
global dimensions: 2 2 2 
Domain decomp 1 2 1 
iter 0 check sum  in/out = 1 / 1
iter 1 check sum  in/out = 1 / 1
Data will be written to file upMpi.vtk
 times min/max/avg: 0.01/0.03/0.02 [seconds]
Check sum: 1
" "" [("upMpi.vtk", "# vtk DataFile Version 2.0
produced by laplacian
ASCII
DATASET STRUCTURED_GRID
DIMENSIONS 3 3 3
POINTS 27 float
0 0 0
0.5 0 0
1 0 0
0 0.5 0
0.5 0.5 0
1 0.5 0
0 1 0
0.5 1 0
1 1 0
0 0 0.5
0.5 0 0.5
1 0 0.5
0 0.5 0.5
0.5 0.5 0.5
1 0.5 0.5
0 1 0.5
0.5 1 0.5
1 1 0.5
0 0 1
0.5 0 1
1 0 1
0 0.5 1
0.5 0.5 1
1 0.5 1
0 1 1
0.5 1 1
1 1 1
CELL_DATA 8
SCALARS outData float
LOOKUP_TABLE default
0.52
0.14
0.14
0.02
0.14
0.02
0.02
0
")] 0; mkRun "" "" [] 0].
Proof. vm_compute. reflexivity. Qed.

Example C70_invalid : um_program arD show_double in_order ex_times (fun _ => one) 3 ["upwindMpi"; "-numCells"; "2"] =
  Ok [mkRun "" "ERROR: No valid domain decomposition could be found. Adjust the number
of processes and/or the domain dimensions.
Decomposition is invalid
" [] 0; mkRun "" "" [] 0; mkRun "" "" [] 0].
Proof. vm_compute. reflexivity. Qed.

(** Four axes: a file is announced, none is written. *)
Example C70_four_axes : lap_program arD show_double in_order ex_times (fun _ => one) ex_sin one 2 ["laplacian"; "-numCells"; "2"; "-numDims"; "4"; "-vtk"] =
  Ok [mkRun "Number of procs: 2
global dimensions: 2 2 2 2 
Domain decomp 1 2 1 1 
Data will be written to file laplacian.vtk
Laplace times min/max/avg: 0.01/0.03/0.02 [seconds]
Check sums: input = 0 output = 0
" "WARNING: writeVTK does not support more than 3 dimensions
" [] 0; mkRun "" "" [] 0].
Proof. vm_compute. reflexivity. Qed.

(** An unknown option: every rank prints the help, rank 0 the error. *)
Example C70_unknown : (rs <- um_program arD show_double in_order ex_times (fun _ => one) 2 ["upwindMpi"; "-numDims"; "2"] ;;
    Ok (map (fun r => (String.substring 0 32 (r_out r), r_err r)) rs)) =
  Ok [("-numDims is not a valid option.
", "ERROR when parsing command line arguments
"); ("-numDims is not a valid option.
", "")].
Proof. vm_compute. reflexivity. Qed.

Example C70_stencil2d : st2_program arD show_double (fun _ => one) 2 ["testStencil2d"; "-numCells"; "2"] =
  Ok [mkRun "Number of procs: 2
global dimensions: 2 2 
Domain decomp 1 2 
" "[0] outData: 
	[0] inds = 0 0  outData = 0
	[0] inds = 1 0  outData = 1
" [] 0; mkRun "" "[1] outData: 
	[1] inds = 0 1  outData = -1
	[1] inds = 1 1  outData = 0
" [] 0].
Proof. vm_compute. reflexivity. Qed.

(** The hypotheses of [C70_upwindMpi_file] and [C70_upwindMpi_report] *)
Example C70_hypotheses :
  let args := ["-numCells"; "64"; "-vtk"; "-numSteps"; "1000"] in
  readable ["-numCells"; "-numSteps"] args /\ int_option args "-numCells" 128 64 /\ int_option args "-numSteps" 10 1000 /\
  known um_options args /\ flag args "-h" = false /\ flag args "-vtk" = true /\ grid_ok [64; 64; 64] /\ decomposable 16 [64; 64; 64] /\ (64 | 2 ^ 64) /\
  some_order in_order.
Proof.
  intros args. split; [apply readableb_ok; reflexivity|]. split; [|split; [|split; [|split; [reflexivity|split; [reflexivity|split; [|split; [|split]]]]]]].
  - left. exists "64". split; [|reflexivity]. exists [], ["-vtk"; "-numSteps"; "1000"]. split; [reflexivity|].
    intros m1 w m2 E. assert (Hi : In "-numCells" ["64"; "-vtk"; "-numSteps"; "1000"]) by (rewrite E; apply in_elt). simpl in Hi. intuition discriminate.
  - left. exists "1000". split; [|reflexivity]. exists ["-numCells"; "64"; "-vtk"], []. split; [reflexivity|].
    intros m1 w m2 E. assert (Hi : In "-numSteps" ["1000"]) by (rewrite E; apply in_elt). simpl in Hi. intuition discriminate.
  - intros a Ha Hl. repeat (destruct Ha as [<-|Ha]; [simpl; tauto || (exfalso; destruct Hl as (c & t & E & _); discriminate)|]). destruct Ha.
  - split; [discriminate|]. split; [cbn; lia|]. split; [intros [|[|[|j]]] Hj; cbn in *; lia|]. reflexivity.
  - exists [4; 2; 2]. split; [reflexivity|]. split; [|reflexivity].
    intros [|[|[|j]]] Hj; cbn [nth List.length] in *; try lia; (split; [lia|]); [exists 16|exists 32|exists 32]; reflexivity.
  - exists (2 ^ 58). reflexivity.
  - intros i l Hl. destruct l as [|x l]; [congruence|]. unfold in_order. cbn [tl hd].
    assert (G : forall l l0 x, reduction (a_add arD) l0 x -> reduction (a_add arD) (l0 ++ l)%list (fold_left (a_add arD) l x)).
    { clear. induction l as [|y l IH]; intros l0 x H; [rewrite app_nil_r; exact H|]. cbn [fold_left]. change (y :: l) with ([y] ++ l)%list. rewrite app_assoc.
      apply IH. eapply (red_node _ _ l0 [y]); [apply Permutation.Permutation_refl|exact H|apply red_one]. }
    apply (G l [x] x). apply red_one.
Qed.
