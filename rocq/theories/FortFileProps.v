(** * The file of the Fortran versions as text: C88 *)
From Coq Require Import List ZArith Bool Lia Permutation Reals Lra String Ascii SpecFloat.
From Flocq Require Import Core BinarySingleNaN.
From Verif Require Import Cpp CppProof CmdModel MaiSpec CdModel CdSpec FilterModel FilterSpec FilterProof FilterSum RealArith UpModel UpSpec UpProof UpExact Ieee Double DblSpec DblProof
  DblField DblSten DblProps Radix LangSpec NumModel NumSpec NumProof TextModel TextSpec TextProof FortModel FortProof FortProps FortTextModel FortDbl FortDblProps FortFront FortFile.
From Coq Require Import List.
Import ListNotations.
Local Open Scope Z_scope.
Local Arguments prodZ : simpl never.
Local Arguments Z.of_nat : simpl never.

(** The text [s] is a numeral for a number that agrees with the double [x] to six digits. *)
Definition reads_near (s : string) (x : spec_float) : Prop :=
  exists r q, double_value x r /\ denotes s q /\ (Rabs (q - r) <= / 10 ^ 6 * Rabs r)%R.

(** ** The descriptor e20.7 *)
Fixpoint trim (s : string) : string :=
  match s with String c t => if is_space c then trim t else s | EmptyString => EmptyString end.
Lemma trim_blanks k s : trim (fill " " k ++ s) = trim s.
Proof. induction k as [|k IH]; [reflexivity|]. exact IH. Qed.
Lemma trim_nospace s : nospace s = true -> trim s = s.
Proof. destruct s as [|c t]; [reflexivity|]. cbn [nospace trim]. intros H. apply andb_prop in H as [H _]. apply negb_true_iff in H. rewrite H. reflexivity. Qed.

Notation ten := (bpow radix10).
Lemma ten_powerRZ k : powerRZ 10 k = ten k.
Proof. rewrite bpow_powerRZ. reflexivity. Qed.

Section E.
  Variable show : spec_float -> string.
  Hypothesis He : e_edit show.

  Lemma e_parts x r : double_value x r -> exists m k sign, ((r = 0%R /\ m = 0 /\ k = 0) \/ (10 ^ 6 <= m < 10 ^ 7)) /\
    (Rabs (Rabs r - IZR m * ten (k - 7)) <= / 2 * ten (k - 7))%R /\ (sign = "-" \/ sign = "")%string /\ ((r < 0)%R -> sign = "-"%string) /\ ((0 < r)%R -> sign = ""%string) /\
    trim (show x) = e_word sign m k /\ exists j, show x = (fill " " j ++ trim (show x))%string.
  Proof using He.
    intros V. destruct (He x r V) as (m & k & sign & Hm & Hr & N & P & Z & E). rewrite ten_powerRZ in Hr.
    assert (S : sign = "-"%string \/ sign = ""%string) by (destruct (Rtotal_order r 0) as [H|[H|H]]; [left; apply N, H|apply Z, H|right; apply P, H]).
    assert (W : nospace (e_word sign m k) = true) by (apply e_word_nospace; destruct S as [-> | ->]; reflexivity).
    assert (T : trim (show x) = e_word sign m k) by (rewrite E; unfold pad; rewrite trim_blanks; apply trim_nospace, W).
    exists m, k, sign. repeat (split; [assumption|]). rewrite T, E. unfold pad. eexists. reflexivity.
  Qed.

  Lemma e_printed x r : double_value x r -> (exists k, show x = (fill " " k ++ trim (show x))%string) /\ nospace (trim (show x)) = true /\ trim (show x) <> ""%string.
  Proof using He.
    intros V. destruct (e_parts x r V) as (m & k & sign & _ & _ & S & _ & _ & T & J). split; [exact J|]. rewrite T. apply e_word_nospace. destruct S as [-> | ->]; reflexivity.
  Qed.

  Lemma ten_pos k : (0 < ten k)%R.
  Proof using Type. apply bpow_gt_0. Qed.
  Lemma ten_seven k : (ten k = 10000000 * ten (k - 7))%R.
  Proof using Type. replace k with (7 + (k - 7)) at 1 by lia. rewrite bpow_plus. f_equal. Qed.

  Lemma e_reads x r : double_value x r -> (r = 0%R \/ (ten (-100) * (1 - / 10 ^ 9) <= Rabs r < ten 98)%R) -> reads_near (trim (show x)) x.
  Proof using He.
    intros V Hr. destruct (e_parts x r V) as (m & k & sign & Hm & B & S & N & P & T & _). pose proof (ten_pos (k - 7)) as T0. pose proof (ten_seven k) as T7.
    apply Rabs_le_inv in B.
    assert (Hk : Z.abs k <= 99).
    { destruct Hm as [(_ & _ & ->)|Hm]; [lia|]. destruct Hr as [->|Hr].
      - exfalso. rewrite Rabs_R0 in B. assert (IZR 1000000 <= IZR m)%R by (apply IZR_le; lia). assert (1000000 * ten (k - 7) <= IZR m * ten (k - 7))%R by (apply Rmult_le_compat_r; lra). lra.
      - assert (M1 : (1000000 <= IZR m)%R) by (apply IZR_le; lia). assert (M2 : (IZR m <= 9999999)%R) by (apply IZR_le; lia).
        assert (1000000 * ten (k - 7) <= IZR m * ten (k - 7))%R by (apply Rmult_le_compat_r; lra). assert (IZR m * ten (k - 7) <= 9999999 * ten (k - 7))%R by (apply Rmult_le_compat_r; lra).
        assert (U : k < 100).
        { apply Z.nle_gt. intros C. pose proof (bpow_le radix10 99 (k - 1) ltac:(lia)) as Q. replace (k - 1) with (6 + (k - 7)) in Q by lia. rewrite bpow_plus in Q. change (ten 6) with 1000000%R in Q.
          change 99 with (1 + 98) in Q. rewrite bpow_plus in Q. change (ten 1) with 10%R in Q. pose proof (ten_pos 98). lra. }
        assert (W : -100 < k).
        { apply Z.nle_gt. intros C. pose proof (bpow_le radix10 k (-100) C) as Q. pose proof (ten_pos (-100)). replace (10 ^ 9)%R with 1000000000%R in Hr by (simpl; ring). lra. }
        lia. }
    assert (Hm7 : 0 <= m < 10 ^ 7) by (destruct Hm as [(_ & -> & _)|Hm]; lia).
    exists r, (IZR (if (sign =? "-")%string then - m else m) * ten (k - 7))%R. split; [exact V|]. split.
    - exists (if (sign =? "-")%string then - m else m), (k - 7). split; [|reflexivity]. rewrite T, e_word_numeral by assumption. destruct (Z.leb_spec (Z.abs k) 99); [reflexivity|lia].
    - assert (HB : (/ 2 * ten (k - 7) <= / 10 ^ 6 * Rabs r)%R \/ (r = 0%R /\ m = 0)).
      { destruct Hm as [(-> & -> & ->)|Hm]; [right; split; reflexivity|left]. assert (M1 : (1000000 <= IZR m)%R) by (apply IZR_le; lia).
        assert (1000000 * ten (k - 7) <= IZR m * ten (k - 7))%R by (apply Rmult_le_compat_r; lra). replace (10 ^ 6)%R with 1000000%R by (simpl; ring). lra. }
      destruct HB as [HB|(-> & ->)]; [|rewrite Rabs_R0, Rmult_0_r; destruct (sign =? "-")%string; change (- 0) with 0; rewrite Rmult_0_l, Rminus_0_r, Rabs_R0; lra].
      apply Rle_trans with (2 := HB). destruct (Rtotal_order r 0) as [H|[->|H]].
      + rewrite (N H). change (("-" =? "-")%string) with true. cbv iota. rewrite opp_IZR. rewrite (Rabs_left r) in B by exact H. apply Rabs_le. lra.
      + rewrite Rabs_R0, Rmult_0_r in HB. lra.
      + rewrite (P H). change (("" =? "-")%string) with false. cbv iota. rewrite (Rabs_pos_eq r) in B by lra. apply Rabs_le. lra.
  Qed.

  Lemma e_unreadable x r : double_value x r -> (0 < Rabs r <= / 2 * ten (-100))%R -> numeral (trim (show x)) = None.
  Proof using He.
    intros V Hr. destruct (e_parts x r V) as (m & k & sign & Hm & B & S & N & P & T & _). pose proof (ten_pos (k - 7)) as T0. apply Rabs_le_inv in B.
    destruct Hm as [(-> & _)|Hm]; [rewrite Rabs_R0 in Hr; lra|]. assert (M1 : (1000000 <= IZR m)%R) by (apply IZR_le; lia).
    assert (1000000 * ten (k - 7) <= IZR m * ten (k - 7))%R by (apply Rmult_le_compat_r; lra).
    assert (W : k <= -100).
    { apply Z.nlt_ge. intros C. pose proof (bpow_le radix10 (-100) (6 + (k - 7)) ltac:(lia)) as Q. rewrite bpow_plus in Q. change (ten 6) with 1000000%R in Q. pose proof (ten_pos (-100)). lra. }
    rewrite T, e_word_numeral; [|lia|exact S]. destruct (Z.leb_spec (Z.abs k) 99); [lia|reflexivity].
  Qed.
End E.

(** ** The coordinates *)
Section Coords.
  Variable n : Z.
  Hypotheses (H1 : 1 <= n) (H2 : n * n * n < 2 ^ 31).

  Lemma coord_value k : 0 <= k <= n -> exists r,
    double_value (a_add arD (a_dec arD 0 1) (a_mul arD (a_div arD (a_ofZ arD 1) (a_ofZ arD n)) (a_ofZ arD k))) r /\
    (Rabs (r - IZR k / IZR n) <= / 10 ^ 7)%R /\ (r = 0%R \/ / 2 ^ 12 <= r <= 2)%R.
  Proof using H1 H2.
    intros Hk. pose proof (n_1290 n H1 H2) as Hn. destruct (f90_dx n H1 H2) as (h & Vh & Rh). pose proof eps_small as E. pose proof eta_tiny as Te.
    assert (N1 : (1 <= IZR n)%R) by (apply IZR_le; exact H1). assert (N2 : (IZR n <= 1290)%R) by (apply IZR_le; exact Hn).
    assert (K1 : (0 <= IZR k <= IZR n)%R) by (split; apply IZR_le; lia).
    assert (Q0 : (0 < / IZR n <= 1)%R) by (split; [apply Rinv_0_lt_compat; lra|rewrite <- Rinv_1; apply Rinv_le; lra]).
    assert (Hh : h = rnd64 (1 / IZR n)).
    { apply (dv_fun _ _ _ Vh). apply dv_div; [exact (dv_ofZ 1 ltac:(reflexivity))|apply dv_ofZ; lia|lra|]. unfold Rdiv. rewrite Rmult_1_l, Rabs_pos_eq by lra. simpl. lra. }
    pose proof (rnd_error (1 / IZR n)) as R1. rewrite <- Hh in R1. rewrite (Rabs_pos_eq (1 / IZR n)) in R1 by (unfold Rdiv; lra). apply Rabs_le_inv in R1.
    assert (E16 : (eps <= / 1000000000000000)%R) by (unfold eps; simpl; lra).
    assert (T16 : (eta <= / 1000000000000000)%R) by (assert (eps * eps * eps <= eps)%R by nra; lra).
    assert (Hx : (Rabs (h * IZR k - IZR k / IZR n) <= / 10 ^ 10)%R).
    { replace (h * IZR k - IZR k / IZR n)%R with ((h - 1 / IZR n) * IZR k)%R by (field; lra). rewrite Rabs_mult, (Rabs_pos_eq (IZR k)) by lra.
      apply Rle_trans with ((2 * / 1000000000000000) * 1290)%R; [apply Rmult_le_compat; [apply Rabs_pos|lra| |lra]|simpl; lra].
      apply Rabs_le. assert (eps * (1 / IZR n) <= eps * 1)%R by (apply Rmult_le_compat_l; unfold Rdiv; lra). lra. }
    assert (HkN : (0 <= IZR k / IZR n <= 1)%R).
    { split; [apply Rmult_le_pos; lra|]. apply Rmult_le_reg_r with (IZR n); [lra|]. unfold Rdiv. rewrite Rmult_assoc, Rinv_l by lra. lra. }
    assert (T53 : (4 <= 2 ^ 53)%R) by (simpl; lra).
    assert (Hp : (0 <= h * IZR k)%R) by (assert (0 < / 2 ^ 11)%R by (apply Rinv_0_lt_compat, pow_lt; lra); apply Rmult_le_pos; lra).
    pose proof (rnd_error (h * IZR k)) as R2. rewrite (Rabs_pos_eq (h * IZR k)) in R2 by exact Hp. apply Rabs_le_inv in R2, Hx as Hx'.
    replace (10 ^ 10)%R with 10000000000%R in * by (simpl; ring). replace (10 ^ 7)%R with 10000000%R by (simpl; ring).
    assert (eps * (h * IZR k) <= / 1000000000000000 * 2)%R by (apply Rmult_le_compat; lra).
    exists (rnd64 (h * IZR k)). split; [|split].
    - assert (E0 : rnd64 (h * IZR k) = rnd64 (0 + rnd64 (h * IZR k))) by (rewrite Rplus_0_l; symmetry; apply rnd_fmt, rnd_is_fmt).
      rewrite E0. apply dv_add; [rewrite zeros_same; exact (dv_ofZ 0 ltac:(reflexivity))|apply dv_mul; [exact Vh|apply dv_ofZ; lia|]|].
      + rewrite Rabs_pos_eq by exact Hp. lra.
      + rewrite Rplus_0_l, Rabs_pos_eq by (apply rnd_nn, Hp). lra.
    - apply Rabs_le. lra.
    - destruct (Z.eq_dec k 0) as [->|N]; [left; rewrite Rmult_0_r; apply rnd_0|right]. assert (K2 : (1 <= IZR k)%R) by (apply IZR_le; lia). split; [|lra].
      assert (h * 1 <= h * IZR k)%R by (apply Rmult_le_compat_l; [assert (0 < / 2 ^ 11)%R by (apply Rinv_0_lt_compat, pow_lt; lra); lra|exact K2]). simpl in *. lra.
  Qed.
End Coords.

Lemma Forall2_map {A B} (R : A -> B -> Prop) (w : B -> A) l : (forall x, In x l -> R (w x) x) -> Forall2 R (map w l) l.
Proof. induction l as [|x l IH]; intros H; [constructor|]. constructor; [apply H; left; reflexivity|apply IH; intros y Hy; apply H; right; exact Hy]. Qed.

(** ** The program *)
Section Run.
  Variables (show_f show_e : spec_float -> string) (gap empty : string) (stop : string -> string) (report : string) (read : string -> option Z) (blank : string -> bool) (args : list string).
  Variables (n steps : Z) (argc : nat).
  Hypotheses (He : e_edit show_e) (Hb : exists k, empty = fill " " k).
  Hypothesis Ep : fo_parse read blank 0 args (mkFoOpt (Some (-1)) (Some 100) false 0) = mkFoOpt (Some n) (Some steps) true argc.
  Hypotheses (Hc : (2 <= argc)%nat) (H1 : 1 <= n) (H2 : n * n * n < 2 ^ 31).
  Let w := fun x => trim (show_e x).
  Let o3 := repeat (a_ofZ arD 1) 3.
  Let xs := snd (axis_coords arD [n; n; n] o3 0).

  Lemma coords_same j : (j < 3)%nat -> axis_coords arD [n; n; n] o3 j = (n + 1, xs).
  Proof using Type. intros Hj. destruct j as [|[|[|j]]]; [reflexivity..|clear - Hj; lia]. Qed.
  Lemma coords_in x : In x xs -> exists k r, 0 <= k <= n /\ double_value x r /\ (Rabs (r - IZR k / IZR n) <= / 10 ^ 7)%R /\ (r = 0%R \/ / 2 ^ 12 <= r <= 2)%R.
  Proof using H1 H2.
    clear Hc Ep. intros Hx. apply in_map_iff in Hx as (k & <- & Hk). apply in_range in Hk. cbn [nth] in Hk. destruct (coord_value n H1 H2 k ltac:(lia)) as (r & A & B & C).
    exists k, r. split; [lia|]. split; [exact A|]. split; [exact B|exact C].
  Qed.

  (** What the program leaves behind, and what reading the file amounts to. *)
  Lemma run_file : exists r u s text d h dt, fo_program arD show_f show_e gap empty stop report read blank args = Ok r /\ r_exit r = 0 /\ r_files r = [("up.vtk"%string, text)] /\
    fo_main arD read blank args = Ok (Some (u, s, Some (mkRect [n + 1; n + 1; n + 1] [(n + 1, xs); (n + 1, xs); (n + 1, xs)] (n * n * n) (fo_f u)))) /\
    double_value (a_div arD (a_ofZ arD 1) (a_ofZ arD n)) h /\ (/ 2 ^ 11 <= h <= 1)%R /\ double_value dt d /\ (0 <= d <= 111 / 1000 * h)%R /\ (Rabs (d - h / 10) <= 3 * eps * h)%R /\
    field_is [n; n; n] (scheme_iter arD (Z.to_nat steps) (f90_term arD [n; n; n] o3 o3 dt) [n; n; n] o3 (corner (a_ofZ arD 0) (a_ofZ arD 1) [n; n; n])) (f90_values n d h (Z.to_nat steps)) /\
    fo_f u = map (scheme_iter arD (Z.to_nat steps) (f90_term arD [n; n; n] o3 o3 dt) [n; n; n] o3 (corner (a_ofZ arD 0) (a_ofZ arD 1) [n; n; n])) (cells [n; n; n]) /\
    read_rectilinear text = bindo (next_numbers (List.length (fo_f u)) (map w (fo_f u))) (fun q =>
      match snd q with [] => Some (mkRectDoc (n + 1, n + 1, n + 1) (map w xs) (map w xs) (map w xs) "f" (fst q)) | _ => None end).
  Proof using He Hb Ep Hc H1 H2.
    destruct (f90_dx n H1 H2) as (h & Vh & Rh). destruct (f90_dt n H1 H2 h Vh Rh) as (dt & d & Edt & Vd & Rd & Sd). change [a_ofZ arD 1; a_ofZ arD 1; a_ofZ arD 1] with o3 in Edt.
    destruct (cube_args (a_ofZ arD 1) n H1 H2) as (Ha & Hsh). fold o3 in Ha. pose proof Ha as (Hg & Hv & Hl).
    pose proof (f90_is n H1 H2 (Z.to_nat steps) dt d h Vh Rh Vd Rd) as [HF _]. change [a_ofZ arD 1; a_ofZ arD 1; a_ofZ arD 1] with o3 in HF.
    set (G := scheme_iter arD (Z.to_nat steps) (f90_term arD [n; n; n] o3 o3 dt) [n; n; n] o3 (corner (a_ofZ arD 0) (a_ofZ arD 1) [n; n; n])) in *.
    set (u := fo_of arD [n; n; n] o3 o3 (map G (cells [n; n; n]))).
    assert (Lv : vlen (map G (cells [n; n; n])) = n * n * n) by (apply cube_cells; assumption).
    assert (Pn : prodZ [n; n; n] = n * n * n) by (unfold prodZ; cbn [fold_right]; ring).
    assert (Em : fo_main arD read blank args = Ok (Some (u, fo_sum arD u, Some (mkRect [n + 1; n + 1; n + 1] [(n + 1, xs); (n + 1, xs); (n + 1, xs)] (n * n * n) (map G (cells [n; n; n])))))).
    { unfold fo_main. rewrite Ep. cbn [oo_argc oo_numCells oo_steps oo_vtk]. destruct (Nat.ltb_spec argc 2); [lia|]. cbn [bind]. change (repeat n 3) with [n; n; n]. fold o3. rewrite Edt. cbn [bind].
      rewrite fo_new_eq by auto. cbn [bind]. rewrite fo_run_eq by auto. cbn [bind]. fold G. unfold u.
      rewrite fo_saveVTK_eq by first [assumption|rewrite Pn; exact Lv|simpl; lia]. cbn [bind map Nat.ltb Nat.leb List.length nth]. rewrite !coords_same by lia. rewrite Pn. reflexivity. }
    unfold fo_program. rewrite Em. cbn [bind]. rewrite Ep. cbn [oo_numCells oo_steps].
    eexists _, u, _, _, d, h, dt. split; [reflexivity|]. cbn [r_exit r_files]. split; [reflexivity|]. split; [reflexivity|]. split; [reflexivity|].
    split; [exact Vh|]. split; [exact Rh|]. split; [exact Vd|]. split; [exact Rd|]. split; [exact Sd|]. split; [exact HF|]. split; [reflexivity|].
    change (fo_ndims u) with 3. change (fo_f u) with (map G (cells [n; n; n])). pose proof (n_1290 n H1 H2) as Hn.
    assert (Lx : Z.of_nat (List.length xs) = n + 1) by (unfold xs, axis_coords; cbn [snd nth]; rewrite map_length, range_length; lia).
    assert (Px : Forall (fun x => exists r, double_value x r) xs) by (apply Forall_forall; intros x Hx; destruct (coords_in x Hx) as (k & r & _ & V & _); exists r; exact V).
    apply (file_read show_e w (fun x => exists r, double_value x r)); try assumption; try lia.
    - intros x (r & V). apply (e_printed show_e He x r V).
    - intros x (r & V). apply (e_printed show_e He x r V).
    - unfold cells_along. rewrite !Z.max_r by lia. ring.
    - apply Forall_forall. intros x Hx. apply in_map_iff in Hx as (g & <- & Hg'). apply in_cells in Hg'. exists (f90_values n d h (Z.to_nat steps) g). apply HF, Hg'.
    - intros x Hx. assert (Hx' : In x xs) by (rewrite !in_app_iff in Hx; tauto). destruct (coords_in x Hx') as (k & r & _ & V & _ & Hr).
      destruct (e_reads show_e He x r V) as (r' & q & _ & (m & e & Nm & _) & _); [|unfold w; rewrite Nm; discriminate].
      destruct Hr as [->|Hr]; [left; reflexivity|right]. assert (0 < / 2 ^ 12)%R by (apply Rinv_0_lt_compat, pow_lt; lra). rewrite Rabs_pos_eq by lra. split.
      + apply Rle_trans with (ten (-4)); [|change (ten (-4)) with (/ 10000)%R; simpl in Hr; lra]. pose proof (bpow_gt_0 radix10 (-100)). assert (0 < / 10 ^ 9)%R by (apply Rinv_0_lt_compat, pow_lt; lra).
        apply Rle_trans with (ten (-100) * 1)%R; [apply Rmult_le_compat_l; lra|]. rewrite Rmult_1_r. apply bpow_le. lia.
      + apply Rle_lt_trans with 2%R; [lra|]. apply Rlt_le_trans with (ten 1); [change (ten 1) with 10%R; lra|apply bpow_le; lia].
  Qed.

  (** Up to 100 steps, the default: the file can be read and contains the numbers to six digits. *)
  Theorem C88_hundred_steps : steps <= 100 ->
    exists r u s rect text doc, fo_program arD show_f show_e gap empty stop report read blank args = Ok r /\ r_exit r = 0 /\ r_files r = [("up.vtk"%string, text)] /\
      fo_main arD read blank args = Ok (Some (u, s, Some rect)) /\ read_rectilinear text = Some doc /\
      rd_dims doc = (n + 1, n + 1, n + 1) /\ rd_name doc = "f"%string /\ Forall2 reads_near (rd_values doc) (fo_f u) /\
      (forall coords, In coords [rd_x doc; rd_y doc; rd_z doc] -> Z.of_nat (List.length coords) = n + 1 /\
         forall i t, nth_error coords i = Some t -> exists q, denotes t q /\ (Rabs (q - INR i / IZR n) <= 3 / 10 ^ 6)%R).
  Proof using He Hb Ep Hc H1 H2.
    intros H100. destruct run_file as (r & u & s & text & d & h & dt & Er & Ex & Ef & Em & Vh & Rh & Vd & Rd & Sd & HF & Eu & Et).
    set (K := Z.to_nat steps) in *.
    assert (HN : Forall2 reads_near (map w (fo_f u)) (fo_f u)).
    { apply Forall2_map. intros x Hx. rewrite Eu in Hx. apply in_map_iff in Hx as (g & <- & Hg). apply in_cells in Hg. destruct (HF g Hg) as [V R]. apply (e_reads show_e He _ _ V).
      destruct (values_low n H1 H2 d h Vh Rh dt Vd Rd Sd K ltac:(lia) g Hg) as [Z0|L]; [left; exact Z0|right]. rewrite Rabs_pos_eq by lra. split.
      - apply Rle_trans with (2 := L). apply Rle_trans with (lam ^ 100)%R.
        + unfold lam. rewrite <- (Rinv_inv (ten (-100))), <- bpow_opp. change (- (-100)) with 100. unfold Rdiv. rewrite Rpow_mult_distr, pow_inv, !pow_IZR, <- !(IZR_Zpower radix10) by lia.
          apply Rmult_le_reg_r with (IZR ((10 ^ 13) ^ Z.of_nat 100)); [apply IZR_lt; reflexivity|]. rewrite (Rmult_assoc (IZR ((10 ^ 12 - 1) ^ Z.of_nat 100))), Rinv_l, Rmult_1_r by (apply IZR_neq; discriminate).
          replace (1 - / IZR (10 ^ Z.of_nat 9))%R with (IZR (10 ^ 9 - 1) * / IZR (10 ^ 9))%R by (change (10 ^ Z.of_nat 9) with (10 ^ 9); change (10 ^ 9 - 1) with 999999999; change (10 ^ 9) with 1000000000; lra).
          apply Rmult_le_reg_l with (IZR (radix10 ^ 100 * 10 ^ 9)); [apply IZR_lt; reflexivity|].
          replace (IZR (radix10 ^ 100 * 10 ^ 9) * (/ IZR (radix10 ^ 100) * (IZR (10 ^ 9 - 1) * / IZR (10 ^ 9)) * IZR ((10 ^ 13) ^ Z.of_nat 100)))%R with (IZR ((10 ^ 9 - 1) * (10 ^ 13) ^ Z.of_nat 100)).
          * rewrite <- mult_IZR. apply IZR_le. apply Z.leb_le. vm_compute. reflexivity.
          * rewrite !mult_IZR. field. split; apply IZR_neq; discriminate.
        + destruct lam_mu as (L0 & _). replace 100%nat with (K + (100 - K))%nat by lia. rewrite pow_add. rewrite <- (Rmult_1_r (lam ^ K)) at 2. apply Rmult_le_compat_l; [apply pow_le; lra|].
          rewrite <- (pow1 (100 - K)). apply pow_incr. lra.
      - apply Rle_lt_trans with 1%R; [lra|]. apply Rlt_le_trans with (ten 1); [change (ten 1) with 10%R; lra|apply bpow_le; lia]. }
    assert (HV : next_numbers (List.length (fo_f u)) (map w (fo_f u)) = Some (map w (fo_f u), [])).
    { pose proof (take_numbers w (fo_f u) []) as T. rewrite app_nil_r in T. apply T. intros x Hx. clear - HN Hx. induction (fo_f u) as [|y l IH]; [destruct Hx|]. inversion HN as [|? ? ? ? (r0 & q0 & _ & (m & e & Nm & _) & _) HN' E1 E2]; subst.
      destruct Hx as [<-|Hx]; [rewrite Nm; discriminate|apply IH; assumption]. }
    rewrite HV in Et. cbn [bindo fst snd] in Et.
    eexists r, u, s, _, text, _. split; [exact Er|]. split; [exact Ex|]. split; [exact Ef|]. split; [exact Em|]. split; [exact Et|]. cbn [rd_dims rd_name rd_values rd_x rd_y rd_z].
    split; [reflexivity|]. split; [reflexivity|]. split; [exact HN|].
    intros coords Hco. assert (E : coords = map w xs) by (cbn [In] in Hco; destruct Hco as [Q|[Q|[Q|[]]]]; symmetry; exact Q). subst coords. clear Hco.
    assert (Lx : Z.of_nat (List.length xs) = n + 1) by (unfold xs, axis_coords; cbn [snd nth]; rewrite map_length, range_length; lia).
    split; [rewrite map_length; exact Lx|]. intros i t Ht. rewrite nth_error_map in Ht. destruct (nth_error xs i) as [x|] eqn:Exi; [|discriminate]. injection Ht as <-.
    assert (Hi : (i < List.length xs)%nat) by (apply nth_error_Some; rewrite Exi; discriminate).
    assert (Ek : x = a_add arD (a_dec arD 0 1) (a_mul arD (a_div arD (a_ofZ arD 1) (a_ofZ arD n)) (a_ofZ arD (Z.of_nat i)))).
    { unfold xs, axis_coords in Exi. cbn [snd nth] in Exi. unfold range in Exi. rewrite map_map, nth_error_map in Exi. rewrite (nth_error_nth' (seq 0 (Z.to_nat (n + 1 - 0))) 0%nat) in Exi by (rewrite seq_length; lia).
      rewrite seq_nth in Exi by lia. cbn [option_map] in Exi. injection Exi as <-. reflexivity. }
    destruct (coord_value n H1 H2 (Z.of_nat i) ltac:(lia)) as (v & V & B & Hr). rewrite <- Ek in V.
    destruct (e_reads show_e He x v V) as (v' & q & V' & Dq & Bq).
    { destruct Hr as [->|Hr]; [left; reflexivity|right]. assert (0 < / 2 ^ 12)%R by (apply Rinv_0_lt_compat, pow_lt; lra). rewrite Rabs_pos_eq by lra. split.
      + apply Rle_trans with (ten (-4)); [|change (ten (-4)) with (/ 10000)%R; simpl in Hr; lra]. pose proof (bpow_gt_0 radix10 (-100)). assert (0 < / 10 ^ 9)%R by (apply Rinv_0_lt_compat, pow_lt; lra).
        apply Rle_trans with (ten (-100) * 1)%R; [apply Rmult_le_compat_l; lra|]. rewrite Rmult_1_r. apply bpow_le. lia.
      + apply Rle_lt_trans with 2%R; [lra|]. apply Rlt_le_trans with (ten 1); [change (ten 1) with 10%R; lra|apply bpow_le; lia]. }
    pose proof (dv_fun _ _ _ V V') as <-. exists q. split; [exact Dq|]. rewrite INR_IZR_INZ. set (c := (IZR (Z.of_nat i) / IZR n)%R) in *.
    replace (q - c)%R with ((q - v) + (v - c))%R by ring. eapply Rle_trans; [apply Rabs_triang|].
    assert (Rabs v <= 2)%R by (assert (0 < / 2 ^ 12)%R by (apply Rinv_0_lt_compat, pow_lt; lra); destruct Hr as [->|Hr]; [rewrite Rabs_R0; lra|rewrite Rabs_pos_eq; lra]).
    simpl in *. lra.
  Qed.

  (** Between 101 and 280 steps, on a grid with more cells along each axis than steps: the file cannot be read, since
      the value of the cell the material has just reached is written without the letter E. *)
  Theorem C88_unreadable : 101 <= steps <= 280 -> steps < n ->
    exists r text, fo_program arD show_f show_e gap empty stop report read blank args = Ok r /\ r_exit r = 0 /\ r_files r = [("up.vtk"%string, text)] /\ read_rectilinear text = None.
  Proof using He Hb Ep Hc H1 H2.
    intros Hst Hsn. destruct run_file as (r & u & s & text & d & h & dt & Er & Ex & Ef & Em & Vh & Rh & Vd & Rd & Sd & HF & Eu & Et).
    set (K := Z.to_nat steps) in *. exists r, text. split; [exact Er|]. split; [exact Ex|]. split; [exact Ef|]. rewrite Et.
    set (g := [Z.of_nat K; 0; 0]). assert (Hg : in_grid [n; n; n] g).
    { split; [reflexivity|]. split; [reflexivity|]. intros [|[|[|j]]] Hj; cbn in Hj |- *; lia. }
    destruct (values_front n H1 H2 d h Vh Rh dt Vd Rd Sd K ltac:(lia) ltac:(lia)) as [L U]. fold g in L, U. destruct (HF g Hg) as [V R]. set (v := f90_values n d h K g) in *.
    assert (Bad : numeral (w (scheme_iter arD K (f90_term arD [n; n; n] o3 o3 dt) [n; n; n] o3 (corner (a_ofZ arD 0) (a_ofZ arD 1) [n; n; n]) g)) = None).
    { apply (e_unreadable show_e He _ v V). destruct lam_mu as (L0 & M0 & _). assert (0 < lam ^ K)%R by (apply pow_lt; lra). rewrite Rabs_pos_eq by lra. split; [lra|].
      apply Rle_trans with (1 := U). apply Rle_trans with (mu ^ 101)%R.
      - replace K with (101 + (K - 101))%nat by lia. rewrite pow_add. rewrite <- (Rmult_1_r (mu ^ 101)) at 2. apply Rmult_le_compat_l; [apply pow_le; lra|]. rewrite <- (pow1 (K - 101)). apply pow_incr. lra.
      - unfold mu. rewrite <- (Rinv_inv (ten (-100))), <- bpow_opp. change (- (-100)) with 100. unfold Rdiv. rewrite Rpow_mult_distr, pow_inv, !pow_IZR, <- !(IZR_Zpower radix10) by lia.
        apply Rmult_le_reg_r with (IZR ((10 ^ 13) ^ Z.of_nat 101)); [apply IZR_lt; reflexivity|]. rewrite (Rmult_assoc (IZR ((10 ^ 12 + 1) ^ Z.of_nat 101))), Rinv_l, Rmult_1_r by (apply IZR_neq; discriminate).
        apply Rmult_le_reg_l with (IZR (2 * radix10 ^ 100)); [apply IZR_lt; reflexivity|].
        replace (IZR (2 * radix10 ^ 100) * (/ 2 * / IZR (radix10 ^ 100) * IZR ((10 ^ 13) ^ Z.of_nat 101)))%R with (IZR ((10 ^ 13) ^ Z.of_nat 101)).
        + rewrite <- mult_IZR. apply IZR_le. apply Z.leb_le. vm_compute. reflexivity.
        + rewrite mult_IZR. field. apply IZR_neq. discriminate. }
    assert (Hin : In (scheme_iter arD K (f90_term arD [n; n; n] o3 o3 dt) [n; n; n] o3 (corner (a_ofZ arD 0) (a_ofZ arD 1) [n; n; n]) g) (fo_f u)) by (rewrite Eu; apply in_map, in_cells, Hg).
    pose proof (bad_number w (fo_f u) _ [] Hin Bad) as B. rewrite app_nil_r in B. rewrite B. reflexivity.
  Qed.
End Run.
Print Assumptions C88_hundred_steps.
Print Assumptions C88_unreadable.

(** The line of the numbers of points: three columns of 1, 10 and 10 characters with no blank between them, so a
    number of ten digits is read together with the one before it. *)
Theorem C88_dims_refuted : exists a b c, words (fo_dims_text 3 [a; b; c]) = ["DIMENSIONS"; (show_nat a ++ show_nat b); show_nat c]%string /\ 0 < a /\ 0 < b < 2 ^ 31 /\ 0 < c.
Proof. exists 2, 1000000001, 2. split; [reflexivity|lia]. Qed.
Print Assumptions C88_dims_refuted.

(** ** Examples *)

(** An e20.7 *)
Definition e_digits (a b : Z) : Z * Z :=
  let X := dec_exp 632 308 a b in
  let D := six_units (X - 1) a b in
  if D =? 10 ^ 7 then (10 ^ 6, X + 2) else (D, X + 1).
Definition e20_7 (x : spec_float) : string :=
  match x with
  | S754_finite s m e => let q := e_digits (Zpos m * 2 ^ Z.max e 0) (2 ^ Z.max (- e) 0) in pad 20 (e_word (if s then "-" else "") (fst q) (snd q))
  | _ => pad 20 (e_word "" 0 0)
  end.

Lemma e_digits_ok a b : 0 < a -> 0 < b -> (bpow radix10 (-324) <= IZR a / IZR b < bpow radix10 309)%R ->
  10 ^ 6 <= fst (e_digits a b) < 10 ^ 7 /\
  (Rabs (IZR a / IZR b - IZR (fst (e_digits a b)) * ten (snd (e_digits a b) - 7)) <= / 2 * ten (snd (e_digits a b) - 7))%R.
Proof.
  intros Ha Hb (L & U). set (v := (IZR a / IZR b)%R) in *.
  pose proof (dec_exp_ok a b Ha Hb 632 308 ltac:(change (308 - Z.of_nat 632) with (-324); exact L) U) as E. unfold e_digits. set (X := dec_exp 632 308 a b) in *. clearbody X. fold v in E.
  pose proof (six_units_ok a b Ha Hb (X - 1)) as ED. fold v in ED. replace (5 - (X - 1)) with (6 - X) in ED by lia.
  pose proof (bpow_gt_0 radix10 (6 - X)) as P. pose proof (bpow_gt_0 radix10 (X - 6)) as P'.
  assert (EI : (ten (6 - X) * ten (X - 6) = 1)%R) by (rewrite <- bpow_plus; replace (6 - X + (X - 6)) with 0 by lia; reflexivity).
  assert (B : (IZR (10 ^ 6) <= v * ten (6 - X) <= IZR (10 ^ 7))%R).
  { change (IZR (10 ^ 6)) with (bpow radix10 6). change (IZR (10 ^ 7)) with (bpow radix10 7). split.
    - replace 6 with (X + (6 - X)) at 1 by lia. rewrite bpow_plus. apply Rmult_le_compat_r; lra.
    - replace 7 with (X + 1 + (6 - X)) by lia. rewrite bpow_plus. apply Rmult_le_compat_r; lra. }
  pose proof (Znearest_half (fun z => negb (Z.even z)) (v * ten (6 - X))) as N. rewrite <- ED in N.
  assert (BD : 10 ^ 6 <= six_units (X - 1) a b <= 10 ^ 7).
  { rewrite ED. destruct B as [B1 B2]. apply (@Zrnd_le ZnearestE (valid_rnd_N _)) in B1. apply (@Zrnd_le ZnearestE (valid_rnd_N _)) in B2. rewrite (@Zrnd_IZR ZnearestE (valid_rnd_N _)) in B1, B2. lia. }
  set (D := six_units (X - 1) a b) in *. clearbody D.
  assert (F : (Rabs (v - IZR D * ten (X - 6)) <= / 2 * ten (X - 6))%R).
  { replace (v - IZR D * ten (X - 6))%R with ((v * ten (6 - X) - IZR D) * ten (X - 6))%R by (rewrite Rmult_minus_distr_r, Rmult_assoc, EI; ring).
    rewrite Rabs_mult, (Rabs_pos_eq (ten (X - 6))) by lra. apply Rmult_le_compat_r; [lra|exact N]. }
  destruct (Z.eqb_spec D (10 ^ 7)) as [->|ND]; cbn [fst snd].
  - split; [lia|]. replace (X + 2 - 7) with (1 + (X - 6)) by lia. rewrite bpow_plus. change (ten 1) with 10%R.
    change (IZR (10 ^ 7)) with 10000000%R in F. change (IZR (10 ^ 6)) with 1000000%R. replace (1000000 * (10 * ten (X - 6)))%R with (10000000 * ten (X - 6))%R by ring. lra.
  - split; [lia|]. replace (X + 1 - 7) with (X - 6) by lia. exact F.
Qed.

Lemma e20_7_ok : e_edit e20_7.
Proof.
  intros x r (Hv & Hf & <-). destruct x as [b|b| |b m e]; try discriminate Hf.
  - exists 0, 0, ""%string. cbn [SF2R]. split; [left; auto|]. split.
    + rewrite Rmult_0_l, Rminus_0_r, Rabs_R0, Rabs_R0. rewrite ten_powerRZ. pose proof (bpow_gt_0 radix10 (0 - 7)). lra.
    + repeat (split; [lra || auto|]). reflexivity.
  - destruct (finite_range b m e Hv) as (Pa & Pb & EV & R). destruct (e_digits_ok _ _ Pa Pb R) as (Hm & HB). rewrite EV in HB.
    set (q := e_digits (Z.pos m * 2 ^ Z.max e 0) (2 ^ Z.max (- e) 0)) in *.
    exists (fst q), (snd q), (if b then "-" else "")%string. rewrite ten_powerRZ. cbn [SF2R].
    assert (P : (0 < F2R (Float radix2 (Zpos m) e))%R) by (apply F2R_gt_0; reflexivity).
    assert (EA : Rabs (F2R (Float radix2 (cond_Zopp b (Zpos m)) e)) = F2R (Float radix2 (Zpos m) e)) by (rewrite <- F2R_Zabs; destruct b; reflexivity).
    split; [right; exact Hm|]. split; [rewrite EA; exact HB|].
    assert (S : F2R (Float radix2 (cond_Zopp b (Zpos m)) e) = (if b then - F2R (Float radix2 (Zpos m) e) else F2R (Float radix2 (Zpos m) e))%R) by (destruct b; [exact (F2R_Zopp radix2 (Zpos m) e)|reflexivity]).
    rewrite S. destruct b; repeat (split; [intros Q; first [reflexivity|exfalso; lra]|]); reflexivity.
Qed.

Definition digits3 (s : string) : option Z :=
  if (s =? "16")%string then Some 16 else if (s =? "100")%string then Some 100 else if (s =? "128")%string then Some 128 else if (s =? "101")%string then Some 101 else
  if (s =? "2")%string then Some 2 else if (s =? "1")%string then Some 1 else None.
(** The hypotheses of [C88_hundred_steps] are met by "upwindFortran 16 100 vtk" and those of [C88_unreadable] by "upwindFortran 128 101 vtk". *)
Example C88_example :
  e_edit e20_7 /\ (exists k, ""%string = fill " " k) /\
  fo_parse digits3 (fun s => (s =? "")%string) 0 ["upwindFortran"; "16"; "100"; "vtk"]%string (mkFoOpt (Some (-1)) (Some 100) false 0) = mkFoOpt (Some 16) (Some 100) true 4 /\
  fo_parse digits3 (fun s => (s =? "")%string) 0 ["upwindFortran"; "128"; "101"; "vtk"]%string (mkFoOpt (Some (-1)) (Some 100) false 0) = mkFoOpt (Some 128) (Some 101) true 4 /\
  128 * 128 * 128 < 2 ^ 31.
Proof. split; [exact e20_7_ok|]. split; [exists O; reflexivity|]. split; [reflexivity|]. split; [reflexivity|lia]. Qed.
Example C88_texts : e20_7 (a_dec arD 1 1) = "       0.1000000E+00"%string /\ e20_7 (a_ofZ arD (-12345678)) = "      -0.1234568E+08"%string /\
  e20_7 (a_dec arD 99999996 6) = "       0.1000000E+03"%string /\ e20_7 (a_dec arD 1 100) = "       0.1000000E-99"%string /\ e20_7 (a_dec arD 1 101) = "       0.1000000-100"%string.
Proof. repeat split; vm_compute; reflexivity. Qed.
Example C88_file : exists r text doc,
  fo_program arD f15_9 e20_7 "  " "" (fun s => ("STOP " ++ s ++ line_end)%string) "" digits3 (fun s => (s =? "")%string) ["upwindFortran"; "2"; "1"; "vtk"]%string = Ok r /\
  r_files r = [("up.vtk"%string, text)] /\ read_rectilinear text = Some doc /\ rd_x doc = ["0.0000000E+00"; "0.5000000E+00"; "0.1000000E+01"]%string /\
  rd_values doc = ["0.7000000E+00"; "0.1000000E+00"; "0.1000000E+00"; "0.0000000E+00"; "0.1000000E+00"; "0.0000000E+00"; "0.0000000E+00"; "0.0000000E+00"]%string.
Proof. eexists _, _, _. split; [vm_compute; reflexivity|]. split; [reflexivity|]. split; [vm_compute; reflexivity|]. split; reflexivity. Qed.
