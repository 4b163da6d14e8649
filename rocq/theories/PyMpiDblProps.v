(** * The MPI version in Python in double precision: C86 *)
From Coq Require Import List ZArith Bool Lia Permutation Reals Lra String SpecFloat.
From Flocq Require Import Core BinarySingleNaN.
From Verif Require Import Cpp CppProof CmdModel MaiSpec CdModel CdSpec FilterModel FilterSpec FilterProof FilterSum RealArith UpModel UpSpec UpProof UpExact Ieee Double DblSpec DblProof
  DblField DblSten DblProps LangSpec NumModel NumProof TextModel TextSpec TextProof PySpec PyModel PyProps PyMpiSpec PyMpiModel PyMpiProof PyMpiProps PyMpiDbl FortProps.
From Coq Require Import List.
Import ListNotations.
Local Open Scope Z_scope.

Lemma filter_short {A} (p : A -> bool) l : (List.length (filter p l) <= List.length l)%nat.
Proof. induction l as [|x l IH]; [apply le_n|]. cbn [filter]. destruct (p x); cbn [List.length]; lia. Qed.

(** Whatever the number of processes, the decomposition, the order of the additions in numpy.sum and in the reduction: the values
    are not negative, exceed 1 by rounding errors at most, and the check sum is 1 up to rounding errors. *)
Theorem C86_check_sum psum red sz dec n steps :
  sums arD psum -> adds_all arD red -> 1 <= n -> n * n * n < 2 ^ 31 -> is_decomp sz [n; n; n] dec -> 0 <= steps < 2 ^ 31 ->
  exists w s, pm_body arD psum sz dec n steps = Ok w /\
    (forall p x, In p w -> In x (pm_f p) -> exists r, double_value x r /\ (0 <= r <= 1 + 9 * IZR steps / 2 ^ 53)%R) /\
    double_value (red (map (@pm_f spec_float) w)) s /\
    (Rabs (s - 1) <= (9 * IZR steps + 12 / 10 * IZR (n * n * n)) / 2 ^ 53)%R.
Proof.
  intros Hp Hr H1 H2 Hd Hs. destruct (C85_body arD psum sz dec n steps H1 H2 Hd) as (w & Ew & Ho & HG & _).
  destruct (numbers n psum H1 H2 Hp) as (a & b & VA & VB & Ra & Rb & Rab). destruct (cells_number n H1 H2) as [N1 N2].
  destruct (iterated n dec psum H1 H2 a b VA VB Ra Rb Rab (Z.to_nat steps) (steps_bound steps ltac:(lia)) ltac:(rewrite N1; exact N2)) as (F & HF & HT).
  set (dims := [n; n; n]) in *. set (o3 := repeat (a_ofZ arD 1) 3) in *. set (G := mpi_iter arD (Z.to_nat steps) psum dims dec o3 o3 (py_step arD n) (corner (a_ofZ arD 0) (a_ofZ arD 1) dims)) in *.
  rewrite INR_IZR_INZ, Z2Nat.id in HT by lia. pose proof (pieces_perm _ _ _ HG) as P. unfold pm_pieces in P. rewrite map_map in P. cbn [snd] in P. change (fun x => pm_f x) with (@pm_f spec_float) in P.
  pose proof eps_small as Ee. pose proof eta_tiny as Te. assert (S0 : (0 <= IZR steps <= 2 ^ 31)%R) by (split; [apply IZR_le; lia|rewrite pow_IZR; apply IZR_le; change (2 ^ Z.of_nat 31) with (2 ^ 31); lia]).
  assert (T31 : (2 ^ 31 * eps <= / 1000000)%R) by (unfold eps; simpl; lra).
  assert (Ke : (0 <= IZR steps * eps <= / 1000000)%R) by (split; [apply Rmult_le_pos; lra|apply Rle_trans with (2 ^ 31 * eps)%R; [apply Rmult_le_compat_r; lra|exact T31]]).
  apply Rabs_le_inv in HT as HT'.
  assert (Hv : forall x, In x (List.concat (map (@pm_f spec_float) w)) -> exists r, double_value x r /\ (0 <= r <= 1 + 9 * IZR steps / 2 ^ 53)%R).
  { intros x Hx. apply (Permutation_in x P) in Hx. apply in_map_iff in Hx as (g & <- & Hg). apply in_cells in Hg. destruct (HF g Hg) as [V Pg]. exists (F g). split; [exact V|]. split; [exact Pg|].
    eapply Rle_trans; [apply (value_le_total n F g); [intros h Hh; apply HF, Hh|exact Hg]|]. unfold Rdiv. change (/ 2 ^ 53)%R with eps. fold dims. lra. }
  destruct (Hr (map (@pm_f spec_float) w)) as (zs & Hz & Hred).
  assert (Vz : forall z, In z zs -> z = S754_zero false) by (intros z Hi; rewrite (Hz z Hi); vm_compute; reflexivity).
  assert (Fz : filter nonzero zs = []) by (clear - Vz; induction zs as [|z zs IH]; [reflexivity|]; cbn [filter]; rewrite (Vz z (or_introl eq_refl)); apply IH; intros y Hy; apply Vz; right; exact Hy).
  assert (Sz : rsum (map val zs) = 0%R).
  { clear - Vz. induction zs as [|z zs IH]; [reflexivity|]. cbn [map]. change (rsum (?y :: ?l)) with (y + rsum l)%R. rewrite IH by (intros y Hy; apply Vz; right; exact Hy). rewrite (Vz z (or_introl eq_refl)). unfold val. simpl. lra. }
  assert (ES : rsum (map val (zs ++ List.concat (map (@pm_f spec_float) w))) = total dims F).
  { rewrite map_app, rsum_app, Sz, Rplus_0_l. rewrite (rsum_perm _ _ (Permutation_map val P)), map_map. unfold total. f_equal. apply map_ext_in. intros g Hg. apply fmt_val. apply HF. apply in_cells, Hg. }
  set (L := (zs ++ List.concat (map (@pm_f spec_float) w))%list) in *.
  assert (Len : (INR (List.length (filter nonzero L)) <= IZR (n * n * n))%R).
  { rewrite <- N1. apply le_INR. unfold L. rewrite filter_app, Fz. cbn [app]. eapply Nat.le_trans; [apply filter_short|]. rewrite (Permutation_length P), map_length. fold dims. lia. }
  assert (V31 : forall y, In y L -> exists r, double_value y r /\ (0 <= r)%R).
  { intros y Hy. apply in_app_or in Hy as [Hy|Hy]; [exists 0%R; rewrite (Vz y Hy); split; [repeat split|lra]|]. destruct (Hv y Hy) as (r & Vr & Rr). exists r. split; [exact Vr|lra]. }
  destruct (red_zeros _ _ Hred (1 + / 1000)%R V31) as (s & V & Ps & Zs & Bs); [rewrite ES; lra|lra|lra|].
  exists w, s. split; [exact Ew|]. split; [intros p x Hi Hx; apply Hv; apply in_concat; exists (pm_f p); split; [apply in_map, Hi|exact Hx]|]. split; [exact V|].
  assert (Hne : filter nonzero L <> []).
  { intros C. assert (Z0 : rsum (map val L) = 0%R); [|lra]. clear - C. induction L as [|y k IH]; [reflexivity|]. cbn [filter] in C. destruct (nonzero y) eqn:Ey; [discriminate|]. cbn [map]. change (rsum (?z :: ?k)) with (z + rsum k)%R. rewrite IH, (zero_val _ Ey) by exact C. lra. }
  specialize (Bs Hne). rewrite ES in Bs. replace (s - 1)%R with ((s - total dims F) + (total dims F - 1))%R by ring. eapply Rle_trans; [apply Rabs_triang|].
  assert (D0 : (0 <= 11 / 10 * eps * (1 + / 1000) + 2 * eta <= 12 / 10 * eps)%R) by (assert (eps * eps * eps <= / 1000 * eps)%R by nra; lra).
  assert (N0 : (0 <= IZR (n * n * n))%R) by (apply IZR_le; nia).
  assert (B2 : ((INR (List.length (filter nonzero L)) - 1) * (11 / 10 * eps * (1 + / 1000) + 2 * eta) <= IZR (n * n * n) * (12 / 10 * eps))%R).
  { apply Rle_trans with (IZR (n * n * n) * (11 / 10 * eps * (1 + / 1000) + 2 * eta))%R; [apply Rmult_le_compat_r; lra|apply Rmult_le_compat_l; lra]. }
  unfold Rdiv at 1. change (/ 2 ^ 53)%R with eps. lra.
Qed.
Print Assumptions C86_check_sum.

(** main on [sz] processes: any arithmetic *)
Lemma pm_main_eq {D} (ar : arith D) psum show show_array read red cube time deleted sz exec a1 rest n steps vtk w text :
  read a1 = Some n -> py_rest read rest steps vtk -> 1 <= n -> is_decomp sz [n; n; n] (cube sz [n; n; n]) ->
  pm_body ar psum sz (cube sz [n; n; n]) n steps = Ok w -> (vtk = true -> pm_vtk ar show (cube sz [n; n; n]) [n; n; n] w = Ok text) ->
  exists r0 rs pre, pm_main ar psum show show_array read red cube time deleted sz (exec :: a1 :: rest) = Ok (r0 :: rs) /\ 1 + vlen rs = sz /\
    (forall r, In r rs -> r_exit r = 0 /\ r_files r = [] /\ r_err r = ""%string) /\
    r0 = mkRun (pre ++ "check sum: " ++ show (red (map (@pm_f D) w)) ++ newline) "" (if vtk then [("upMPI.vtk"%string, text)] else []) 0.
Proof.
  intros R1 R2 H1 Hd Ew Ev. set (dec := cube sz [n; n; n]) in *.
  pose proof (sz_pos sz _ _ Hd) as Hsz. assert (Hdl : (vlen dec =? 0) = false) by (destruct Hd as (Ld & _); unfold vlen; rewrite Ld; reflexivity).
  assert (Hn : (n <? 1) = false) by (apply Z.ltb_ge; lia).
  set (all := map Z.of_nat (seq 0 (Z.to_nat sz))).
  set (own := fun rk => ("[" ++ show_int rk ++ "] local number of cells: " ++ show_array (mp_size [n; n; n] dec) ++ newline)%string).
  set (files := if vtk then [("upMPI.vtk"%string, text)] else []).
  set (out := fun rk => if rk =? 0 then
              mkRun (own rk ++ "number of cells: " ++ py_list_text [n; n; n] ++ newline ++
                     "Wall clock time spent in advection loop: " ++ time ++ " [sec]" ++ newline ++
                     "check sum: " ++ show (red (map (@pm_f D) w)) ++ newline) "" files 0
            else mkRun (own rk) "" [] 0).
  assert (E : pm_main ar psum show show_array read red cube time deleted sz (exec :: a1 :: rest) = Ok (map out all)).
  { unfold pm_main. rewrite R1. cbn [bind]. destruct rest as [|a2 [|a3 t]]; cbn [py_rest] in R2; destruct R2 as (R2 & Rv).
    - subst steps vtk. cbn [bind]. rewrite Hn. change (repeat n 3) with [n; n; n]. fold dec. rewrite Hdl, Ew. cbn [bind]. reflexivity.
    - subst vtk. rewrite R2. cbn [bind]. rewrite Hn. change (repeat n 3) with [n; n; n]. fold dec. rewrite Hdl, Ew. cbn [bind]. reflexivity.
    - rewrite R2. cbn [bind]. rewrite Hn. change (repeat n 3) with [n; n; n]. fold dec. rewrite Hdl, Ew. cbn [bind]. destruct (String.eqb_spec a3 "vtk") as [Ea|Ea]; destruct vtk.
      + rewrite Ev by reflexivity. reflexivity.
      + exfalso. apply Rv in Ea. discriminate.
      + exfalso. apply Ea, Rv. reflexivity.
      + reflexivity. }
  assert (Ea : all = 0 :: map Z.of_nat (seq 1 (Z.to_nat (sz - 1)))) by (unfold all; replace (Z.to_nat sz) with (S (Z.to_nat (sz - 1))) by lia; reflexivity).
  rewrite Ea in E. cbn [map] in E. eexists _, _, (own 0 ++ "number of cells: " ++ py_list_text [n; n; n] ++ newline ++ "Wall clock time spent in advection loop: " ++ time ++ " [sec]" ++ newline)%string.
  split; [exact E|]. split; [unfold vlen; rewrite !map_length, seq_length; lia|]. split.
  - intros r Hin. apply in_map_iff in Hin as (k & <- & Hk). apply in_map_iff in Hk as (m & <- & Hm). apply in_seq in Hm. unfold out. replace (Z.of_nat m =? 0) with false by (symmetry; apply Z.eqb_neq; lia). repeat split.
  - unfold out. change (0 =? 0) with true. cbv iota. rewrite !append_assoc. reflexivity.
Qed.

(** The test upwindPythonMpiN passes for any number of processes, provided the text of a double between 1/2 and 3/2 starts with 0 or 1. *)
Theorem C86_program psum show show_array read red cube time deleted sz exec a1 rest n steps vtk :
  sums arD psum -> adds_all arD red -> read a1 = Some n -> py_rest read rest steps vtk -> 1 <= n -> n * n * n < 2 ^ 31 -> 0 <= steps <= 2 * 10 ^ 8 ->
  is_decomp sz [n; n; n] (cube sz [n; n; n]) -> vtk = false ->
  exists r0 rs pre x s, pm_main arD psum show show_array read red cube time deleted sz (exec :: a1 :: rest) = Ok (r0 :: rs) /\ 1 + vlen rs = sz /\
    (forall r, In r (r0 :: rs) -> r_exit r = 0 /\ r_files r = [] /\ r_err r = ""%string) /\
    r_out r0 = (pre ++ "check sum: " ++ show x ++ line_end)%string /\ double_value x s /\ (Rabs (s - 1) < / 2000000)%R /\
    ((forall x r, double_value x r -> (1 / 2 < r < 3 / 2)%R -> exists c t, show x = String c t /\ In c ["0"; "1"]%char) -> ctest_accepts (r_out r0)).
Proof.
  intros Hp Hr R1 R2 H1 H2 H4 Hd ->. destruct (C86_check_sum psum red sz _ n steps Hp Hr H1 H2 Hd ltac:(lia)) as (w & s & Ew & _ & Vs & B).
  destruct (pm_main_eq arD psum show show_array read red cube time deleted sz exec a1 rest n steps false w ""%string R1 R2 H1 Hd Ew ltac:(discriminate)) as (r0 & rs & pre & E & L & Hrs & E0).
  exists r0, rs, pre, (red (map (@pm_f spec_float) w)), s. split; [exact E|]. split; [exact L|]. split; [intros r [<-|Hi]; [subst r0; repeat split|apply Hrs, Hi]|].
  subst r0. cbn [r_out]. split; [reflexivity|]. split; [exact Vs|].
  assert (Bs : (Rabs (s - 1) < / 2000000)%R).
  { eapply Rle_lt_trans; [exact B|]. assert (S2 : (IZR steps <= 200000000)%R) by (apply IZR_le; lia). assert (N2 : (IZR (n * n * n) <= 2147483648)%R) by (apply IZR_le; lia).
    unfold Rdiv. change (/ 2 ^ 53)%R with eps. apply Rle_lt_trans with ((9 * 200000000 + 12 / 10 * 2147483648) * eps)%R.
    - apply Rmult_le_compat_r; [pose proof eps_small; lra|lra].
    - unfold eps. simpl. lra. }
  split; [exact Bs|]. intros Hsh. apply Rabs_def2 in Bs. destruct (Hsh _ _ Vs ltac:(lra)) as (c & t & Es & Hc). rewrite Es.
  exists pre, "c"%char, " "%string, c, (t ++ newline)%string. split; [reflexivity|]. split; [right; reflexivity|]. split.
  - intros [|i] a Ea; cbn in Ea; [injection Ea as <-; reflexivity|destruct i; discriminate].
  - cbn [In] in *. tauto.
Qed.
Print Assumptions C86_program.

(** Unlike the other versions this one does not keep a uniform field: with one cell the value 1 becomes 1 - 2^-53. *)
Theorem C86_uniform_refuted : exists n steps w p x,
  let psum l := fold_left (a_add arD) l (a_ofZ arD 0) in
  is_decomp 1 [n; n; n] [1; 1; 1] /\ pm_body arD psum 1 [1; 1; 1] n steps = Ok w /\ py_body arD n steps = Ok p /\
  pm_gather arD [1; 1; 1] [n; n; n] w = Ok [x] /\ py_f p = [a_ofZ arD 1] /\ double_value x (1 - / 2 ^ 53)%R.
Proof.
  exists 1, 1. set (psum := fun l => fold_left (a_add arD) l (a_ofZ arD 0)).
  assert (D1 : is_decomp 1 [1; 1; 1] [1; 1; 1]).
  { split; [reflexivity|]. split; [|reflexivity]. intros [|[|[|j]]] Hj; cbn in Hj; try lia; (split; [cbn; lia|exists 1; reflexivity]). }
  eexists _, _, _. split; [exact D1|]. split; [vm_compute; reflexivity|]. split; [vm_compute; reflexivity|]. split; [vm_compute; reflexivity|]. split; [vm_compute; reflexivity|].
  split; [reflexivity|]. split; [reflexivity|]. unfold SF2R, F2R. cbn [Fnum Fexp cond_Zopp]. simpl. lra.
Qed.
Print Assumptions C86_uniform_refuted.

(** ** Examples *)
(** The hypotheses of C86_check_sum and C86_program: four processes, four cells along each axis *)
Example C86_example : exists psum red, sums arD psum /\ adds_all arD red /\ is_decomp 4 [4; 4; 4] [1; 2; 2].
Proof. exists (fun l => fold_left (a_add arD) l (a_ofZ arD 0)), (fun ls => fold_left (a_add arD) (List.concat ls) (a_dec arD 0 1)). split; [apply C76_sums|]. split; [apply C85_adds|exact cube4]. Qed.
Example C86_rest : py_rest one_digit ["2"]%string 2 false.
Proof. repeat split. Qed.
