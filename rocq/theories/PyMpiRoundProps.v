(** * The MPI version in Python in double precision against exact arithmetic: property C95 *)
From Coq Require Import Reals ZArith Lia Lra Psatz Floats.SpecFloat List Permutation Bool.
From Flocq Require Import Core BinarySingleNaN.
From Verif Require Import Cpp CppProof CmdModel MaiSpec CdModel CdSpec FilterModel FilterSpec FilterProof FilterSum RealArith UpModel UpSpec UpProof UpExact UpProps AccModel AccSpec Ieee Double DblSpec DblProof
  DblField DblSten DblProps LangSpec PySpec PyModel PyProps PyMpiModel PyMpiSpec PyMpiDbl PyMpiProps RoundProof RoundProps FortRoundProps.
From Coq Require Import List.
Import ListNotations.
Local Open Scope R_scope.
Local Arguments prodZ : simpl never.
Local Arguments Z.of_nat : simpl never.

Section Field.
  Variables (n : Z) (dec : list Z) (psum : list spec_float -> spec_float).
  Hypotheses (H1 : (1 <= n)%Z) (H2 : (n * n * n < 2 ^ 31)%Z).
  Let dims := [n; n; n].
  Let o3 := repeat (a_ofZ arD 1) 3.
  Variables a b : R.
  Let r0 := a_div arD (a_mul arD one (a_ofZ arD (-1))) (a_div arD one (a_ofZ arD n)).
  Hypotheses (VA : double_value (a_mul arD (py_step arD n) r0) (- a)) (VB : double_value (a_mul arD (py_step arD n) (psum [r0; r0; r0])) (- b))
    (Ra : 0 <= a <= / 8) (Rb : 0 <= b <= / 2) (Rab : Rabs (b - 3 * a) <= 11 / 10 * eps).
  Notation N := (INR (length (cells dims))).
  Notation tenths := (fun _ : nat => - / 10).
  Notation down := (fun _ : nat => (-1)%Z).

  Lemma rate_close : Rabs (a - / 10) <= 42 / 100 * eps.
  Proof using H1 H2 VA.
    destruct (driver_coefs n H1 H2) as (dt & Edt & _ & HC). rewrite (py_dt_double n H1 H2) in Edt. injection Edt as <-.
    destruct (HC 0%nat ltac:(lia)) as (c & V & _ & B). unfold acc_courant, axis_velocity, cell_size in V. cbn [nth] in V. rewrite one_side in V.
    change (a_mul arD (py_step arD n) (a_div arD (a_mul arD one (a_ofZ arD (-1))) (a_div arD one (a_ofZ arD n)))) with (a_mul arD (py_step arD n) r0) in V.
    pose proof (dv_unique _ _ _ V VA) as E. subst c. apply Rabs_le_inv in B. apply Rabs_le. lra.
  Qed.

  Lemma rfield_gap F : (forall h, in_grid dims h -> fmt (F h) /\ 0 <= F h) ->
    gap dims (rfield n dec a b F) (unrounded dims down tenths F) <= 102 / 10 * eps * total dims F + 12 * eta * N.
  Proof using H1 H2 VA Ra Rb Rab.
    intros HF. set (U := fun g => F (nbd n g 0) + (F (nbd n g 1) + F (nbd n g 2))). pose proof eps_small as E. pose proof eta_tiny as T. pose proof rate_close as RC.
    assert (TU : rsum (map U (cells dims)) = 3 * total dims F) by (unfold U; rewrite !rsum_add; unfold dims; rewrite !(nbd_total n H1); ring).
    assert (T0 : 0 <= total dims F) by (apply rsum_nn; intros x Hx; apply in_map_iff in Hx as (g & <- & Hg); apply HF, in_cells, Hg).
    unfold gap. eapply Rle_trans; [apply (rsum_le _ (fun g => 707 / 100 * eps * F g + (102 / 100 * eps * U g + 12 * eta)))|].
    - intros g Hg. apply in_cells in Hg. destruct (rfield_cell n dec H1 a b Ra Rb F g HF Hg) as [_ B].
      assert (Fg : 0 <= F g) by (apply HF, Hg).
      assert (Ug : 0 <= U g) by (unfold U; pose proof (fun j => neighbour_in dims g j (-1) (dims_pos n H1) Hg) as Nb; pose proof (proj2 (HF _ (Nb 0%nat))); pose proof (proj2 (HF _ (Nb 1%nat))); pose proof (proj2 (HF _ (Nb 2%nat))); unfold nbd; fold dims; lra).
      rewrite unrounded_sum. change (seq 0 (length dims)) with [0; 1; 2]%nat. cbn [map]. unfold rsum. cbn [fold_right].
      change (neighbour dims g ?j (-1)) with (nbd n g j).
      replace (F (nbd n g 0) + F (nbd n g 1) + F (nbd n g 2)) with (U g) in B by (unfold U; ring).
      match goal with |- Rabs (?r - ?x) <= _ => replace (r - x) with ((r - (F g - b * F g + a * U g)) + ((3 / 10 - b) * F g + (a - / 10) * U g)) by (unfold U; field) end.
      eapply Rle_trans; [apply Rabs_triang|]. eapply Rle_trans; [apply Rplus_le_compat; [exact B|apply Rabs_triang]|].
      rewrite !Rabs_mult, (Rabs_pos_eq (F g)), (Rabs_pos_eq (U g)) by assumption.
      assert (X1 : Rabs (3 / 10 - b) * F g <= 236 / 100 * eps * F g).
      { apply Rmult_le_compat_r; [exact Fg|]. apply Rabs_le_inv in RC, Rab. apply Rabs_le. lra. }
      assert (X2 : Rabs (a - / 10) * U g <= 42 / 100 * eps * U g) by (apply Rmult_le_compat_r; assumption).
      assert (0 <= eps * F g) by (apply Rmult_le_pos; lra). assert (0 <= eps * U g) by (apply Rmult_le_pos; lra). lra.
    - rewrite !rsum_add, !rsum_scale, rsum_const, TU. fold (total dims F). assert (0 <= eps * total dims F) by (apply Rmult_le_pos; lra). lra.
  Qed.

  Lemma iterated_gap k : INR k <= 2 ^ 31 -> N <= 2 ^ 31 ->
    exists F, doubles n (mpi_iter arD k psum dims dec o3 o3 (py_step arD n) (corner (a_ofZ arD 0) (a_ofZ arD 1) dims)) F /\
      Rabs (total dims F - 1) <= 9 * INR k * eps /\ gap dims F (exact_field n k) <= 11 * INR k * eps.
  Proof using H1 H2 VA VB Ra Rb Rab.
    intros Hk HN. pose proof eps_small as E. pose proof eta_tiny as T. assert (T31 : 2 ^ 31 * eps <= / 1000000) by (unfold eps; simpl; lra).
    assert (ET : 12 * eta * N <= eps / 2).
    { apply Rle_trans with (12 * (eps * eps * eps) * 2 ^ 31).
      - apply Rmult_le_compat; try lra. apply pos_INR.
      - replace (12 * (eps * eps * eps) * 2 ^ 31) with (12 * eps * (eps * (2 ^ 31 * eps))) by ring.
        assert (eps * (2 ^ 31 * eps) <= / 1000000 * / 1000000) by (apply Rmult_le_compat; lra).
        apply Rle_trans with (12 * eps * (/ 1000000 * / 1000000)); [apply Rmult_le_compat_l; lra|lra]. }
    induction k as [|k IH].
    - exists start. split; [|split].
      + intros g Hg. unfold corner, start. change (length dims) with 3%nat. cbn [mpi_iter]. destruct (list_eq_dec _ _ _).
        * split; [exact (dv_ofZ 1 ltac:(reflexivity))|lra].
        * split; [exact (dv_ofZ 0 ltac:(reflexivity))|lra].
      + pose proof (start_total n H1 H2) as St. fold dims in St. rewrite St, Rminus_eq_0, Rabs_R0. simpl INR. lra.
      + unfold exact_field, gap. cbn [coef_iter]. rewrite (map_ext _ (fun g => 0)) by (intros g; rewrite Rminus_eq_0; apply Rabs_R0). rewrite rsum_const. simpl INR. lra.
    - rewrite S_INR in *. pose proof (pos_INR k) as K0. destruct IH as (F & HF & HT & HG); [lra|].
      assert (Ne : INR k * eps <= / 1000000) by (apply Rle_trans with (2 ^ 31 * eps); [apply Rmult_le_compat_r; lra|exact T31]).
      apply Rabs_le_inv in HT as HT'. assert (HF' : forall h, in_grid dims h -> fmt (F h) /\ 0 <= F h) by (intros h Hh; destruct (HF h Hh) as [V P]; split; [exact (dv_fmt _ _ V)|exact P]).
      exists (rfield n dec a b F). split; [|split].
      + intros g Hg. cbn [mpi_iter]. split; [apply (cell_step_double n dec psum H1 a b VA VB Ra Rb); [exact HF|change (total dims F <= 2); lra|exact Hg]|apply (rfield_cell n dec H1 a b Ra Rb); assumption].
      + pose proof (rfield_total n dec H1 a b Ra Rb Rab F HF') as St. fold dims in St. replace (total dims (rfield n dec a b F) - 1) with ((total dims (rfield n dec a b F) - total dims F) + (total dims F - 1)) by ring. eapply Rle_trans; [apply Rabs_triang|].
        assert (8 * eps * total dims F <= 8 * eps * (1 + / 10000)) by (apply Rmult_le_compat_l; lra). lra.
      + assert (He : forall j, (j < length dims)%nat -> - / 8 <= - / 10 <= 0 /\ Rabs (- / 10 - - / 10) <= 0) by (intros j _; rewrite Rminus_eq_0, Rabs_R0; lra).
        pose proof (step_contracts dims down tenths tenths 0 (dims_pos n H1) ltac:(cbn; lia) He F (exact_field n k)) as SC.
        pose proof (rfield_gap F HF') as RG.
        assert (X : gap dims (rfield n dec a b F) (exact_field n (S k)) = gap dims (rfield n dec a b F) (unrounded dims down tenths (exact_field n k))).
        { reflexivity. }
        rewrite X. eapply Rle_trans; [apply (gap_triang dims _ (unrounded dims down tenths F))|].
        assert (102 / 10 * eps * total dims F <= 102 / 10 * eps * (1 + / 10000)) by (apply Rmult_le_compat_l; lra). lra.
  Qed.
End Field.

(** The arrays of the processes and the array the first one gathers *)
Theorem C95_python_mpi psum sz dec n steps :
  sums arD psum -> (1 <= n)%Z -> (n * n * n < 2 ^ 31)%Z -> is_decomp sz [n; n; n] dec -> (0 <= steps < 2 ^ 31)%Z ->
  exists w f r', pm_body arD psum sz dec n steps = Ok w /\ pm_gather arD dec [n; n; n] w = Ok f /\
    up_body arR sqrt n steps false false = Ok r' /\ within f (up_f (ur_up r')) (11 * IZR steps / 2 ^ 53).
Proof.
  intros Hp H1 H2 Hd Hs. destruct (C85_body arD psum sz dec n steps H1 H2 Hd) as (w & Ew & _ & _ & Ef). cbv zeta in Ef.
  destruct (numbers n psum H1 H2 Hp) as (a & b & VA & VB & Ra & Rb & Rab). destruct (cells_number n H1 H2) as [N1 N2].
  destruct (iterated_gap n dec psum H1 H2 a b VA VB Ra Rb Rab (Z.to_nat steps) (steps_bound steps ltac:(lia)) ltac:(rewrite N1; exact N2)) as (F & HF & _ & HG).
  destruct (exact_driver n steps false false H1 H2) as (r' & Er & Efr). eexists w, _, r'. split; [exact Ew|]. split; [exact Ef|]. split; [exact Er|]. rewrite Efr.
  set (dims := [n; n; n]) in *. rewrite INR_IZR_INZ, Z2Nat.id in HG by lia. change (11 * IZR steps / 2 ^ 53) with (11 * IZR steps * eps).
  exists (map F (cells dims)). split; [|split; [rewrite !map_length; reflexivity|]].
  - assert (K : forall g, In g (cells dims) -> double_value (mpi_iter arD (Z.to_nat steps) psum dims dec (repeat (a_ofZ arD 1) 3) (repeat (a_ofZ arD 1) 3) (py_step arD n) (corner (a_ofZ arD 0) (a_ofZ arD 1) dims) g) (F g)) by (intros g Hg; apply HF, in_cells, Hg).
    revert K. generalize (cells dims) as l. induction l as [|g l IH]; intros K; constructor; [apply K; left; reflexivity|]. apply IH. intros h Hh. apply K. right. exact Hh.
  - eapply Rle_trans; [|exact HG]. unfold gap, rsum. generalize (cells dims) as l. induction l as [|g l IH]; cbn [map combine fold_right fst snd]; lra.
Qed.
Print Assumptions C95_python_mpi.

(** The order of the operations depends on the decomposition, the sum on numpy: two runs with different numbers of processes, decompositions and ways of adding up agree within
    22 steps / 2^53, all cells taken together. *)
Theorem C95_processes_agree psum psum' sz sz' dec dec' n steps :
  sums arD psum -> sums arD psum' -> (1 <= n)%Z -> (n * n * n < 2 ^ 31)%Z -> is_decomp sz [n; n; n] dec -> is_decomp sz' [n; n; n] dec' -> (0 <= steps < 2 ^ 31)%Z ->
  exists w f w' f', pm_body arD psum sz dec n steps = Ok w /\ pm_gather arD dec [n; n; n] w = Ok f /\
    pm_body arD psum' sz' dec' n steps = Ok w' /\ pm_gather arD dec' [n; n; n] w' = Ok f' /\ agree f f' (22 * IZR steps / 2 ^ 53).
Proof.
  intros Hp Hp' H1 H2 Hd Hd' Hs. destruct (C95_python_mpi psum sz dec n steps Hp H1 H2 Hd Hs) as (w & f & r & Ew & Ef & Er & W).
  destruct (C95_python_mpi psum' sz' dec' n steps Hp' H1 H2 Hd' Hs) as (w' & f' & r' & Ew' & Ef' & Er' & W'). rewrite Er in Er'. injection Er' as <-.
  exists w, f, w', f'. do 4 (split; [assumption|]). replace (22 * IZR steps / 2 ^ 53) with (11 * IZR steps / 2 ^ 53 + 11 * IZR steps / 2 ^ 53) by field. exact (within_agree _ _ _ _ _ W W').
Qed.
Print Assumptions C95_processes_agree.

(** ** Examples *)

(** One process against four, four cells along each axis, two steps. *)
Example C95_processes_example : let psum l := fold_left (a_add arD) l (a_ofZ arD 0) in
  exists w f w' f', pm_body arD psum 1 [1; 1; 1]%Z 4 2 = Ok w /\ pm_gather arD [1; 1; 1]%Z [4; 4; 4]%Z w = Ok f /\
    pm_body arD psum 4 [1; 2; 2]%Z 4 2 = Ok w' /\ pm_gather arD [1; 2; 2]%Z [4; 4; 4]%Z w' = Ok f' /\ agree f f' (22 * 2 / 2 ^ 53).
Proof.
  apply (C95_processes_agree _ _ 1 4 [1; 1; 1]%Z [1; 2; 2]%Z 4 2); try lia; try apply C76_sums; (split; [reflexivity|]); (split; [|reflexivity]);
    intros [|[|[|j]]] Hj; cbn in Hj; try lia; (split; [cbn; lia|]); [exists 4%Z|exists 4%Z|exists 4%Z|exists 4%Z|exists 2%Z|exists 2%Z]; reflexivity.
Qed.
