(** * Properties C46, C47, C61: parallel executions of the upwind loops *)
From Coq Require Import List ZArith Bool Lia Permutation QArith.
From Verif Require Import Cpp CppProof MaiSpec Radix UpModel AccModel Double LapSpec UpSpec UpProof UpProps AccProps ParModel ParSpec ParProof.
From Coq Require Import List.
Import ListNotations.
Local Open Scope Z_scope.

(** ** C46 *)
Section Omp.
  Context {D : Type} (ar : arith D).

  Lemma up_chain T N (u0 : upwind D) dt who n : forall k f old u',
    (forall s b, (k <= s < k + n)%nat -> shares T (i32 (up_ntot u0)) (who s b)) ->
    for_from k n (fun _ u => up_step ar N u dt) (up_setFields u0 f old) = Ok u' ->
    chain T (up_loops ar N u0 dt who (seq k n)) (f, old) (up_f u', up_oldF u').
  Proof.
    induction n as [|n IH]; intros k f old u' Hw E; cbn [for_from] in E.
    - injection E as <-. destruct u0; reflexivity.
    - unfold up_step in E at 1. cbn [up_setFields up_ntot up_f up_oldF] in E.
      destruct (up_copy (up_ntot u0) f old) as [old1|] eqn:E1; [|discriminate]. cbn [bind] in E.
      destruct (for_upto (i32 (up_ntot u0)) _ f) as [f1|] eqn:E2; [|discriminate]. cbn [bind] in E.
      cbn [seq up_loops flat_map app chain]. fold (up_loops ar N u0 dt who (seq (S k) n)). exists (f, old1). split.
      { apply (loop_good _ OldF copy_respects T (i32 (up_ntot u0))); [apply Hw; lia|]. rewrite copy_for. unfold up_copy in E1. rewrite E1. reflexivity. }
      exists (f1, old1). split.
      { apply (loop_good _ F (up_cell_respects ar N u0 dt) T (i32 (up_ntot u0))); [apply Hw; lia|].
        rewrite (share_for _ (fun i f => up_cell ar N u0 dt old1 i f)) by (intros; apply up_cell_alone).
        match type of E2 with ?l = _ => match goal with |- context [for_upto ?a ?b ?c] => change l with (for_upto a b c) in E2 end end.
        rewrite E2. reflexivity. }
      apply IH; [intros s b Hs; apply Hw; lia|]. exact E.
  Qed.

  Lemma up_loops_bounded N u dt who l : forall lp t, In lp (up_loops ar N u dt who l) -> exists n, atmost n (lp t).
  Proof.
    intros lp t H. apply in_flat_map in H as (s & _ & [<-|[<-|[]]]).
    - eexists. apply (atmost_share _ 2). apply copy_atmost.
    - eexists. apply atmost_share. apply up_cell_atmost.
  Qed.
End Omp.

(** Any number of threads, any assignment of the iterations of each loop to threads, any interleaving of their accesses:
    no access is out of bounds and no data race occurs if the sequential program has no undefined behaviour, and a
    finished execution has computed the same two arrays. *)
Theorem C46_every_schedule {D} (ar : arith D) N u u' steps dt T who :
  up_advect ar N u steps dt = Ok u' -> (0 < T)%nat ->
  (forall s b, (s < Z.to_nat steps)%nat -> shares T (i32 (up_ntot u)) (who s b)) ->
  forall s o, run s (up_region ar T N u steps dt who) = Some o ->
    exists c, o = Ok c /\ ~ race c /\ (finished c -> fst c = (up_f u', up_oldF u')).
Proof.
  intros E HT Hw s o Hr. unfold up_advect, for_upto in E.
  assert (Hc : chain T (up_loops ar N u dt who (seq 0 (Z.to_nat steps))) (up_f u, up_oldF u) (up_f u', up_oldF u')).
  { apply up_chain; [intros; apply Hw; lia|]. destruct u; exact E. }
  destruct (region_runs T _ _ _ HT Hc s o Hr) as (c & -> & H1 & H2 & _). eauto.
Qed.
Print Assumptions C46_every_schedule.

(** No execution can go on for ever or be blocked: it can always be completed. *)
Theorem C46_completes {D} (ar : arith D) N u u' steps dt T who :
  up_advect ar N u steps dt = Ok u' -> (0 < T)%nat ->
  (forall s b, (s < Z.to_nat steps)%nat -> shares T (i32 (up_ntot u)) (who s b)) ->
  (exists n, forall s c, run s (up_region ar T N u steps dt who) = Some (Ok c) -> (length s <= n)%nat) /\
  (forall s c, run s (up_region ar T N u steps dt who) = Some (Ok c) -> exists s' c', run s' c = Some (Ok c') /\ finished c').
Proof.
  intros E HT Hw. unfold up_advect, for_upto in E.
  assert (Hc : chain T (up_loops ar N u dt who (seq 0 (Z.to_nat steps))) (up_f u, up_oldF u) (up_f u', up_oldF u')).
  { apply up_chain; [intros; apply Hw; lia|]. destruct u; exact E. }
  split; [apply region_bounded, up_loops_bounded|]. apply region_completes; [apply up_loops_bounded|].
  intros s o Hr. destruct (region_runs T _ _ _ HT Hc s o Hr) as (c & -> & _ & _ & H). exists c. split; [reflexivity|].
  assert (Hdec : finished c \/ ~ finished c).
  { destruct c as [m ths]. unfold finished. cbn [snd]. clear. induction ths as [|[cm rest] ths IH]; [left; intros ? []|].
    destruct IH as [IH|IH]; [|right; intros H; apply IH; intros th Hth; apply H; right; exact Hth].
    destruct cm; [destruct rest| | |]; [left; intros th [<-|Hth]; auto|right; intros H; specialize (H _ (or_introl eq_refl)); discriminate..]. }
  destruct Hdec; auto.
Qed.
Print Assumptions C46_completes.

(** With the formula of C42: any schedule. *)
Theorem C46_field {D} (ar : arith D) dims v lengths u G steps dt T who :
  up_args dims v lengths -> short_axes dims -> up_object ar dims v lengths u -> holds u dims G -> (0 < T)%nat ->
  (forall s b, (s < Z.to_nat steps)%nat -> shares T (prodZ dims) (who s b)) ->
  forall s o, run s (up_region ar T (vlen dims) u steps dt who) = Some o ->
    exists c, o = Ok c /\ ~ race c /\ (finished c -> fst (fst c) = map (upwind_iter ar (Z.to_nat steps) dims v lengths dt G) (cells dims)).
Proof.
  intros Ha Hsh Hu HG HT Hw s o Hr. destruct (C42_advect ar dims v lengths u G dt steps Ha Hsh Hu HG) as (u' & E & _ & HG').
  assert (Hn : i32 (up_ntot u) = prodZ dims).
  { apply (up_object_of ar _ _ _ _ Ha) in Hu as (f & old & _ & _ & ->). destruct Ha as (Hg & _). pose proof (up_big dims Hg).
    pose proof (prod_range dims H). assert (prodZ dims < 2 ^ 31) by apply Hg. apply i32_id. unfold two31. lia. }
  destruct (C46_every_schedule ar _ _ _ _ _ T who E HT) with (s := s) (o := o) as (c & -> & H1 & H2); auto.
  { intros k b Hk. rewrite Hn. apply Hw, Hk. }
  exists c. split; [reflexivity|]. split; [exact H1|]. intros Hf. rewrite (H2 Hf). exact HG'.
Qed.
Print Assumptions C46_field.

(** ** C61 *)
Section Acc.
  Context {D : Type} (ar : arith D).

  Lemma acc_chain T N (a : accel D) dt who n : forall k f old f' old',
    (forall s b, (k <= s < k + n)%nat -> shares T (ac_ntot a) (who s b)) ->
    for_from k n (fun _ '(f, old) => old <- acc_copy (ac_ntot a) f old ;; f <- acc_cells ar N a dt old f ;; Ok (f, old)) (f, old) = Ok (f', old') ->
    chain T (acc_loops ar N a dt who (seq k n)) (f, old) (f', old').
  Proof.
    induction n as [|n IH]; intros k f old f' old' Hw E; cbn [for_from] in E.
    - injection E as <- <-. reflexivity.
    - destruct (acc_copy (ac_ntot a) f old) as [old1|] eqn:E1; [|discriminate]. cbn [bind] in E.
      destruct (acc_cells ar N a dt old1 f) as [f1|] eqn:E2; [|discriminate]. cbn [bind] in E.
      cbn [seq acc_loops flat_map app chain]. fold (acc_loops ar N a dt who (seq (S k) n)). exists (f, old1). split.
      { apply (loop_good _ OldF copy_respects T (ac_ntot a)); [apply Hw; lia|]. rewrite copy_for. unfold acc_copy in E1. rewrite E1. reflexivity. }
      exists (f1, old1). split.
      { apply (loop_good _ F (acc_cell_respects ar N a dt) T (ac_ntot a)); [apply Hw; lia|].
        rewrite (share_for _ (fun i f => acc_cell ar N a dt old1 i f)) by (intros; apply acc_cell_alone). unfold acc_cells in E2. rewrite E2. reflexivity. }
      apply IH; [intros s b Hs; apply Hw; lia|]. exact E.
  Qed.

  Lemma acc_loops_bounded N a dt who l : forall lp t, In lp (acc_loops ar N a dt who l) -> exists n, atmost n (lp t).
  Proof.
    intros lp t H. apply in_flat_map in H as (s & _ & [<-|[<-|[]]]).
    - eexists. apply (atmost_share _ 2). apply copy_atmost.
    - eexists. apply atmost_share. apply acc_cell_atmost.
  Qed.

  Lemma finished_dec (c : config D) : finished c \/ ~ finished c.
  Proof.
    destruct c as [m ths]. unfold finished. cbn [snd]. clear. induction ths as [|[cm rest] ths IH]; [left; intros ? []|].
    destruct IH as [IH|IH]; [|right; intros H; apply IH; intros th Hth; apply H; right; exact Hth].
    destruct cm; [destruct rest| | |]; [left; intros th [<-|Hth]; auto|right; intros H; specialize (H _ (or_introl eq_refl)); discriminate..].
  Qed.
End Acc.

(** upwindAcc: the kernel. *)
Theorem C61_kernel {D} (ar : arith D) N a a' dt T who :
  acc1_advect ar N a dt = Ok a' -> (0 < T)%nat -> shares T (ac_ntot a) who ->
  (forall s o, run s (acc1_region ar T N a dt who) = Some o -> exists c, o = Ok c /\ ~ race c /\ (finished c -> fst c = (ac_f a', ac_f a))) /\
  (forall s c, run s (acc1_region ar T N a dt who) = Some (Ok c) -> exists s' c', run s' c = Some (Ok c') /\ finished c').
Proof.
  intros E HT Hw. unfold acc1_advect in E. destruct (acc_cells ar N a dt (ac_f a) (ac_f a)) as [f|] eqn:E2; [|discriminate]. injection E as <-.
  assert (Hc : chain T [fun t => share (acc_cell_task ar N a dt) (who t)] (ac_f a, ac_f a) (f, ac_f a)).
  { cbn [chain]. exists (f, ac_f a). split; [|reflexivity]. apply (loop_good _ F (acc_cell_respects ar N a dt) T (ac_ntot a)); [exact Hw|].
    rewrite (share_for _ (fun i g => acc_cell ar N a dt (ac_f a) i g)) by (intros; apply acc_cell_alone). unfold acc_cells in E2. rewrite E2. reflexivity. }
  split.
  - intros s o Hr. destruct (region_runs T _ _ _ HT Hc s o Hr) as (c & -> & H1 & H2 & _). eauto.
  - apply region_completes.
    + intros l t [<-|[]]. eexists. apply atmost_share. apply acc_cell_atmost.
    + intros s o Hr. destruct (region_runs T _ _ _ HT Hc s o Hr) as (c & -> & _ & _ & H). exists c. split; [reflexivity|]. destruct (finished_dec c); auto.
Qed.
Print Assumptions C61_kernel.

(** upwindAcc2: all time steps. *)
Theorem C61_time_steps {D} (ar : arith D) N a a' steps dt T who :
  acc2_advect ar N a steps dt = Ok a' -> (0 < T)%nat -> (forall s b, (s < Z.to_nat steps)%nat -> shares T (ac_ntot a) (who s b)) ->
  (forall s o, run s (acc2_region ar T N a steps dt who) = Some o -> exists c, o = Ok c /\ ~ race c /\ (finished c -> fst c = (ac_f a', ac_fOld a'))) /\
  (forall s c, run s (acc2_region ar T N a steps dt who) = Some (Ok c) -> exists s' c', run s' c = Some (Ok c') /\ finished c').
Proof.
  intros E HT Hw. unfold acc2_advect in E. destruct (acc_steps ar N a steps dt (ac_f a) (ac_fOld a)) as [[f old]|] eqn:E2; [|discriminate]. injection E as <-.
  assert (Hc : chain T (acc_loops ar N a dt who (seq 0 (Z.to_nat steps))) (ac_f a, ac_fOld a) (f, old)).
  { apply acc_chain; [intros; apply Hw; lia|]. exact E2. }
  split.
  - intros s o Hr. destruct (region_runs T _ _ _ HT Hc s o Hr) as (c & -> & H1 & H2 & _). eauto.
  - apply region_completes; [apply acc_loops_bounded|].
    intros s o Hr. destruct (region_runs T _ _ _ HT Hc s o Hr) as (c & -> & _ & _ & H). exists c. split; [reflexivity|]. destruct (finished_dec c); auto.
Qed.
Print Assumptions C61_time_steps.

(** ** C47 *)

(** One team: every execution gives the sequential result. *)
Theorem C47_one_team_partial {D} (ar : arith D) N a a' steps dt who :
  omp5_advect ar N a steps dt = Ok a' -> length (who O) = Z.to_nat steps ->
  forall s o, run s (omp5_region ar 1 N a dt who) = Some o -> exists c, o = Ok c /\ ~ race c /\ (finished c -> fst (fst c) = ac_f a').
Proof.
  intros E Hl s o Hr. unfold omp5_advect in E. destruct (acc_steps ar N a steps dt (ac_f a) (ac_f a)) as [[f old]|] eqn:E2; [|discriminate]. injection E as <-.
  assert (HS : forall w k f0 old0 f1 old1,
     for_from k (length w) (fun _ '(f, old) => old <- acc_copy (ac_ntot a) f old ;; f <- acc_cells ar N a dt old f ;; Ok (f, old)) (f0, old0) = Ok (f1, old1) ->
     alone (fold_right (fun (_ : nat) c => andthen (omp5_step ar N a dt) c) Done w) (f0, old0) = Ok (f1, old1)).
  { induction w as [|x w IH]; intros k f0 old0 f1 old1 E; [exact E|]. cbn [length for_from] in E. cbn [fold_right].
    destruct (acc_copy (ac_ntot a) f0 old0) as [old2|] eqn:E3; [|discriminate]. cbn [bind] in E.
    destruct (acc_cells ar N a dt old2 f0) as [f2|] eqn:E4; [|discriminate]. cbn [bind] in E.
    rewrite alone_then. unfold omp5_step. rewrite alone_then. rewrite copy_for. unfold acc_copy in E3. rewrite E3. cbn [bind].
    rewrite (share_for _ (fun i f => acc_cell ar N a dt old2 i f)) by (intros; apply acc_cell_alone). unfold acc_cells in E4. rewrite E4. cbn [bind].
    apply (IH (S k)). exact E. }
  unfold acc_steps, for_upto in E2. rewrite <- Hl in E2. specialize (HS (who O) _ _ _ _ _ E2).
  set (l := fun g => fold_right (fun (_ : nat) c => andthen (omp5_step ar N a dt) c) Done (who g)) in *.
  change (alone (l O) (ac_f a, ac_f a) = Ok (f, old)) in HS.
  assert (Hany : forall c : cmd D, respects (fun _ => True) (fun _ => False) c) by (induction c; cbn; auto).
  assert (Hc : chain 1 [l] (ac_f a, ac_f a) (f, old)).
  { cbn [chain]. exists (f, old). split; [|reflexivity]. exists (fun _ _ => True), (fun _ => False). constructor.
    - intros; apply Hany.
    - intros; lia.
    - intros ? ? ? ? [].
    - intros b. left. exists O. split; [lia|exact I].
    - destruct (alone_frame _ _ _ (Hany (l O)) _ _ HS) as (H & _). exact H.
    - intros t Ht. replace t with O by lia. exists (f, old). auto.
    - intros b Hb. exfalso. apply (Hb O); [lia|exact I]. }
  destruct (region_runs 1 _ _ _ ltac:(lia) Hc s o Hr) as (c & -> & H1 & H2 & _). exists c. split; [reflexivity|]. split; [exact H1|].
  intros Hf. rewrite (H2 Hf). reflexivity.
Qed.
Print Assumptions C47_one_team_partial.

Lemma run4 {D} (c0 c1 c2 c3 c4 : config D) t1 t2 t3 t4 :
  turn t1 c0 = Some (Ok c1) -> turn t2 c1 = Some (Ok c2) -> turn t3 c2 = Some (Ok c3) -> turn t4 c3 = Some (Ok c4) ->
  run [t1; t2; t3; t4] c0 = Some (Ok c4).
Proof. intros H1 H2 H3 H4. cbn [run]. rewrite H1, H2, H3, H4. reflexivity. Qed.

(** Whenever two teams have time steps to execute, some execution has a data race: both write oldF[0]. *)
Theorem C47_race_refuted {D} (ar : arith D) N a dt T who g g' :
  0 < ac_ntot a -> ac_f a <> [] -> (g < T)%nat -> (g' < T)%nat -> g <> g' -> who g <> [] -> who g' <> [] ->
  exists c, reaches (omp5_region ar T N a dt who) c /\ race c.
Proof.
  intros Hn Hf Hg Hg' Hne Hw Hw'. destruct (ac_f a) as [|x f] eqn:Ef; [congruence|]. clear Hf.
  set (l := fun g => fold_right (fun (_ : nat) c => andthen (omp5_step ar N a dt) c) Done (who g)) in *.
  assert (Hl : forall h, who h <> [] -> exists k, l h = Rd (F, 0) (fun y => Wr (OldF, 0) y k)).
  { intros h Hh. unfold l. destruct (who h) as [|w ws]; [congruence|]. cbn [fold_right]. unfold omp5_step at 1.
    replace (Z.to_nat (ac_ntot a)) with (S (Z.to_nat (ac_ntot a) - 1)) by lia. cbn [seq map share fold_right copy_task andthen]. eexists. reflexivity. }
  destruct (Hl g Hw) as (k & Ek). destruct (Hl g' Hw') as (k' & Ek').
  unfold omp5_region. rewrite Ef. fold l. set (ths0 := (map (fun t => (@Done D, map (fun l => l t) [l])) (seq 0 T)) : list (thread D)).
  assert (L0 : length ths0 = T) by (unfold ths0; rewrite map_length, seq_length; reflexivity).
  assert (E0 : forall t, (t < T)%nat -> nth_error ths0 t = Some (@Done D, [l t])).
  { intros t Ht. unfold ths0. erewrite map_nth_error by (rewrite (nth_error_nth' _ O) by (rewrite seq_length; exact Ht); rewrite seq_nth by exact Ht; reflexivity). reflexivity. }
  assert (A0 : forallb (arrived 1) ths0 = true).
  { apply forallb_forall. intros th Hth. apply In_nth_error in Hth as (t & Et). pose proof (nth_lt _ _ _ Et) as Hlt. rewrite L0 in Hlt.
    rewrite E0 in Et by exact Hlt. injection Et as <-. reflexivity. }
  set (ths1 := upd ths0 g (l g, [])). set (ths2 := upd ths1 g' (l g', [])). set (ths3 := upd ths2 g (Wr (OldF, 0) x k, [])). set (ths4 := upd ths3 g' (Wr (OldF, 0) x k', [])).
  assert (L1 : length ths1 = T) by (unfold ths1; rewrite upd_length; exact L0). assert (L2 : length ths2 = T) by (unfold ths2; rewrite upd_length; exact L1).
  assert (L3 : length ths3 = T) by (unfold ths3; rewrite upd_length; exact L2).
  assert (N1 : (g' =? g)%nat = false) by (apply Nat.eqb_neq; congruence). assert (N2 : (g =? g')%nat = false) by (apply Nat.eqb_neq; congruence).
  assert (A1 : forallb (arrived 1) ths1 = true).
  { apply forallb_forall. intros th Hth. apply In_nth_error in Hth as (t & Et). unfold ths1 in Et. rewrite nth_upd in Et by lia.
    destruct (t =? g)%nat; [injection Et as <-; reflexivity|]. pose proof (nth_lt _ _ _ Et) as Hlt. rewrite L0 in Hlt. rewrite E0 in Et by exact Hlt. injection Et as <-. reflexivity. }
  assert (G : mget (x :: f, x :: f) (F, 0) = Ok x).
  { unfold mget, vget, vlen. cbn [fst snd length]. destruct (Z.ltb_spec 0 (Z.of_nat (S (length f)))); [|lia]. reflexivity. }
  exists ((x :: f, x :: f), ths4). split.
  - exists [g; g'; g; g']. unfold region. fold ths0.
    assert (T0 : turn g (x :: f, x :: f, ths0) = Some (Ok (x :: f, x :: f, ths1))) by (unfold turn; rewrite E0 by exact Hg; cbn [length]; rewrite A0; reflexivity).
    assert (T1 : turn g' (x :: f, x :: f, ths1) = Some (Ok (x :: f, x :: f, ths2))).
    { unfold turn. replace (nth_error ths1 g') with (Some (@Done D, [l g'])) by (unfold ths1; rewrite nth_upd, N1 by lia; symmetry; apply E0; exact Hg').
      cbn [length]. rewrite A1. reflexivity. }
    assert (T2 : turn g (x :: f, x :: f, ths2) = Some (Ok (x :: f, x :: f, ths3))).
    { unfold turn. replace (nth_error ths2 g) with (Some (l g, @nil (cmd D))) by (unfold ths2; rewrite nth_upd, N2 by lia; unfold ths1; rewrite nth_upd, Nat.eqb_refl by lia; reflexivity).
      rewrite Ek, G. reflexivity. }
    assert (T3 : turn g' (x :: f, x :: f, ths3) = Some (Ok (x :: f, x :: f, ths4))).
    { unfold turn. replace (nth_error ths3 g') with (Some (l g', @nil (cmd D))) by (unfold ths3; rewrite nth_upd, N1 by lia; unfold ths2; rewrite nth_upd, Nat.eqb_refl by lia; reflexivity).
      rewrite Ek', G. reflexivity. }
    exact (run4 _ _ _ _ _ _ _ _ _ T0 T1 T2 T3).
  - exists g, g', (Wr (OldF, 0) x k, []), (Wr (OldF, 0) x k', []), (OldF, 0), true, true. cbn [snd]. split; [exact Hne|].
    split; [unfold ths4; rewrite nth_upd, N2 by lia; unfold ths3; rewrite nth_upd, Nat.eqb_refl by lia; reflexivity|].
    split; [unfold ths4; rewrite nth_upd, Nat.eqb_refl by lia; reflexivity|]. split; [reflexivity|]. split; reflexivity.
Qed.
Print Assumptions C47_race_refuted.

(** A complete execution by two teams with a wrong result: two cells per axis, two time steps, double precision. *)
Theorem C47_result_refuted :
  exists a who s c a' dt, acc_new arD false 3 (repeat (a_one arD) 3) (repeat (a_one arD) 3) [2; 2; 2] = Ok a /\
    Permutation (flat_map who (seq 0 2)) (seq 0 2) /\
    run s (omp5_region arD 2 3 a dt who) = Some (Ok c) /\ finished c /\
    omp5_advect arD 3 a 2 dt = Ok a' /\ fst (fst c) <> ac_f a'.
Proof.
  destruct (acc_new arD false 3 (repeat (a_one arD) 3) (repeat (a_one arD) 3) [2; 2; 2]) as [a|] eqn:Ea; [|vm_compute in Ea; discriminate].
  exists a, (fun g => match g with O => [O] | 1%nat => [1%nat] | _ => [] end),
    ([0; 1] ++ repeat 0 16 ++ repeat 1 16 ++ repeat 0 96 ++ repeat 1 96)%nat.
  set (dt := a_dec arD 5 2).
  destruct (run ([0; 1] ++ repeat 0 16 ++ repeat 1 16 ++ repeat 0 96 ++ repeat 1 96)%nat
    (omp5_region arD 2 3 a dt (fun g => match g with O => [O] | 1%nat => [1%nat] | _ => [] end))) as [[c|]|] eqn:Er;
    [|vm_compute in Ea; injection Ea as <-; vm_compute in Er; discriminate..].
  destruct (omp5_advect arD 3 a 2 dt) as [a'|] eqn:Eo; [|vm_compute in Ea; injection Ea as <-; vm_compute in Eo; discriminate].
  exists c, a', dt. vm_compute in Ea; injection Ea as <-. vm_compute in Er. vm_compute in Eo. injection Er as <-. injection Eo as <-.
  split; [reflexivity|]. split; [apply Permutation_refl|]. split; [reflexivity|]. split; [intros th [<-|[<-|[]]]; reflexivity|]. split; [reflexivity|].
  vm_compute. discriminate.
Qed.
Print Assumptions C47_result_refuted.

(** Two threads on a 2 by 3 grid, each with half of the cells: the hypotheses hold and an execution in turns is complete. *)
Definition halves (s : nat) (b : bool) (t : nat) : list Z := match t with O => [0; 1; 2] | 1%nat => [5; 3; 4] | _ => [] end.
Example C46_example :
  exists u u' c, up_new arQ 2 [1%Q; (-2)%Q] [1%Q; 3%Q] [2; 3] = Ok u /\ up_advect arQ 2 u 1 (1 # 8)%Q = Ok u' /\
    (forall s b, shares 2 (i32 (up_ntot u)) (halves s b)) /\
    run (flat_map (fun _ => [0; 1]%nat) (seq 0 32)) (up_region arQ 2 2 u 1 (1 # 8)%Q halves) = Some (Ok c) /\ finished c /\ ~ finished (up_region arQ 2 2 u 1 (1 # 8)%Q halves) /\
    up_f u' <> up_f u.
Proof.
  eexists _, _, _. split; [vm_compute; reflexivity|]. split; [vm_compute; reflexivity|]. split; [|split; [vm_compute; reflexivity|split; [intros th [<-|[<-|[]]]; reflexivity|split]]].
  - intros s b. vm_compute. do 3 apply perm_skip. apply (Permutation_cons_append [3; 4] 5).
  - intros H. specialize (H _ (or_introl eq_refl)). discriminate.
  - vm_compute. discriminate.
Qed.

Example C61_C47_example :
  exists a a' a1, acc_new arD true 3 (repeat (a_one arD) 3) (repeat (a_one arD) 3) [1; 1; 4] = Ok a /\
    acc2_advect arD 3 a 2 (a_dec arD 5 2) = Ok a' /\ acc1_advect arD 3 a (a_dec arD 5 2) = Ok a1 /\
    shares 2 (ac_ntot a) (fun t => match t with O => [0; 2] | 1%nat => [1; 3] | _ => [] end) /\ ac_f a' <> ac_f a /\ 0 < ac_ntot a /\ ac_f a <> [].
Proof.
  eexists _, _, _. split; [vm_compute; reflexivity|]. split; [vm_compute; reflexivity|]. split; [vm_compute; reflexivity|].
  split; [vm_compute; apply perm_skip, perm_swap|]. split; [vm_compute; discriminate|]. split; [vm_compute; reflexivity|discriminate].
Qed.
