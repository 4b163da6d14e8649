(** * The teams of upwindOMP5: exactly when the time loop is free of data races (C47) *)
From Coq Require Import List ZArith Lia Permutation QArith.
From Verif Require Import Cpp UpModel AccModel ParModel ParSpec ParProof Double ParProps.
From Coq Require Import List.
Import ListNotations.
Local Open Scope Z_scope.

(** The time steps 0 .. steps-1 are dealt out to the teams 0 .. T-1. *)
Definition deals (T : nat) (steps : Z) (who : nat -> list nat) : Prop :=
  Permutation (flat_map who (seq 0 T)) (seq 0 (Z.to_nat steps)).

(** No team but [g] has a time step to execute. *)
Definition only_team (T : nat) (who : nat -> list nat) (g : nat) : Prop :=
  forall h, (h < T)%nat -> h <> g -> who h = [].

Lemma only_or_two T (who : nat -> list nat) : (0 < T)%nat ->
  (exists g, (g < T)%nat /\ only_team T who g) \/
  (exists g h, (g < T)%nat /\ (h < T)%nat /\ g <> h /\ who g <> [] /\ who h <> []).
Proof.
  intros HT. induction T as [|T IH]; [lia|]. destruct T as [|T].
  - left. exists O. split; [lia|]. intros h H1 H2. lia.
  - destruct (IH ltac:(lia)) as [(g & Hg & Ho)|(g & h & H1 & H2 & H3 & H4 & H5)].
    + destruct (who (S T)) as [|x l] eqn:E.
      * left. exists g. split; [lia|]. intros h Hh Hne. destruct (Nat.eq_dec h (S T)) as [->|Hd]; [exact E|]. apply Ho; [lia|exact Hne].
      * destruct (who g) as [|y l'] eqn:E'.
        -- left. exists (S T). split; [lia|]. intros h Hh Hne. destruct (Nat.eq_dec h g) as [->|Hd]; [exact E'|]. apply Ho; [lia|exact Hd].
        -- right. exists g, (S T). rewrite E, E'. repeat split; try lia; discriminate.
    + right. exists g, h. repeat split; auto; lia.
Qed.

Lemma only_length (who : nat -> list nat) g : forall n k, (k <= g < k + n)%nat -> (forall h, (k <= h < k + n)%nat -> h <> g -> who h = []) ->
  length (flat_map who (seq k n)) = length (who g).
Proof.
  assert (H0 : forall n k, (forall h, (k <= h < k + n)%nat -> who h = @nil nat) -> flat_map who (seq k n) = []).
  { induction n as [|n IH]; intros k H; [reflexivity|]. cbn [seq flat_map]. rewrite (H k) by lia. apply IH. intros h Hh. apply H. lia. }
  induction n as [|n IH]; intros k Hk Ho; [lia|]. cbn [seq flat_map]. rewrite app_length. destruct (Nat.eq_dec k g) as [->|Hd].
  - rewrite H0; [cbn; lia|]. intros h Hh. apply Ho; lia.
  - rewrite (Ho k) by lia. cbn [length]. apply IH; [lia|]. intros h Hh Hne. apply Ho; [lia|exact Hne].
Qed.

(** One team has all the time steps: every execution is free of races and gives the sequential field. *)
Theorem C47_idle_teams {D} (ar : arith D) N a a' steps dt T who g :
  omp5_advect ar N a steps dt = Ok a' -> deals T steps who -> (g < T)%nat -> only_team T who g ->
  forall s o, run s (omp5_region ar T N a dt who) = Some o ->
    exists c, o = Ok c /\ ~ race c /\ (finished c -> fst (fst c) = ac_f a') /\ (~ finished c -> exists t, turn t c <> None).
Proof.
  intros E Hd Hg Ho s o Hr.
  assert (Hl : length (who g) = Z.to_nat steps).
  { apply Permutation_length in Hd. rewrite seq_length in Hd. rewrite <- Hd. symmetry. apply only_length; [lia|]. intros h Hh Hne. apply Ho; [lia|exact Hne]. }
  unfold omp5_advect in E. destruct (acc_steps ar N a steps dt (ac_f a) (ac_f a)) as [[f old]|] eqn:E2; [|discriminate]. injection E as <-.
  assert (HS : forall w k f0 old0 f1 old1,
     for_from k (length w) (fun _ '(f, old) => old <- acc_copy (ac_ntot a) f old ;; f <- acc_cells ar N a dt old f ;; Ok (f, old)) (f0, old0) = Ok (f1, old1) ->
     alone (fold_right (fun (_ : nat) c => andthen (omp5_step ar N a dt) c) Done w) (f0, old0) = Ok (f1, old1)).
  { induction w as [|x w IH]; intros k f0 old0 f1 old1 E; [exact E|]. cbn [length for_from] in E. cbn [fold_right].
    destruct (acc_copy (ac_ntot a) f0 old0) as [old2|] eqn:E3; [|discriminate]. cbn [bind] in E.
    destruct (acc_cells ar N a dt old2 f0) as [f2|] eqn:E4; [|discriminate]. cbn [bind] in E.
    rewrite alone_then. unfold omp5_step. rewrite alone_then. rewrite copy_for. unfold acc_copy in E3. rewrite E3. cbn [bind].
    rewrite (share_for _ (fun i f => acc_cell ar N a dt old2 i f)) by (intros; apply acc_cell_alone). unfold acc_cells in E4. rewrite E4. cbn [bind].
    apply (IH (S k)). exact E. }
  unfold acc_steps, for_upto in E2. rewrite <- Hl in E2. specialize (HS (who g) _ _ _ _ _ E2).
  set (l := fun g => fold_right (fun (_ : nat) c => andthen (omp5_step ar N a dt) c) Done (who g)) in *.
  change (alone (l g) (ac_f a, ac_f a) = Ok (f, old)) in HS.
  assert (Hany : forall c : cmd D, respects (fun _ => True) (fun _ => False) c) by (induction c; cbn; auto).
  assert (Hnil : forall h, (h < T)%nat -> h <> g -> l h = Done) by (intros h Hh Hne; unfold l; rewrite (Ho h Hh Hne); reflexivity).
  assert (Hc : chain T [l] (ac_f a, ac_f a) (f, old)).
  { cbn [chain]. exists (f, old). split; [|reflexivity]. exists (fun h _ => h = g), (fun _ => False). constructor.
    - intros t Ht. destruct (Nat.eq_dec t g) as [->|Hne]; [|rewrite Hnil by assumption; exact I].
      assert (Hg' : forall c : cmd D, respects (fun _ => g = g) (fun _ => False) c) by (induction c; cbn; auto). apply Hg'.
    - intros t t' b _ _ -> ->. reflexivity.
    - intros ? ? ? ? [].
    - intros b. left. exists g. split; [exact Hg|reflexivity].
    - destruct (alone_frame _ _ _ (Hany (l g)) _ _ HS) as (H & _). exact H.
    - intros t Ht. destruct (Nat.eq_dec t g) as [->|Hne].
      + exists (f, old). split; [exact HS|]. intros; reflexivity.
      + rewrite Hnil by assumption. exists (ac_f a, ac_f a). split; [reflexivity|]. intros b Hb. congruence.
    - intros b Hb. exfalso. apply (Hb g); [exact Hg|reflexivity]. }
  destruct (region_runs T _ _ _ ltac:(lia) Hc s o Hr) as (c & -> & H1 & H2 & H3). exists c. split; [reflexivity|]. split; [exact H1|]. split; [|exact H3].
  intros Hf. rewrite (H2 Hf). reflexivity.
Qed.
Print Assumptions C47_idle_teams.

(** The exact condition: no execution has a data race if and only if one team has all the time steps. *)
Theorem C47_race_free_iff {D} (ar : arith D) N a a' steps dt T who :
  omp5_advect ar N a steps dt = Ok a' -> 0 < ac_ntot a -> ac_f a <> [] -> (0 < T)%nat -> deals T steps who ->
  (forall c, reaches (omp5_region ar T N a dt who) c -> ~ race c) <-> (exists g, (g < T)%nat /\ only_team T who g).
Proof.
  intros E Hn Hf HT Hd. split.
  - intros H. destruct (only_or_two T who HT) as [H1|(g & h & H1 & H2 & H3 & H4 & H5)]; [exact H1|].
    exfalso. destruct (C47_race_refuted ar N a dt T who g h Hn Hf H1 H2 H3 H4 H5) as (c & Hc & Hr). exact (H c Hc Hr).
  - intros (g & Hg & Ho) c (s & Hs). destruct (C47_idle_teams ar N a a' steps dt T who g E Hd Hg Ho s _ Hs) as (c' & Ec & Hr & _).
    injection Ec as <-. exact Hr.
Qed.
Print Assumptions C47_race_free_iff.

(** At most one time step: no data race whatever the number of teams, and the sequential field. *)
Theorem C47_single_step {D} (ar : arith D) N a a' steps dt T who :
  omp5_advect ar N a steps dt = Ok a' -> (0 < T)%nat -> steps <= 1 -> deals T steps who ->
  forall s o, run s (omp5_region ar T N a dt who) = Some o -> exists c, o = Ok c /\ ~ race c /\ (finished c -> fst (fst c) = ac_f a').
Proof.
  intros E HT Hs Hd s o Hr. destruct (only_or_two T who HT) as [(g & Hg & Ho)|(g & h & H1 & H2 & H3 & H4 & H5)].
  - destruct (C47_idle_teams ar N a a' steps dt T who g E Hd Hg Ho s o Hr) as (c & H1 & H2 & H3 & _). eauto.
  - exfalso. pose proof (Permutation_length Hd) as L. rewrite seq_length in L.
    assert (Hin : forall k, (k < T)%nat -> exists l1 l2, seq 0 T = l1 ++ k :: l2).
    { intros k Hk. apply in_split. apply in_seq. lia. }
    assert (Hnd : (2 <= length (flat_map who (seq 0 T)))%nat).
    { destruct (Hin g H1) as (l1 & l2 & El). assert (Hh : In h (l1 ++ l2)).
      { assert (Hh : In h (l1 ++ g :: l2)) by (rewrite <- El; apply in_seq; lia). apply in_app_or in Hh as [Hh|[Hh|Hh]]; [|congruence|]; apply in_or_app; auto. }
      rewrite El, flat_map_app, app_length. cbn [flat_map]. rewrite app_length.
      apply in_app_or in Hh as [Hh|Hh]; apply in_split in Hh as (m1 & m2 & Em); rewrite Em, flat_map_app, app_length; cbn [flat_map]; rewrite app_length;
        destruct (who g); destruct (who h); cbn [length]; try congruence; lia. }
    lia.
Qed.
Print Assumptions C47_single_step.

(** ** Examples *)

(** Four teams; team 2 has the two time steps. *)
Example C47_idle_example :
  exists a a', acc_new arD false 3 (repeat (a_one arD) 3) (repeat (a_one arD) 3) [2; 1; 2] = Ok a /\
    omp5_advect arD 3 a 2 (a_dec arD 5 2) = Ok a' /\ 0 < ac_ntot a /\ ac_f a <> [] /\ ac_f a' <> ac_f a /\
    deals 4 2 (fun g => match g with 2%nat => [0; 1]%nat | _ => [] end) /\ only_team 4 (fun g => match g with 2%nat => [0; 1]%nat | _ => [] end) 2.
Proof.
  eexists _, _. split; [vm_compute; reflexivity|]. split; [vm_compute; reflexivity|]. split; [vm_compute; reflexivity|].
  split; [discriminate|]. split; [vm_compute; discriminate|]. split; [apply Permutation_refl|].
  intros h Hh Hne. destruct h as [|[|[|[|h]]]]; try reflexivity; lia.
Qed.

(** Two teams with one step each do not meet the condition. *)
Example C47_two_teams_example :
  deals 2 2 (fun g => [g]) /\ ~ exists g, (g < 2)%nat /\ only_team 2 (fun g => [g]) g.
Proof.
  split; [apply Permutation_refl|]. intros (g & Hg & Ho). destruct g as [|g]; [specialize (Ho 1%nat)|specialize (Ho 0%nat)]; discriminate Ho; lia.
Qed.
