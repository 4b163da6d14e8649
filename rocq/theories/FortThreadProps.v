(** * The report of the number of threads in the Fortran versions: C89 *)
From Coq Require Import List ZArith Bool Lia Reals Lra String Ascii SpecFloat.
From Verif Require Import Cpp CppProof CmdModel UpModel Ieee Double DblSpec NumModel TextModel TextSpec FortModel FortTextModel FortDbl FortDblProps FortThreadModel.
From Coq Require Import List.
Import ListNotations.
Local Open Scope Z_scope.
Local Arguments Z.of_nat : simpl never.

(** ** A thread by itself *)
Inductive emits : list tinstr -> tvars -> Z * Z -> list tline -> Prop :=
| emits_nil v r : emits [] v r []
| emits_cons i rest v r v' lines code r' out : texec i rest v r = (v', lines, code, r') -> emits code v' r' out -> emits (i :: rest) v r (lines ++ out)%list.

Lemma emits_step i rest v r v' lines code r' out : emits (i :: rest) v r out -> texec i rest v r = (v', lines, code, r') -> exists out', out = (lines ++ out')%list /\ emits code v' r' out'.
Proof.
  intros H E. inversion H as [|i0 rest0 v0 r0 v1 l1 c1 r1 o1 E1 Ho]; subst. rewrite E in E1. injection E1 as <- <- <- <-. exists o1. split; [reflexivity|exact Ho].
Qed.

Lemma emits_code T M t v r : emits (thread_code true T M t) v r (if t =? 0 then [Running; Counts T M] else []).
Proof.
  unfold thread_code. cbn [app]. destruct (Z.eqb_spec t 0) as [->|N].
  - do 6 (refine (emits_cons _ _ _ _ _ [] _ _ _ _ _); [reflexivity|]). refine (emits_cons _ _ _ _ _ [] _ _ _ _ _); [cbn; reflexivity|].
    refine (emits_cons _ _ _ _ _ [Running] _ _ [Counts T M] _ _); [reflexivity|]. refine (emits_cons _ _ _ _ _ [] _ _ _ _ _); [cbn; reflexivity|].
    do 2 (refine (emits_cons _ _ _ _ _ [] _ _ _ _ _); [reflexivity|]). refine (emits_cons _ _ _ _ _ [Counts T M] _ _ [] _ _); [reflexivity|]. constructor.
  - apply Z.eqb_neq in N. do 6 (refine (emits_cons _ _ _ _ _ [] _ _ [] _ _); [reflexivity|]).
    do 2 (refine (emits_cons _ _ _ _ _ [] _ _ [] _ _); [cbn [texec tv_tid]; rewrite N; reflexivity|]). constructor.
Qed.
Lemma emits_serial T M t v r : emits (thread_code false T M t) v r [Counts 1 1].
Proof.
  unfold thread_code. cbn [app]. do 3 (refine (emits_cons _ _ _ _ _ [] _ _ _ _ _); [reflexivity|]). refine (emits_cons _ _ _ _ _ [] _ _ _ _ _); [cbn; reflexivity|].
  do 2 (refine (emits_cons _ _ _ _ _ [] _ _ _ _ _); [reflexivity|]). refine (emits_cons _ _ _ _ _ [Counts 1 1] _ _ [] _ _); [reflexivity|]. constructor.
Qed.

(** ** One thread: nothing is shared *)
Lemma one_thread s s' : tsteps false s s' -> forall x out, ts_threads s = [x] -> emits (th_code x) (ts_vars s) (th_regs x) out -> region_done s' -> ts_out s' = (ts_out s ++ out)%list.
Proof.
  induction 1 as [s|s1 s2 s3 Hst Hrun IH]; intros x out Ex Em Hd.
  - unfold region_done in Hd. rewrite Ex in Hd. inversion Hd as [|y l E _ Q]; subst. rewrite E in Em. inversion Em; subst. rewrite app_nil_r. reflexivity.
  - destruct Hst as [v o l1 l2 i rest r own v' lines code r' E]. cbn [ts_threads ts_vars ts_out] in *.
    assert (L : l1 = [] /\ l2 = []) by (destruct l1 as [|a [|b l1]]; [destruct l2; [auto|discriminate]|discriminate|discriminate]). destruct L as [-> ->]. cbn [app] in *. injection Ex as <-. cbn [th_code th_regs] in Em.
    destruct (emits_step _ _ _ _ _ _ _ _ _ Em E) as (out' & -> & Em'). rewrite (IH _ out' eq_refl Em' Hd). rewrite app_assoc. reflexivity.
Qed.

(** With one thread the report is right and appears once, whatever was in the variables before. *)
Theorem C89_one_thread openmp M v0 regs own s : tsteps false (region_start openmp 1 M v0 regs own) s -> region_done s ->
  ts_out s = if openmp then [Running; Counts 1 M] else [Counts 1 1].
Proof.
  intros H Hd. destruct openmp.
  - exact (one_thread _ _ H _ [Running; Counts 1 M] eq_refl (emits_code 1 M 0 _ _) Hd).
  - exact (one_thread _ _ H _ [Counts 1 1] eq_refl (emits_serial 1 M 0 _ _) Hd).
Qed.
Print Assumptions C89_one_thread.

(** ** Private variables: the report would be right for every number of threads *)
Lemma private_threads s s' : tsteps true s s' -> forall x l out, ts_threads s = x :: l -> emits (th_code x) (th_own x) (th_regs x) out ->
  Forall (fun y => emits (th_code y) (th_own y) (th_regs y) []) l -> region_done s' -> ts_out s' = (ts_out s ++ out)%list.
Proof.
  induction 1 as [s|s1 s2 s3 Hst Hrun IH]; intros x l out Ex Em Hl Hd.
  - unfold region_done in Hd. rewrite Ex in Hd. inversion Hd as [|y l' E _ Q]; subst. rewrite E in Em. inversion Em; subst. rewrite app_nil_r. reflexivity.
  - destruct Hst as [v o l1 l2 i rest r own v' lines code r' E]. cbn [ts_threads ts_vars ts_out] in *. destruct l1 as [|a l1]; cbn [app] in *.
    + injection Ex as <- <-. cbn [th_code th_regs th_own] in Em. destruct (emits_step _ _ _ _ _ _ _ _ _ Em E) as (out' & -> & Em'). rewrite (IH _ _ out' eq_refl Em' Hl Hd). rewrite app_assoc. reflexivity.
    + injection Ex as <- <-. apply Forall_app in Hl as [Hl1 Hl2]. inversion Hl2 as [|y l' Hy Hl2' Q]; subst. cbn [th_code th_regs th_own] in Hy.
      destruct (emits_step _ _ _ _ _ _ _ _ _ Hy E) as (out' & Eo & Em'). symmetry in Eo. apply app_eq_nil in Eo as [-> ->]. rewrite app_nil_r in IH. apply (IH _ _ out eq_refl Em); [|exact Hd].
      apply Forall_app. split; [exact Hl1|]. constructor; [exact Em'|exact Hl2'].
Qed.

Theorem C89_private T M v0 regs own s : (1 <= T)%nat -> tsteps true (region_start true T M v0 regs own) s -> region_done s -> ts_out s = [Running; Counts (Z.of_nat T) M].
Proof.
  intros HT H Hd. destruct T as [|T]; [lia|]. refine (private_threads _ _ H _ _ _ eq_refl (emits_code _ M 0 _ _) _ Hd).
  apply Forall_forall. intros y Hy. apply in_map_iff in Hy as (t & <- & Ht). apply in_seq in Ht. cbn [th_code th_own th_regs].
  pose proof (emits_code (Z.of_nat (S T)) M (Z.of_nat t) own regs) as E. destruct (Z.eqb_spec (Z.of_nat t) 0); [lia|exact E].
Qed.
Print Assumptions C89_private.

(** ** Several threads, as in the source *)
Lemma tsteps_trans p s1 s2 s3 : tsteps p s1 s2 -> tsteps p s2 s3 -> tsteps p s1 s3.
Proof. induction 1; [auto|]. intros. econstructor; eauto. Qed.

(** A thread moves by itself; the others stand still. *)
Inductive solo : tvars * list tline * thr -> tvars * list tline * thr -> Prop :=
| solo_refl c : solo c c
| solo_cons v out i rest r own v' lines code r' c : texec i rest v r = (v', lines, code, r') -> solo (v', (out ++ lines)%list, mkThr code r' own) c -> solo (v, out, mkThr (i :: rest) r own) c.
Lemma solo_frame l1 l2 c c' : solo c c' -> tsteps false (mkTs (fst (fst c)) (snd (fst c)) (l1 ++ snd c :: l2)) (mkTs (fst (fst c')) (snd (fst c')) (l1 ++ snd c' :: l2)).
Proof.
  induction 1 as [c|v out i rest r own v' lines code r' c E H IH]; [constructor|]. cbn [fst snd] in *. eapply tsteps_cons; [|exact IH]. exact (tstep_at false v out l1 l2 i rest r own v' lines code r' E).
Qed.
Lemma solo_run v out x v' out' x' l1 l2 : solo (v, out, x) (v', out', x') -> tsteps false (mkTs v out (l1 ++ x :: l2)) (mkTs v' out' (l1 ++ x' :: l2)).
Proof. exact (solo_frame l1 l2 (v, out, x) (v', out', x')). Qed.

Section Many.
  Variables (T M : Z) (own : tvars).
  Definition begin_ regs (t : Z) := mkThr (thread_code true T M t) regs own.
  Definition mid regs := mkThr [IfTid0 [SayRunning]; IfTid0 [LoadNum; LoadMax; SayCounts]] regs own.
  Definition over regs := mkThr [] regs own.
  Ltac sstep := eapply solo_cons; [cbn; reflexivity|cbn [app]; rewrite ?app_nil_r].

  Lemma solo_set v out regs t : solo (v, out, begin_ regs t) (mkTv T M t, out, mid regs).
  Proof using Type. unfold begin_, mid, thread_code. do 6 sstep. constructor. Qed.
  Lemma solo_silent v out regs : tv_tid v <> 0 -> solo (v, out, mid regs) (v, out, over regs).
  Proof using Type. intros N. apply Z.eqb_neq in N. unfold mid, over. do 2 (eapply solo_cons; [cbn [texec]; rewrite N; reflexivity|rewrite app_nil_r]). constructor. Qed.
  Lemma solo_loud a b out regs : solo (mkTv a b 0, out, mid regs) (mkTv a b 0, (out ++ [Running; Counts a b])%list, over (a, b)).
  Proof using Type. unfold mid, over. sstep. sstep. rewrite ?app_nil_r. do 4 sstep. rewrite <- app_assoc. constructor. Qed.

  (** The threads of a list, one after the other, up to the first test *)
  Lemma all_set ts : forall l1 l2 v out regs last, tsteps false (mkTs v out (l1 ++ map (begin_ regs) (ts ++ [last]) ++ l2)) (mkTs (mkTv T M last) out (l1 ++ map (fun _ => mid regs) (ts ++ [last]) ++ l2)).
  Proof using Type.
    induction ts as [|t ts IH]; intros l1 l2 v out regs last; cbn [app map].
    - apply solo_run, solo_set.
    - eapply tsteps_trans; [eapply solo_run, (solo_set v out regs t)|]. pose proof (IH (l1 ++ [mid regs])%list l2 (mkTv T M t) out regs last) as H. rewrite <- !app_assoc in H. exact H.
  Qed.
  Lemma all_silent {A} (ts : list A) : forall l1 l2 v out regs, tv_tid v <> 0 ->
    tsteps false (mkTs v out (l1 ++ map (fun _ => mid regs) ts ++ l2)) (mkTs v out (l1 ++ map (fun _ => over regs) ts ++ l2)).
  Proof using Type.
    induction ts as [|t ts IH]; intros l1 l2 v out regs N; cbn [app map]; [constructor|].
    eapply tsteps_trans; [eapply solo_run, (solo_silent v out regs N)|]. pose proof (IH (l1 ++ [over regs])%list l2 v out regs N) as H. rewrite <- !app_assoc in H. exact H.
  Qed.
  Lemma all_loud {A} (ts : list A) : forall l1 a b out regs,
    tsteps false (mkTs (mkTv a b 0) out (l1 ++ map (fun _ => mid regs) ts)) (mkTs (mkTv a b 0) (out ++ List.concat (repeat [Running; Counts a b] (List.length ts)))%list (l1 ++ map (fun _ => over (a, b)) ts)).
  Proof using Type.
    induction ts as [|t ts IH]; intros l1 a b out regs; cbn [app map List.length repeat List.concat]; [rewrite !app_nil_r; apply tsteps_refl|].
    eapply tsteps_trans; [eapply solo_run, (solo_loud a b out regs)|]. pose proof (IH (l1 ++ [over (a, b)])%list a b (out ++ [Running; Counts a b])%list regs) as H. rewrite <- !app_assoc in H. exact H.
  Qed.
  Lemma over_done {A} v out r (ts : list A) l : Forall (fun x => th_code x = []) l -> region_done (mkTs v out (l ++ map (fun _ => over r) ts)).
  Proof using Type. intros H. apply Forall_app. split; [exact H|]. apply Forall_forall. intros y Hy. apply in_map_iff in Hy as (? & <- & _). reflexivity. Qed.
End Many.

Lemma start_threads T M regs own : map (fun t => mkThr (thread_code true (Z.of_nat T) M (Z.of_nat t)) regs own) (seq 0 T) = map (begin_ (Z.of_nat T) M own regs) (map Z.of_nat (seq 0 T)).
Proof. rewrite map_map. reflexivity. Qed.

(** Nothing may be printed at all. *)
Theorem C89_silent_refuted T M v0 regs own : (2 <= T)%nat -> exists s, tsteps false (region_start true T M v0 regs own) s /\ region_done s /\ ts_out s = [].
Proof.
  intros HT. unfold region_start. rewrite start_threads. destruct T as [|T]; [lia|]. rewrite seq_S, map_app. cbn [map plus].
  pose proof (all_set (Z.of_nat (S T)) M own (map Z.of_nat (seq 0 T)) [] [] v0 [] regs (Z.of_nat T)) as H1. rewrite !app_nil_r in H1. cbn [app] in H1.
  pose proof (all_silent own (map Z.of_nat (seq 0 T) ++ [Z.of_nat T]) [] [] (mkTv (Z.of_nat (S T)) M (Z.of_nat T)) [] regs ltac:(cbn; lia)) as H2. rewrite !app_nil_r in H2. cbn [app] in H2.
  eexists. split; [eapply tsteps_trans; [exact H1|exact H2]|]. split; [|reflexivity]. refine (over_done own _ _ _ _ [] _). constructor.
Qed.
Print Assumptions C89_silent_refuted.

(** Every thread may print its own copy. *)
Theorem C89_repeated_refuted T M v0 regs own : (1 <= T)%nat -> exists s, tsteps false (region_start true T M v0 regs own) s /\ region_done s /\
  ts_out s = List.concat (repeat [Running; Counts (Z.of_nat T) M] T).
Proof.
  intros HT. unfold region_start. rewrite start_threads. destruct T as [|T]; [lia|]. cbn [seq map].
  set (ids := map Z.of_nat (seq 1 T)). assert (Li : List.length ids = T) by (unfold ids; rewrite map_length, seq_length; reflexivity).
  assert (H1 : exists v, tsteps false (mkTs v0 [] (begin_ (Z.of_nat (S T)) M own regs (Z.of_nat 0) :: map (begin_ (Z.of_nat (S T)) M own regs) ids))
    (mkTs v [] (begin_ (Z.of_nat (S T)) M own regs (Z.of_nat 0) :: map (fun _ => mid own regs) ids))).
  { destruct (List.rev ids) as [|z r] eqn:E.
    - assert (E' : ids = []) by (rewrite <- (rev_involutive ids), E; reflexivity). rewrite E'. exists v0. constructor.
    - assert (E' : ids = (rev r ++ [z])%list) by (rewrite <- (rev_involutive ids), E; reflexivity). rewrite E'. eexists.
      pose proof (all_set (Z.of_nat (S T)) M own (rev r) [begin_ (Z.of_nat (S T)) M own regs (Z.of_nat 0)] [] v0 [] regs z) as H. rewrite !app_nil_r in H. exact H. }
  destruct H1 as (v & H1). pose proof (solo_run _ _ _ _ _ _ [] (map (fun _ => mid own regs) ids) (solo_set (Z.of_nat (S T)) M own v [] regs (Z.of_nat 0))) as H2. cbn [app] in H2. change (Z.of_nat 0) with 0 in *.
  pose proof (all_loud own (0 :: ids) [] (Z.of_nat (S T)) M [] regs) as H3. cbn [app map] in H3.
  eexists. split; [eapply tsteps_trans; [exact H1|eapply tsteps_trans; [exact H2|exact H3]]|]. split.
  - exact (over_done own _ _ (Z.of_nat (S T), M) (0 :: ids) [] (Forall_nil _)).
  - cbn [ts_out List.length]. rewrite Li. reflexivity.
Qed.
Print Assumptions C89_repeated_refuted.

(** The report may say 1 although there are more threads. *)
Theorem C89_wrong_number_refuted T M v0 regs own : (2 <= T)%nat -> exists s, tsteps false (region_start true T M v0 regs own) s /\ region_done s /\ ts_out s = [Running; Counts 1 M].
Proof.
  intros HT. unfold region_start. rewrite start_threads. destruct T as [|[|T]]; [lia|lia|]. cbn [seq map]. set (N := Z.of_nat (S (S T))). set (ids := map Z.of_nat (seq 2 T)).
  set (rest := map (begin_ N M own regs) ids). change (Z.of_nat 0) with 0. change (Z.of_nat 1) with 1.
  set (B1 := mkThr [SetMax 1; SetTid 0; SetNum N; SetMax M; SetTid 1; IfTid0 [SayRunning]; IfTid0 [LoadNum; LoadMax; SayCounts]] regs own).
  assert (A1 : solo (v0, [], begin_ N M own regs 0) (mkTv N M 0, [Running], mkThr [LoadNum; LoadMax; SayCounts] regs own)).
  { unfold begin_, thread_code. do 9 (eapply solo_cons; [cbn; reflexivity|cbn [app]]). constructor. }
  assert (A2 : solo (mkTv N M 0, [Running], begin_ N M own regs 1) (mkTv 1 M 0, [Running], B1)).
  { unfold begin_, thread_code, B1. eapply solo_cons; [cbn; reflexivity|cbn [app]]. constructor. }
  assert (A3 : solo (mkTv 1 M 0, [Running], mkThr [LoadNum; LoadMax; SayCounts] regs own) (mkTv 1 M 0, [Running; Counts 1 M], over own (1, M))).
  { do 3 (eapply solo_cons; [cbn; reflexivity|cbn [app]]). constructor. }
  assert (A4 : solo (mkTv 1 M 0, [Running; Counts 1 M], B1) (mkTv N M 1, [Running; Counts 1 M], mid own regs)).
  { unfold B1, mid. do 5 (eapply solo_cons; [cbn; reflexivity|cbn [app]]). constructor. }
  pose proof (solo_run _ _ _ _ _ _ [] (begin_ N M own regs 1 :: rest) A1) as R1. pose proof (solo_run _ _ _ _ _ _ [mkThr [LoadNum; LoadMax; SayCounts] regs own] rest A2) as R2.
  pose proof (solo_run _ _ _ _ _ _ [] (B1 :: rest) A3) as R3. pose proof (solo_run _ _ _ _ _ _ [over own (1, M)] rest A4) as R4. cbn [app] in R1, R2, R3, R4.
  assert (R5 : exists z, z <> 0 /\ tsteps false (mkTs (mkTv N M 1) [Running; Counts 1 M] (over own (1, M) :: mid own regs :: rest)) (mkTs (mkTv N M z) [Running; Counts 1 M] (over own (1, M) :: mid own regs :: map (fun _ => mid own regs) ids))).
  { unfold rest. destruct (List.rev ids) as [|z r] eqn:E.
    - assert (E' : ids = []) by (rewrite <- (rev_involutive ids), E; reflexivity). rewrite E'. exists 1. split; [lia|constructor].
    - assert (E' : ids = (rev r ++ [z])%list) by (rewrite <- (rev_involutive ids), E; reflexivity). exists z. split.
      + assert (I : In z ids) by (rewrite E'; apply in_or_app; right; left; reflexivity). unfold ids in I. apply in_map_iff in I as (k & <- & I). apply in_seq in I. lia.
      + rewrite E'. pose proof (all_set N M own (rev r) [over own (1, M); mid own regs] [] (mkTv N M 1) [Running; Counts 1 M] regs z) as H. rewrite !app_nil_r in H. exact H. }
  destruct R5 as (z & Hz & R5). pose proof (all_silent own (1 :: ids) [over own (1, M)] [] (mkTv N M z) [Running; Counts 1 M] regs Hz) as R6. rewrite !app_nil_r in R6. cbn [app map] in R6.
  eexists. split; [eapply tsteps_trans; [exact R1|eapply tsteps_trans; [exact R2|eapply tsteps_trans; [exact R3|eapply tsteps_trans; [exact R4|eapply tsteps_trans; [exact R5|exact R6]]]]]|]. split; [|reflexivity].
  exact (over_done own _ _ regs (1 :: ids) [over own (1, M)] ltac:(constructor; [reflexivity|constructor])).
Qed.
Print Assumptions C89_wrong_number_refuted.

(** ** What holds for every execution *)
Definition is_running (l : tline) : bool := match l with Running => true | _ => false end.
Definition is_counts (l : tline) : bool := match l with Counts _ _ => true | _ => false end.
Definition how_many (p : tline -> bool) (out : list tline) : nat := List.length (filter p out).

Section Bounds.
  Variables T M : Z.
  Definition num_ok z := z = 1 \/ z = T.
  Definition max_ok z := z = 1 \/ z = M.
  Definition when (b : bool) (P : Prop) := b = true -> P.

  (** What a thread may still do, knowing which of the two variables and of the two values read are proper *)
  Inductive safe : list tinstr -> bool -> bool -> bool -> bool -> nat -> nat -> Prop :=
  | safe_nil n m a b : safe [] n m a b 0 0
  | safe_num z rest n m a b i j : num_ok z -> safe rest true m a b i j -> safe (SetNum z :: rest) n m a b i j
  | safe_max z rest n m a b i j : max_ok z -> safe rest n true a b i j -> safe (SetMax z :: rest) n m a b i j
  | safe_tid z rest n m a b i j : safe rest n m a b i j -> safe (SetTid z :: rest) n m a b i j
  | safe_if body rest n m a b i j i' j' : safe (body ++ rest)%list n m a b i j -> safe rest n m a b i' j' -> (i' <= i)%nat -> (j' <= j)%nat -> safe (IfTid0 body :: rest) n m a b i j
  | safe_run rest n m a b i j : safe rest n m a b i j -> safe (SayRunning :: rest) n m a b (S i) j
  | safe_loadn rest m a b i j : safe rest true m true b i j -> safe (LoadNum :: rest) true m a b i j
  | safe_loadm rest n a b i j : safe rest n true a true i j -> safe (LoadMax :: rest) n true a b i j
  | safe_say rest n m i j : safe rest n m true true i j -> safe (SayCounts :: rest) n m true true i (S j).

  Definition tame (v : tvars) (x : thr) (k : nat * nat) : Prop :=
    exists n m a b, safe (th_code x) n m a b (fst k) (snd k) /\ when n (num_ok (tv_num v)) /\ when m (max_ok (tv_max v)) /\ when a (num_ok (fst (th_regs x))) /\ when b (max_ok (snd (th_regs x))).

  Lemma tame_later v v' x k : (num_ok (tv_num v) -> num_ok (tv_num v')) -> (max_ok (tv_max v) -> max_ok (tv_max v')) -> tame v x k -> tame v' x k.
  Proof using Type. intros H1 H2 (n & m & a & b & S & A & B & C & D). exists n, m, a, b. unfold when in *. auto 10. Qed.

  Definition line_ok (l : tline) : Prop := match l with Running => True | Counts a b => num_ok a /\ max_ok b end.

  Lemma tame_step v x own i rest r v' lines code r' k : texec i rest v r = (v', lines, code, r') -> tame v (mkThr (i :: rest) r own) k ->
    (num_ok (tv_num v) -> num_ok (tv_num v')) /\ (max_ok (tv_max v) -> max_ok (tv_max v')) /\ Forall line_ok lines /\
    exists k', tame v' (mkThr code r' x) k' /\ (how_many is_running lines + fst k' <= fst k)%nat /\ (how_many is_counts lines + snd k' <= snd k)%nat.
  Proof using Type.
    intros E (n & m & a & b & S & A & B & C & D). destruct k as [ki kj]. cbn [th_code th_regs fst snd] in *.
    inversion S; subst; cbn [texec] in E; injection E as <- <- <- <-; cbn [tv_num tv_max].
    - split; [auto|]. split; [auto|]. split; [constructor|]. exists (ki, kj). split; [|cbn; lia]. exists true, m, a, b. unfold when in *. cbn. auto 10.
    - split; [auto|]. split; [auto|]. split; [constructor|]. exists (ki, kj). split; [|cbn; lia]. exists n, true, a, b. unfold when in *. cbn. auto 10.
    - split; [auto|]. split; [auto|]. split; [constructor|]. exists (ki, kj). split; [|cbn; lia]. exists n, m, a, b. unfold when in *. cbn. auto 10.
    - split; [auto|]. split; [auto|]. split; [constructor|]. destruct (tv_tid v =? 0).
      + exists (ki, kj). split; [|cbn; lia]. exists n, m, a, b. unfold when in *. cbn. auto 10.
      + exists (i', j'). split; [|cbn; lia]. exists n, m, a, b. unfold when in *. cbn. auto 10.
    - split; [auto|]. split; [auto|]. split; [constructor; [exact I|constructor]|]. exists (i0, kj). split; [|cbn; lia]. exists n, m, a, b. unfold when in *. cbn. auto 10.
    - split; [auto|]. split; [auto|]. split; [constructor|]. exists (ki, kj). split; [|cbn; lia]. exists true, m, true, b. unfold when in *. cbn. auto 10.
    - split; [auto|]. split; [auto|]. split; [constructor|]. exists (ki, kj). split; [|cbn; lia]. exists n, true, a, true. unfold when in *. cbn. auto 10.
    - split; [auto|]. split; [auto|]. split; [constructor; [split; [apply C|apply D]; reflexivity|constructor]|]. exists (ki, j). split; [|cbn; lia]. exists n, m, true, true. unfold when in *. cbn. auto 10.
  Qed.

  Definition sum_nat (l : list nat) : nat := fold_right plus O l.
  Lemma sum_nat_app l l' : sum_nat (l ++ l') = (sum_nat l + sum_nat l')%nat.
  Proof using Type. unfold sum_nat. induction l as [|x l IH]; [reflexivity|]. cbn. rewrite IH. lia. Qed.
  Lemma how_many_app p l l' : how_many p (l ++ l') = (how_many p l + how_many p l')%nat.
  Proof using Type. unfold how_many. rewrite filter_app, app_length. reflexivity. Qed.

  Lemma tame_steps s s' : tsteps false s s' -> forall ks, Forall2 (tame (ts_vars s)) (ts_threads s) ks -> Forall line_ok (ts_out s) ->
    Forall line_ok (ts_out s') /\ (how_many is_running (ts_out s') <= how_many is_running (ts_out s) + sum_nat (map fst ks))%nat /\
    (how_many is_counts (ts_out s') <= how_many is_counts (ts_out s) + sum_nat (map snd ks))%nat.
  Proof using Type.
    induction 1 as [s|s1 s2 s3 Hst Hrun IH]; intros ks F O; [split; [exact O|lia]|].
    destruct Hst as [v o l1 l2 i rest r own v' lines code r' E]. cbn [ts_threads ts_vars ts_out] in *.
    apply Forall2_app_inv_l in F as (k1 & k2' & F1 & F2 & ->). inversion F2 as [|? k ? k2 Hx F2' E1 E2]; subst. clear F2.
    destruct (tame_step v own own i rest r v' lines code r' k E Hx) as (P1 & P2 & OL & k' & Hx' & L1 & L2).
    assert (F' : Forall2 (tame v') (l1 ++ mkThr code r' own :: l2) (k1 ++ k' :: k2)).
    { apply Forall2_app; [|constructor; [exact Hx'|]].
      - clear - F1 P1 P2. induction F1; constructor; [apply (tame_later v); assumption|assumption].
      - clear - F2' P1 P2. induction F2'; constructor; [apply (tame_later v); assumption|assumption]. }
    destruct (IH _ F' ltac:(apply Forall_app; split; assumption)) as (Q & Q1 & Q2). split; [exact Q|].
    rewrite how_many_app, !map_app in *. cbn [map] in *. rewrite !sum_nat_app in *. unfold sum_nat in *. cbn [fold_right] in *. lia.
  Qed.

  Lemma safe_code t : safe (thread_code true T M t) false false false false 1 1.
  Proof using Type.
    unfold thread_code. cbn [app]. assert (N1 : num_ok 1) by (left; reflexivity). assert (M1 : max_ok 1) by (left; reflexivity). assert (N2 : num_ok T) by (right; reflexivity). assert (M2 : max_ok M) by (right; reflexivity).
    assert (L : forall a b, safe [IfTid0 [LoadNum; LoadMax; SayCounts]] true true a b 0 1) by (intros a b; apply safe_if with 0%nat 0%nat; [cbn [app]; repeat constructor|constructor|lia|lia]).
    apply safe_num; [exact N1|]. apply safe_max; [exact M1|]. apply safe_tid. apply safe_num; [exact N2|]. apply safe_max; [exact M2|]. apply safe_tid.
    apply safe_if with 0%nat 1%nat; [cbn [app]; apply safe_run, L|apply L|lia|lia].
  Qed.
End Bounds.

(** However the threads are interleaved: each number printed is the right one or 1, and there are at most as many copies
    of each line as threads.  [C89_repeated_refuted] shows that the bound is reached. *)
Theorem C89_any T M v0 regs own s : tsteps false (region_start true T M v0 regs own) s ->
  (forall a b, In (Counts a b) (ts_out s) -> (a = 1 \/ a = Z.of_nat T) /\ (b = 1 \/ b = M)) /\
  (how_many is_running (ts_out s) <= T)%nat /\ (how_many is_counts (ts_out s) <= T)%nat.
Proof.
  intros H. destruct (tame_steps (Z.of_nat T) M _ _ H (map (fun _ => (1, 1)%nat) (seq 0 T))) as (O & A & B).
  - unfold region_start. cbn [ts_threads ts_vars]. induction (seq 0 T) as [|t l IH]; cbn [map]; constructor; [|exact IH].
    exists false, false, false, false. split; [apply safe_code|]. unfold when. repeat split; discriminate.
  - constructor.
  - assert (E : forall l : list nat, sum_nat (map fst (map (fun _ => (1, 1)%nat) l)) = List.length l /\ sum_nat (map snd (map (fun _ => (1, 1)%nat) l)) = List.length l).
    { induction l as [|x l [I1 I2]]; [split; reflexivity|]. unfold sum_nat in *. cbn. rewrite I1, I2. split; reflexivity. }
    destruct (E (seq 0 T)) as [E1 E2]. rewrite seq_length in E1, E2. rewrite E1 in A. rewrite E2 in B. cbn [ts_out region_start] in A, B. split; [|split; [exact A|exact B]].
    intros a b Hin. rewrite Forall_forall in O. exact (O _ Hin).
Qed.
Print Assumptions C89_any.

(** upwindF08Gpu.F90: all threads write the same number, and the line is written once after the region. *)
Theorem C89_gpu T M v0 regs own s : (1 <= T)%nat -> tsteps false (gpu_start T v0 regs own) s -> region_done s ->
  ts_out s = [] /\ gpu_text s M = ("Number of OpenMP threads: " ++ i_edit 4 (Z.of_nat T) ++ " out of a max number: " ++ i_edit 4 M ++ newline)%string.
Proof.
  intros HT H Hd. assert (I : forall s s', tsteps false s s' ->
    Forall (fun x => th_code x = [SetNum (Z.of_nat T)] \/ (th_code x = [] /\ tv_num (ts_vars s) = Z.of_nat T)) (ts_threads s) ->
    Forall (fun x => th_code x = [SetNum (Z.of_nat T)] \/ (th_code x = [] /\ tv_num (ts_vars s') = Z.of_nat T)) (ts_threads s') /\ ts_out s' = ts_out s /\ List.length (ts_threads s') = List.length (ts_threads s)).
  { induction 1 as [s0|s1 s2 s3 Hst Hrun IH]; intros F; [auto|]. destruct Hst as [v o l1 l2 i rest r ow v' lines code r' E]. cbn [ts_threads ts_vars ts_out] in *.
    apply Forall_app in F as [F1 F2]. inversion F2 as [|? ? Hx F2' E1]; subst. cbn [th_code] in Hx. destruct Hx as [Hx|[Hx _]]; [|discriminate]. injection Hx as -> ->. cbn [texec] in E. injection E as <- <- <- <-. cbn [tv_num] in IH.
    destruct IH as (A & B & C).
    - apply Forall_app. split; [|constructor; [right; split; reflexivity|]]; (eapply Forall_impl; [|eassumption]); intros x [Q|[Q _]]; auto.
    - split; [exact A|]. rewrite app_nil_r in B. split; [exact B|]. rewrite C, !app_length. reflexivity. }
  destruct (I _ _ H) as (F & O & L).
  - unfold gpu_start. cbn [ts_threads]. apply Forall_forall. intros x Hx. apply in_map_iff in Hx as (? & <- & _). left. reflexivity.
  - split; [exact O|]. unfold gpu_start in L. cbn [ts_threads] in L. rewrite map_length, seq_length in L. unfold region_done in Hd. destruct (ts_threads s) as [|x l]; [cbn in L; lia|].
    inversion F as [|? ? Hx _ E1]; subst. inversion Hd as [|? ? Hc _ E2]; subst. destruct Hx as [Hx|[_ Hx]]; [congruence|]. unfold gpu_text. rewrite Hx. reflexivity.
Qed.
Print Assumptions C89_gpu.

(** ** Examples *)

(** The three wrong reports of two threads, as text; [C87_program] holds for each of them, since it is for any report. *)
Example C89_examples (v0 : tvars) :
  (exists s, tsteps false (region_start true 2 8 v0 (0, 0) v0) s /\ region_done s /\ report_text (ts_out s) = ""%string) /\
  (exists s, tsteps false (region_start true 2 8 v0 (0, 0) v0) s /\ region_done s /\ report_text (ts_out s) =
    ("Running with OpenMP enabled" ++ newline ++ "number of threads:          2 max number of threads:          8" ++ newline ++
     "Running with OpenMP enabled" ++ newline ++ "number of threads:          2 max number of threads:          8" ++ newline)%string) /\
  (exists s, tsteps false (region_start true 2 8 v0 (0, 0) v0) s /\ region_done s /\ report_text (ts_out s) =
    ("Running with OpenMP enabled" ++ newline ++ "number of threads:          1 max number of threads:          8" ++ newline)%string).
Proof.
  split; [|split].
  - destruct (C89_silent_refuted 2 8 v0 (0, 0) v0 ltac:(lia)) as (s & A & B & E). exists s. rewrite E. auto.
  - destruct (C89_repeated_refuted 2 8 v0 (0, 0) v0 ltac:(lia)) as (s & A & B & E). exists s. rewrite E. split; [exact A|]. split; [exact B|]. vm_compute. reflexivity.
  - destruct (C89_wrong_number_refuted 2 8 v0 (0, 0) v0 ltac:(lia)) as (s & A & B & E). exists s. rewrite E. split; [exact A|]. split; [exact B|]. vm_compute. reflexivity.
Qed.
(** The hypotheses of [C89_one_thread] and of [C89_gpu] are met: a complete execution exists. *)
Example C89_one_example (v0 : tvars) : exists s, tsteps false (region_start true 1 4 v0 (0, 0) v0) s /\ region_done s.
Proof. destruct (C89_repeated_refuted 1 4 v0 (0, 0) v0 ltac:(lia)) as (s & A & B & _). exists s. auto. Qed.
Example C89_gpu_example (v0 : tvars) : exists s, tsteps false (gpu_start 2 v0 (0, 0) v0) s /\ region_done s /\
  gpu_text s 8 = ("Number of OpenMP threads:    2 out of a max number:    8" ++ newline)%string.
Proof.
  eexists. split; [|split].
  - unfold gpu_start. cbn [seq map]. eapply tsteps_cons; [exact (tstep_at false v0 [] [] [mkThr [SetNum 2] (0, 0) v0] (SetNum 2) [] (0, 0) v0 _ _ _ _ eq_refl)|].
    cbn [app]. eapply tsteps_cons; [exact (tstep_at false (mkTv 2 (tv_max v0) (tv_tid v0)) [] [mkThr [] (0, 0) v0] [] (SetNum 2) [] (0, 0) v0 _ _ _ _ eq_refl)|]. apply tsteps_refl.
  - repeat constructor.
  - reflexivity.
Qed.
(** [C89_private] is not vacuous: two threads with private variables, one after the other. *)
Example C89_private_example (v0 : tvars) : exists s, tsteps true (region_start true 2 8 v0 (0, 0) v0) s /\ region_done s.
Proof.
  eexists. split.
  - unfold region_start. cbn [seq map]. unfold thread_code. cbn [app]. change (Z.of_nat 0) with 0. change (Z.of_nat 1) with 1. change (Z.of_nat 2) with 2.
    do 12 (eapply tsteps_cons; [eapply (tstep_at true _ _ []); cbn; reflexivity|cbn [app]]).
    do 8 (eapply tsteps_cons; [eapply (tstep_at true _ _ [_]); cbn; reflexivity|cbn [app]]). apply tsteps_refl.
  - repeat constructor.
Qed.
