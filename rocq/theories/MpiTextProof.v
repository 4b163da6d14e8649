(** * The text of the MPI programs: proofs *)
From Coq Require Import ZArith Lia.
From Verif Require Import Cpp CppProof OMap MaiModel MaiSpec Radix MaiProof CdModel CdSpec CdProof CdProps CmdModel CmdSpec CmdProof CmdProps
  FilterModel FilterSpec FilterProps LapModel UpMpiModel VtkModel DrvSpec DrvProps NumModel NumSpec NumProof TextModel TextSpec TextProof TextRun TextProps MpiTextModel MpiTextSpec.
From Coq Require Import List.
Import ListNotations.
Local Open Scope string_scope.
Local Open Scope Z_scope.
Local Arguments prodZ : simpl never.
Local Arguments Z.of_nat : simpl never.

Lemma ints_blanks l : ints_text l = blanks (map show_int l).
Proof. unfold ints_text. induction l as [|x l IH]; [reflexivity|]. cbn [map texts blanks]. rewrite IH, append_assoc. reflexivity. Qed.

Lemma mapM_get (l : list Z) n : forall k, (k + n = List.length l)%nat ->
  mapM (fun i => vget l i) (map Z.of_nat (seq k n)) = Ok (skipn k l).
Proof.
  induction n as [|n IH]; intros k Hk; cbn [seq map mapM].
  - rewrite skipn_all2 by lia. reflexivity.
  - destruct (nth_error l k) as [x|] eqn:Ex; [|apply nth_error_None in Ex; lia].
    assert (Eg : vget l (Z.of_nat k) = Ok x).
    { unfold vget, vlen. rewrite Nat2Z.id, Ex. destruct ((0 <=? Z.of_nat k) && (Z.of_nat k <? Z.of_nat (List.length l))) eqn:E; [reflexivity|lia]. }
    rewrite Eg. cbn [bind]. rewrite IH by lia. cbn [bind]. f_equal. clear - Ex. revert k Ex. induction l as [|y l IH]; intros [|k] Ex; try discriminate Ex.
    + injection Ex as ->. reflexivity.
    + cbn [skipn]. apply IH, Ex.
Qed.

Lemma ctor_text_valid sz dims : grid_ok dims -> 1 <= sz <= 2 ^ 30 -> decomposable sz dims ->
  exists parts, is_decomp sz dims parts /\
    forall rk, ctor_text rk sz dims = Ok (true, root rk (decomp_report (show_int sz) (map show_int dims) (map show_int parts)), "").
Proof.
  intros Hg Hn Hd. destruct (C05_build_iff_decomposition_exists cd_empty sz dims Hg ltac:(lia)) as (ok & c & E & H).
  assert (ok = true) as -> by (apply H, Hd). pose proof (C06_decomposition_valid cd_empty sz dims c Hg ltac:(lia) E) as Hp.
  exists (cd_getDecomp c). split; [exact Hp|]. intros rk. unfold ctor_text. rewrite E. cbn [bind negb].
  rewrite mapM_get by (destruct Hp as (L & _); rewrite L; reflexivity). cbn [bind skipn].
  unfold root, decomp_report. rewrite !ints_blanks. change line_end with newline.
  destruct (rk =? 0); reflexivity.
Qed.

Lemma ctor_text_invalid rk sz dims : grid_ok dims -> 1 <= sz <= 2 ^ 30 -> ~ decomposable sz dims ->
  ctor_text rk sz dims = Ok (false, "", root rk ("ERROR: No valid domain decomposition could be found. Adjust the number" ++ newline ++
                            "of processes and/or the domain dimensions." ++ newline)).
Proof.
  intros Hg Hn Hd. destruct (C05_build_iff_decomposition_exists cd_empty sz dims Hg ltac:(lia)) as (ok & c & E & H).
  destruct ok; [exfalso; apply Hd, H; reflexivity|]. unfold ctor_text. rewrite E. reflexivity.
Qed.

Lemma map_repeat {A B} (f : A -> B) x n : map f (repeat x n) = repeat (f x) n.
Proof. induction n as [|n IH]; [reflexivity|]. cbn [repeat map]. rewrite IH. reflexivity. Qed.

Lemma nth_ext_vget {A} (l : list A) rk x : 0 <= rk -> nth_error l (Z.to_nat rk) = Some x -> vget l rk = Ok x.
Proof.
  intros Hr E. unfold vget, vlen. rewrite E. assert (Z.to_nat rk < List.length l)%nat by (apply nth_error_Some; congruence).
  destruct ((0 <=? rk) && (rk <? Z.of_nat (List.length l))) eqn:B; [reflexivity|lia].
Qed.

(** One run per rank *)
Lemma per_rank (f : Z -> res run) (g : Z -> run) sz : (forall rk, 0 <= rk < sz -> f rk = Ok (g rk)) ->
  mapM f (map Z.of_nat (seq 0 (Z.to_nat sz))) = Ok (map g (map Z.of_nat (seq 0 (Z.to_nat sz)))).
Proof.
  intros H. apply mapM_ok. intros x Hx. apply in_map_iff in Hx as (i & <- & Hi). apply in_seq in Hi. apply H. lia.
Qed.

Lemma ranks_first (g : Z -> run) sz r s : 1 <= sz -> g 0 = r -> (forall rk, 0 < rk < sz -> g rk = s) ->
  map g (map Z.of_nat (seq 0 (Z.to_nat sz))) = r :: repeat s (Z.to_nat sz - 1).
Proof.
  intros H1 H0 Hs. destruct (Z.to_nat sz) as [|n] eqn:E; [lia|]. cbn [seq map]. rewrite Nat.sub_succ, Nat.sub_0_r.
  change (Z.of_nat 0) with 0. rewrite H0. f_equal.
  assert (Hs' : forall k, (0 < k <= n)%nat -> g (Z.of_nat k) = s) by (intros k Hk; apply Hs; lia). clear - Hs'.
  assert (H : forall a l, (forall k, (a <= k < a + l)%nat -> g (Z.of_nat k) = s) -> map g (map Z.of_nat (seq a l)) = repeat s l).
  { intros a l. revert a. induction l as [|l IH]; intros a Ha; [reflexivity|]. cbn [seq map repeat]. rewrite (Ha a) by lia. f_equal. apply IH. intros k Hk. apply Ha. lia. }
  apply H. intros k Hk. apply Hs'. lia.
Qed.

Lemma ranks_root (g : Z -> run) sz r : 1 <= sz -> g 0 = r -> (forall rk, 0 < rk < sz -> g rk = mkRun "" "" [] 0) ->
  map g (map Z.of_nat (seq 0 (Z.to_nat sz))) = only_root sz r.
Proof.
  exact (ranks_first g sz r (mkRun "" "" [] 0)).
Qed.

Lemma ranks_all r sz : map (fun _ : Z => r : run) (map Z.of_nat (seq 0 (Z.to_nat sz))) = repeat r (Z.to_nat sz).
Proof.
  generalize 0%nat as a. induction (Z.to_nat sz) as [|n IH]; intros a; [reflexivity|]. cbn [seq map repeat]. rewrite IH. reflexivity.
Qed.

Section Programs.
  Context {D : Type} (ar : arith D) (show : D -> string) (reduce : nat -> list D -> D) (times : D * D * D) (atof : string -> D).

  Lemma iters_lines i sums : iters_text show reduce i sums =
    iter_lines i (map (fun p => (show (reduce (2 * (i + fst p)) (fst (snd p))), show (reduce (2 * (i + fst p) + 1) (snd (snd p))))) (combine (seq 0 (List.length sums)) sums)).
  Proof.
    revert i. induction sums as [|[a b] t IH]; intros i; [reflexivity|]. cbn [iters_text List.length seq combine map fst snd iter_lines].
    rewrite IH, Nat.add_0_r. change line_end with newline.
    assert (E : forall (t : list (list D * list D)) l,
      map (fun p => (show (reduce (2 * (S i + fst p)) (fst (snd p))), show (reduce (2 * (S i + fst p) + 1) (snd (snd p))))) (combine l t) =
      map (fun p => (show (reduce (2 * (i + fst p)) (fst (snd p))), show (reduce (2 * (i + fst p) + 1) (snd (snd p))))) (combine (map S l) t)).
    { clear. induction t as [|[a b] t IH]; intros [|n l]; try reflexivity.
      cbn [map combine]. rewrite IH. cbn [fst snd]. replace (S i + n)%nat with (i + S n)%nat by lia. reflexivity. }
    rewrite E, seq_shift. reflexivity.
  Qed.

  Lemma times_eq sz : times_text ar show times sz =
    times_line (show (fst (fst times))) (show (snd (fst times))) (show (a_div ar (snd times) (a_ofZ ar sz))).
  Proof. unfold times_text, times_line. destruct times as [[a b] c]. reflexivity. Qed.

  Lemma outData_lines rk l : outData_text show rk l =
    "[" ++ show_int rk ++ "] outData: " ++ line_end ++ cell_lines (show_int rk) (map (fun p => (map show_int (fst p), show (snd p))) l).
  Proof.
    unfold outData_text. change line_end with newline. do 4 f_equal. induction l as [|[g v] l IH]; [reflexivity|]. cbn [map texts cell_lines fst snd].
    rewrite IH, ints_blanks. change line_end with newline. cbn [append tab]. f_equal.
    repeat (progress (rewrite ?append_assoc; cbn [append])). reflexivity.
  Qed.
End Programs.
