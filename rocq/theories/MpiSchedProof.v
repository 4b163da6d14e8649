(** * Every execution permitted by the fences does what the lock-step execution does *)
From Coq Require Import Arith.
From Verif Require Import Cpp CppProof OMap MpiSchedModel MpiSchedSpec.
Local Open Scope Z_scope.
Local Arguments Z.of_nat : simpl never.

Lemma nth_lt {A} (l : list A) t x : nth_error l t = Some x -> (t < length l)%nat.
Proof. intros H. apply nth_error_Some. congruence. Qed.
Lemma nth_upd {A} (l : list A) t x t' : (t < length l)%nat -> nth_error (upd l t x) t' = if (t' =? t)%nat then Some x else nth_error l t'.
Proof.
  intros H. destruct (Nat.lt_ge_cases t' (length l)) as [H'|H'].
  - rewrite (nth_error_nth' _ x) by (rewrite upd_length; exact H'). rewrite upd_nth by exact H. destruct (t' =? t)%nat; [reflexivity|].
    symmetry. apply nth_error_nth'. exact H'.
  - replace (t' =? t)%nat with false by (symmetry; apply Nat.eqb_neq; lia).
    rewrite (proj2 (nth_error_None _ _)) by (rewrite upd_length; exact H'). symmetry. apply nth_error_None. exact H'.
Qed.

(** ** Counting *)
Fixpoint sum_to (n : nat) (f : nat -> nat) : nat := match n with O => O | S n => (sum_to n f + f n)%nat end.
Lemma sum_to_ext n f g : (forall i, (i < n)%nat -> f i = g i) -> sum_to n f = sum_to n g.
Proof. induction n as [|n IH]; intros H; cbn [sum_to]; [reflexivity|]. rewrite IH by (intros; apply H; lia). rewrite H by lia. reflexivity. Qed.
Lemma sum_to_le n f g : (forall i, (i < n)%nat -> (f i <= g i)%nat) -> (sum_to n f <= sum_to n g)%nat.
Proof.
  induction n as [|n IH]; intros H; cbn [sum_to]; [lia|]. pose proof (IH (fun i Hi => H i ltac:(lia))). pose proof (H n ltac:(lia)). lia.
Qed.
Lemma sum_to_bump n f g r : (r < n)%nat -> g r = S (f r) -> (forall i, i <> r -> g i = f i) -> sum_to n g = S (sum_to n f).
Proof.
  induction n as [|n IH]; intros Hr Hg Hi; [lia|]. cbn [sum_to]. destruct (Nat.eq_dec r n) as [->|Hne].
  - rewrite Hg. rewrite (sum_to_ext n g f) by (intros; apply Hi; lia). lia.
  - rewrite IH by (auto; lia). rewrite (Hi n) by lia. lia.
Qed.

Lemma lockstep_levels {S E V R} (expose : S -> list Z -> res (list E)) ps xs : lockstep (V := V) (R := R) expose ps xs ->
  exists L W m, L O = ps /\
    (forall j, (j < m)%nat -> match W j with Some w => exchange expose w (L j) (L (Datatypes.S j)) | None => exists a, collective a (L j) (L (Datatypes.S j)) end) /\
    L m = map (@Ret S E V R) xs.
Proof.
  induction 1 as [xs|w ps ps' xs Hx _ (L & W & m & H0 & HL & He)|a ps ps' xs Hx _ (L & W & m & H0 & HL & He)].
  - exists (fun _ => map (@Ret S E V R) xs), (fun _ => None), O. split; [reflexivity|]. split; [intros; lia|reflexivity].
  - exists (fun j => match j with O => ps | Datatypes.S j => L j end), (fun j => match j with O => Some w | Datatypes.S j => W j end), (Datatypes.S m).
    split; [reflexivity|]. split; [|exact He]. intros [|j] Hj; [rewrite H0; exact Hx|apply HL; lia].
  - exists (fun j => match j with O => ps | Datatypes.S j => L j end), (fun j => match j with O => None | Datatypes.S j => W j end), (Datatypes.S m).
    split; [reflexivity|]. split; [|exact He]. intros [|j] Hj; [rewrite H0; exists a; exact Hx|apply HL; lia].
Qed.

Section Generic.
  Context {S E V R : Type} (expose : S -> list Z -> res (list E)).
  Notation proc := (proc S E V R).
  Notation rank := (rank S E V R).
  Notation fetch w s t n k := (FenceOpen w s (Get w t n s (FenceClose w s k))).

  (** The rounds of the lock-step execution. *)
  Context (L : nat -> list proc) (W : nat -> option (list Z)) (m : nat) (ss : list R).
  Notation N := (length (L 0)).
  Hypothesis HL : forall j, (j < m)%nat -> match W j with Some w => exchange expose w (L j) (L (Datatypes.S j)) | None => exists a, collective a (L j) (L (Datatypes.S j)) end.
  Hypothesis Hend : L m = map (@Ret S E V R) ss.

  (** The windows of the exchanges before round [j]; the number of collective calls; the collective calls of rank [r]. *)
  Definition pre (j : nat) : list (list Z) := flat_map (fun i => match W i with Some w => [w] | None => [] end) (seq 0 j).
  Definition nc (j : nat) : nat := length (flat_map (fun i => match W i with Some _ => [] | None => [tt] end) (seq 0 j)).
  Definition cpre (r j : nat) : list (call * list V) :=
    flat_map (fun i => match nth_error (L i) r with Some (Coll a v _ _) => [(a, v)] | _ => [] end) (seq 0 j).

  Lemma exch j w : (j < m)%nat -> W j = Some w -> exchange expose w (L j) (L (Datatypes.S j)).
  Proof using HL. intros Hj Hw. specialize (HL j Hj). rewrite Hw in HL. exact HL. Qed.
  Lemma coll j : (j < m)%nat -> W j = None -> exists a, collective a (L j) (L (Datatypes.S j)).
  Proof using HL. intros Hj Hw. specialize (HL j Hj). rewrite Hw in HL. exact HL. Qed.

  Lemma L_length j : (j <= m)%nat -> length (L j) = N.
  Proof using HL.
    induction j as [|j IH]; intros Hj; [reflexivity|]. specialize (HL j ltac:(lia)). destruct (W j) as [w|].
    - rewrite (proj1 HL). apply IH. lia.
    - destruct HL as (a & H & _). rewrite H. apply IH. lia.
  Qed.

  Lemma pre_S j w : W j = Some w -> pre (Datatypes.S j) = pre j ++ [w].
  Proof using Type. intros Hw. unfold pre. rewrite seq_S, flat_map_app. cbn [flat_map Nat.add]. rewrite Hw. reflexivity. Qed.
  Lemma pre_None j : W j = None -> pre (Datatypes.S j) = pre j.
  Proof using Type. intros Hw. unfold pre. rewrite seq_S, flat_map_app. cbn [flat_map Nat.add]. rewrite Hw. apply app_nil_r. Qed.
  Lemma nc_S j : nc (Datatypes.S j) = (nc j + match W j with Some _ => 0 | None => 1 end)%nat.
  Proof using Type. unfold nc. rewrite seq_S, flat_map_app, app_length. cbn [flat_map Nat.add]. destruct (W j); reflexivity. Qed.
  Lemma nc_mono i j : (i <= j)%nat -> (nc i <= nc j)%nat.
  Proof using Type. induction 1 as [|j H IH]; [lia|]. rewrite nc_S. lia. Qed.
  Lemma pre_nc j : (length (pre j) + nc j)%nat = j.
  Proof using Type.
    induction j as [|j IH]; [reflexivity|]. rewrite nc_S. destruct (W j) as [w|] eqn:Ew.
    - rewrite (pre_S j w Ew), app_length. cbn [length]. lia.
    - rewrite (pre_None j Ew). lia.
  Qed.
  Lemma cpre_S r j : cpre r (Datatypes.S j) = cpre r j ++ match nth_error (L j) r with Some (Coll a v _ _) => [(a, v)] | _ => [] end.
  Proof using Type. unfold cpre. rewrite seq_S, flat_map_app. cbn [flat_map Nat.add]. rewrite app_nil_r. reflexivity. Qed.

  Lemma count_S w j : count w (pre (Datatypes.S j)) = (count w (pre j) + match W j with Some w' => if eqw w' w then 1 else 0 | None => 0 end)%nat.
  Proof using Type.
    destruct (W j) as [w'|] eqn:Ew; [|rewrite (pre_None j Ew); lia].
    rewrite (pre_S j w' Ew). unfold count. rewrite count_occ_app. cbn [count_occ]. destruct (eqw w' w); reflexivity.
  Qed.
  Lemma count_mono w i j : (i <= j)%nat -> (count w (pre i) <= count w (pre j))%nat.
  Proof using Type. induction 1 as [|j H IH]; [lia|]. rewrite count_S. lia. Qed.
  Lemma count_self j w : W j = Some w -> count w (pre (Datatypes.S j)) = Datatypes.S (count w (pre j)).
  Proof using Type. intros Hw. rewrite count_S, Hw. destruct (eqw w w); [lia|congruence]. Qed.
  Lemma count_reached j w i : W j = Some w -> (count w (pre (Datatypes.S j)) <= count w (pre i))%nat -> (j < i)%nat.
  Proof using Type.
    intros Hw H. destruct (Nat.lt_ge_cases j i) as [?|Hle]; [assumption|]. exfalso.
    pose proof (count_mono w i j Hle). rewrite (count_self j w Hw) in H. lia.
  Qed.

  (** In a collective round everybody calls, in an exchange nobody does. *)
  Lemma coll_round r j p : (j < m)%nat -> W j = None -> nth_error (L j) r = Some p -> exists a v s k, p = Coll a v s k.
  Proof using HL. intros Hj Hw Hp. destruct (coll j Hj Hw) as (a & _ & n & vs & _ & _ & H). destruct (H r p Hp) as (v & s & k & -> & _). eauto. Qed.
  Lemma exch_round r j w p : (j < m)%nat -> W j = Some w -> nth_error (L j) r = Some p -> exists s t n k, p = fetch w s t n k.
  Proof using HL. intros Hj Hw Hp. destruct (exch j w Hj Hw) as (_ & H). destruct (H r p Hp) as (s & t & n & k & q & st & d & -> & _). eauto. Qed.

  Lemma L_nth r j : (r < N)%nat -> (j <= m)%nat -> exists p, nth_error (L j) r = Some p.
  Proof using HL. intros Hr Hj. destruct (nth_error (L j) r) as [p|] eqn:Ep; [eauto|]. apply nth_error_None in Ep. rewrite L_length in Ep by exact Hj. lia. Qed.

  Lemma cpre_length r j : (r < N)%nat -> (j <= m)%nat -> length (cpre r j) = nc j.
  Proof using HL.
    intros Hr. induction j as [|j IH]; intros Hj; [reflexivity|]. rewrite cpre_S, app_length, nc_S, IH by lia. f_equal.
    destruct (L_nth r j Hr ltac:(lia)) as (p & Hp). rewrite Hp. destruct (W j) as [w|] eqn:Ew.
    - destruct (exch_round r j w p ltac:(lia) Ew Hp) as (? & ? & ? & ? & ->). reflexivity.
    - destruct (coll_round r j p ltac:(lia) Ew Hp) as (? & ? & ? & ? & ->). reflexivity.
  Qed.
  Lemma cpre_nth r j i a v s k : (r < N)%nat -> (j < i)%nat -> (i <= m)%nat -> W j = None -> nth_error (L j) r = Some (Coll a v s k) ->
    nth_error (cpre r i) (nc j) = Some (a, v).
  Proof using HL.
    intros Hr. induction i as [|i IH]; intros Hji Hi Hw Hp; [lia|]. rewrite cpre_S. destruct (Nat.eq_dec j i) as [<-|Hne].
    - rewrite nth_error_app2 by (rewrite cpre_length by lia; lia). rewrite cpre_length by lia. rewrite Nat.sub_diag, Hp. reflexivity.
    - rewrite nth_error_app1; [apply IH; auto; lia|]. rewrite cpre_length by lia. pose proof (nc_mono (Datatypes.S j) i ltac:(lia)) as H.
      rewrite nc_S, Hw in H. lia.
  Qed.

  (** Where a rank is: after [j] rounds, or inside the exchange number [j]. *)
  Inductive at_ (r j : nat) : rank -> Prop :=
  | At0 p : (j <= m)%nat -> nth_error (L j) r = Some p -> at_ r j (mkRank p (pre j) (pre j) None (cpre r j))
  | At1 w s t n k q st d p' :
      (j < m)%nat -> W j = Some w -> nth_error (L j) r = Some (fetch w s t n k) ->
      0 <= t -> nth_error (L j) (Z.to_nat t) = Some q -> memory q = Ok st -> expose st w = Ok d ->
      0 <= n <= vlen d -> nth_error (L (Datatypes.S j)) r = Some p' -> p' = k (firstn (Z.to_nat n) d) ->
      at_ r j (mkRank (Get w t n s (FenceClose w s k)) (pre (Datatypes.S j)) (pre j) None (cpre r j))
  | At2 w s t n k q st d p' buf :
      (j < m)%nat -> W j = Some w -> nth_error (L j) r = Some (fetch w s t n k) ->
      0 <= t -> nth_error (L j) (Z.to_nat t) = Some q -> memory q = Ok st -> expose st w = Ok d ->
      0 <= n <= vlen d -> nth_error (L (Datatypes.S j)) r = Some p' -> p' = k (firstn (Z.to_nat n) d) ->
      length buf = Z.to_nat n -> (forall i v, nth_error buf i = Some (Some v) -> nth_error d i = Some v) ->
      at_ r j (mkRank (FenceClose w s k) (pre (Datatypes.S j)) (pre j) (Some (w, t, buf)) (cpre r j)).

  (** How far ranks [r] and [q] can be from each other: if [q] has gone through the exchange [j], then [r] has called its
      closing fence. *)
  Definition close_to (cl : nat -> nat) (r q : nat) (x : rank) : Prop :=
    forall j w, W j = Some w -> (j < cl q)%nat ->
      (j < cl r)%nat \/ (cl r = j /\ exists t buf, pend x = Some (w, t, buf) /\ (t = Z.of_nat q -> arrived buf = true)).

  Definition inv (cl : nat -> nat) (c : config S E V R) : Prop :=
    length c = N /\
    (forall r x, nth_error c r = Some x -> at_ r (cl r) x) /\
    (forall r q x, nth_error c r = Some x -> (q < N)%nat -> close_to cl r q x).

  Lemma at_le r j x : at_ r j x -> (j <= m)%nat.
  Proof using Type. intros H; inversion H; lia. Qed.
  Lemma at_closes r j x : at_ r j x -> closes x = pre j.
  Proof using Type. intros H; inversion H; reflexivity. Qed.
  Lemma at_colls r j x : at_ r j x -> colls x = cpre r j.
  Proof using Type. intros H; inversion H; reflexivity. Qed.
  Lemma at_lt r j x : at_ r j x -> (r < N)%nat.
  Proof using HL. intros H; inversion H; subst; rewrite <- (L_length j) by lia; eapply nth_lt; eassumption. Qed.
  Lemma at_round r j x : at_ r j x -> (length (closes x) + length (colls x))%nat = j.
  Proof using HL.
    intros H. rewrite (at_closes r j x H), (at_colls r j x H), cpre_length; [apply pre_nc|apply (at_lt r j x H)|apply (at_le r j x H)].
  Qed.
  Lemma at_opens r j x : at_ r j x ->
    opens x = pre j /\ pend x = None /\ nth_error (L j) r = Some (pr x) \/
    opens x = pre (Datatypes.S j) /\ (j < m)%nat /\ exists w s t n k, W j = Some w /\ nth_error (L j) r = Some (fetch w s t n k) /\ memory (pr x) = Ok s.
  Proof using Type.
    intros H; inversion H; subst; simpl; [left; auto|right|right]; (split; [reflexivity|]; split; [assumption|]; eauto 10).
  Qed.

  Lemma start_inv : inv (fun _ => O) (start (L 0)).
  Proof using Type.
    split; [unfold start; rewrite map_length; reflexivity|]. split.
    - intros r x H. unfold start in H. rewrite nth_error_map in H. destruct (nth_error (L 0) r) as [p|] eqn:E0; [|discriminate].
      inversion H; subst. apply (At0 r O p); [lia|exact E0].
    - intros r q x _ _ j w _ Hj. lia.
  Qed.

  (** A rank which has called as many closing fences on [w] as round [j] requires. *)
  Lemma called_at q j w x i : W j = Some w -> at_ q i x -> (count w (pre (Datatypes.S j)) <= called w x)%nat ->
    (j < i)%nat \/ (i = j /\ exists s t n k buf, x = mkRank (FenceClose w s k) (pre (Datatypes.S j)) (pre j) (Some (w, t, buf)) (cpre q j) /\
       (i < m)%nat /\ nth_error (L i) q = Some (fetch w s t n k)).
  Proof using HL Hend.
    intros Hw Ha Hc. destruct (Nat.lt_ge_cases j i) as [?|Hle]; [left; assumption|right].
    pose proof (count_mono w i j Hle) as Hm. rewrite (count_self j w Hw) in Hc. unfold called in Hc. rewrite (at_closes q i x Ha) in Hc.
    inversion Ha; subst; simpl in Hc.
    - destruct (Nat.eq_dec i m) as [->|Hne].
      + rewrite Hend in H0. rewrite nth_error_map in H0. destruct (nth_error ss q); [|discriminate]. inversion H0; subst. simpl in Hc. lia.
      + destruct (W i) as [w'|] eqn:Ew.
        * destruct (exch_round q i w' p ltac:(lia) Ew H0) as (? & ? & ? & ? & ->). simpl in Hc. lia.
        * destruct (coll_round q i p ltac:(lia) Ew H0) as (? & ? & ? & ? & ->). simpl in Hc. lia.
    - lia.
    - destruct (eqw w0 w) as [Ew|]; [|lia]. subst w0.
      assert (i = j) as ->.
      { destruct (Nat.eq_dec i j) as [?|Hne]; [assumption|]. pose proof (count_mono w (Datatypes.S i) j ltac:(lia)) as Hm2.
        rewrite (count_self i w) in Hm2 by assumption. lia. }
      split; [reflexivity|]. exists s, t, n, k, buf. auto.
  Qed.

  (** Who has made the collective call of round [j], and with what. *)
  Lemma contribution_at q i x j : at_ q i x -> (j < m)%nat -> W j = None ->
    (contribution (nc j) x = None /\ (i < j)%nat) \/
    ((j <= i)%nat /\ exists a v s k, nth_error (L j) q = Some (Coll a v s k) /\ contribution (nc j) x = Some (a, v)).
  Proof using HL Hend.
    intros Ha Hj Hw. pose proof (at_lt q i x Ha) as Hq. pose proof (at_le q i x Ha) as Hi. unfold contribution.
    rewrite (at_colls q i x Ha). destruct (Nat.lt_ge_cases i j) as [Hlt|Hge].
    - left. split; [|exact Hlt]. pose proof (nc_mono i j ltac:(lia)) as Hn. rewrite cpre_length by lia.
      rewrite (proj2 (nth_error_None _ _)) by (rewrite cpre_length by lia; lia).
      inversion Ha; subst; cbn [pr]; try reflexivity. destruct p as [| | | | |a v s k]; try reflexivity.
      replace (nc i =? nc j)%nat with false; [reflexivity|]. symmetry. apply Nat.eqb_neq.
      assert (Ew : W i = None).
      { destruct (W i) as [w|] eqn:Ew; [|reflexivity]. destruct (exch_round q i w _ ltac:(lia) Ew H0) as (? & ? & ? & ? & E1). discriminate. }
      pose proof (nc_mono (Datatypes.S i) j ltac:(lia)) as H1. rewrite nc_S, Ew in H1. lia.
    - right. split; [exact Hge|]. destruct (L_nth q j Hq ltac:(lia)) as (p & Hp). destruct (coll_round q j p Hj Hw Hp) as (a & v & s & k & ->).
      exists a, v, s, k. split; [exact Hp|]. destruct (Nat.eq_dec i j) as [->|Hne].
      + rewrite (proj2 (nth_error_None _ _)) by (rewrite cpre_length by lia; lia). rewrite cpre_length by lia. rewrite Nat.eqb_refl.
        inversion Ha; subst; cbn [pr]; try congruence. replace p with (Coll (S := S) (E := E) (R := R) a v s k) by congruence. reflexivity.
      + rewrite (cpre_nth q j i a v s k Hq ltac:(lia) Hi Hw Hp). reflexivity.
  Qed.

  Lemma values_length (buf : list (option E)) : arrived buf = true -> length (values buf) = length buf.
  Proof using Type.
    induction buf as [|[v|] buf IH]; simpl; intros H; [reflexivity| |discriminate]. rewrite IH by exact H. reflexivity.
  Qed.
  Lemma values_all (buf : list (option E)) d : arrived buf = true -> (length buf <= length d)%nat ->
    (forall i v, nth_error buf i = Some (Some v) -> nth_error d i = Some v) -> values buf = firstn (length buf) d.
  Proof using Type.
    revert d. induction buf as [|[v|] buf IH]; simpl; intros d Ha Hl H; [reflexivity| |discriminate].
    destruct d as [|v' d]; [simpl in Hl; lia|]. pose proof (H O v eq_refl) as H0. simpl in H0. inversion H0; subst. cbn [firstn app]. f_equal.
    apply IH; [exact Ha|simpl in Hl; lia|]. intros i u Hi. apply (H (Datatypes.S i) u). exact Hi.
  Qed.
  Lemma arrived_false_ex (buf : list (option E)) : arrived buf = false -> exists i, nth_error buf i = Some None.
  Proof using Type.
    induction buf as [|[v|] buf IH]; simpl; intros H; [discriminate| |exists O; reflexivity].
    destruct (IH H) as (i & Hi). exists (Datatypes.S i). exact Hi.
  Qed.
  Lemma arrived_none (buf : list (option E)) i : nth_error buf i = Some None -> arrived buf = false.
  Proof using Type.
    revert i. induction buf as [|[v|] buf IH]; intros [|i] H; simpl in *; try discriminate; try reflexivity. apply (IH i H).
  Qed.
  Lemma values_upd (buf : list (option E)) i v : nth_error buf i = Some None -> length (values (upd buf i (Some v))) = Datatypes.S (length (values buf)).
  Proof using Type.
    revert i. induction buf as [|[u|] buf IH]; intros [|i] H; simpl in *; try discriminate; try reflexivity; rewrite ?(IH i H); reflexivity.
  Qed.
  Lemma values_le (buf : list (option E)) : (length (values buf) <= length buf)%nat.
  Proof using Type. induction buf as [|[v|] buf IH]; simpl; lia. Qed.

  Definition set_cl (cl : nat -> nat) (r j : nat) : nat -> nat := fun q => if (q =? r)%nat then j else cl q.

  (** When an element of rank [r] can arrive, the target is inside the same exchange. *)
  Lemma arrive_target cl c r x y w t buf i :
    inv cl c -> nth_error c r = Some x -> pend x = Some (w, t, buf) -> nth_error buf i = Some None ->
    nth_error c (Z.to_nat t) = Some y -> (count w (opens x) <= count w (opens y))%nat ->
    W (cl r) = Some w /\ (cl r < m)%nat /\ cl (Z.to_nat t) = cl r /\
    opens y = pre (Datatypes.S (cl r)) /\ closes y = pre (cl r) /\ exists s t' n k,
      nth_error (L (cl r)) (Z.to_nat t) = Some (fetch w s t' n k) /\
      (pr y = Get w t' n s (FenceClose w s k) \/ pr y = FenceClose w s k).
  Proof using HL Hend.
    intros (Hlen & Hat & Hcl) Hx Hp Hi Hy Hc. pose proof (Hat r x Hx) as Ax. pose proof (Hat _ y Hy) as Ay.
    pose proof (nth_lt _ _ _ Hy) as Lt. rewrite Hlen in Lt.
    inversion Ax as [| |w' s t' n k q st d p' buf' A1 A2 A3 A4 A5 A6 A7 A8 A9 A10 A11 A12]; subst x; simpl in Hp; inversion Hp; subst. cbn [opens] in Hc.
    split; [exact A2|]. split; [exact A1|].
    pose proof (count_reached (cl r) w) as HR.
    assert (Hle : ~ (cl r < cl (Z.to_nat t))%nat).
    { intros Hlt. destruct (Hcl r (Z.to_nat t) _ Hx Lt (cl r) w A2 Hlt) as [?|(_ & t1 & buf1 & E1 & H1)]; [lia|].
      simpl in E1. inversion E1; subst t1 buf1. pose proof (arrived_none _ _ Hi) as H2. rewrite H1 in H2 by lia. discriminate. }
    assert (Et : cl (Z.to_nat t) = cl r /\ opens y = pre (Datatypes.S (cl r))).
    { destruct (at_opens _ _ _ Ay) as [(Eo & _)|(Eo & _)]; rewrite Eo in Hc; apply (HR _ A2) in Hc; [lia|].
      assert (cl (Z.to_nat t) = cl r) as E' by lia. rewrite E' in Eo. auto. }
    destruct Et as (Et & Eo). split; [exact Et|]. split; [exact Eo|].
    rewrite Et in Ay. split; [apply (at_closes _ _ _ Ay)|].
    inversion Ay; subst.
    - cbn [opens] in Eo. exfalso. rewrite (pre_S _ _ A2) in Eo. apply (f_equal (@length _)) in Eo. rewrite app_length in Eo. simpl in Eo. lia.
    - replace w0 with w in * by congruence. exists s0, t0, n0, k0. split; [assumption|]. left. reflexivity.
    - replace w0 with w in * by congruence. exists s0, t0, n0, k0. split; [assumption|]. right. reflexivity.
  Qed.

  (** A collective call of rank [r] in round [j]: what it sees of the others. *)
  Lemma coll_view cl c r j a v s k :
    inv cl c -> (j < m)%nat -> W j = None -> nth_error (L j) r = Some (Coll a v s k) ->
    forallb (agrees a) (others c (nc j)) = true /\
    (forallb sent (others c (nc j)) = true <-> forall q, (q < N)%nat -> (j <= cl q)%nat) /\
    exists p', nth_error (L (Datatypes.S j)) r = Some p' /\
      (receives a && (r =? 0)%nat = false -> p' = k []) /\
      (receives a && (r =? 0)%nat = true -> forallb sent (others c (nc j)) = true ->
         forallb (fun o => (length (payload o) =? length v)%nat) (others c (nc j)) = true /\ p' = k (map payload (others c (nc j)))).
  Proof using HL Hend.
    intros (Hlen & Hat & Hcl) Hj Hw Hr.
    destruct (coll j Hj Hw) as (a' & Hl' & n & vs & Hvl & Hvn & HC). destruct (HC r _ Hr) as (v' & s' & k' & E' & Hv' & Hp'). inversion E'; subst a' v' s' k'. clear E'.
    assert (Hq : forall q x, nth_error c q = Some x ->
              contribution (nc j) x = None /\ (cl q < j)%nat \/
              (j <= cl q)%nat /\ exists vq, nth_error vs q = Some vq /\ contribution (nc j) x = Some (a, vq)).
    { intros q x Ex. destruct (contribution_at q (cl q) x j (Hat q x Ex) Hj Hw) as [H|(H1 & aq & vq & sq & kq & H2 & H3)]; [left; exact H|right].
      split; [exact H1|]. destruct (HC q _ H2) as (v2 & s2 & k2 & E2 & Hv2 & _). inversion E2; subst. eauto. }
    split.
    { apply forallb_forall. intros o Ho. unfold others in Ho. apply in_map_iff in Ho as (x & <- & Hx). apply In_nth_error in Hx as (q & Ex).
      destruct (Hq q x Ex) as [(-> & _)|(_ & vq & _ & ->)]; [reflexivity|]. simpl. destruct (eqc a a); congruence. }
    split.
    { rewrite forallb_forall. split.
      - intros H q Lq. destruct (nth_error c q) as [x|] eqn:Ex; [|apply nth_error_None in Ex; lia].
        specialize (H (contribution (nc j) x) ltac:(unfold others; apply in_map; apply (nth_error_In _ _ Ex))).
        destruct (Hq q x Ex) as [(E1 & _)|(H1 & _)]; [rewrite E1 in H; discriminate|exact H1].
      - intros H o Ho. unfold others in Ho. apply in_map_iff in Ho as (x & <- & Hx). apply In_nth_error in Hx as (q & Ex).
        destruct (Hq q x Ex) as [(_ & E1)|(_ & vq & _ & ->)]; [|reflexivity]. pose proof (nth_lt _ _ _ Ex). specialize (H q ltac:(lia)). lia. }
    exists (k (if receives a && (r =? 0)%nat then vs else [])). split; [exact Hp'|]. split; [intros ->; reflexivity|].
    intros Erc Hs. rewrite Erc. rewrite forallb_forall in Hs.
    assert (Hlj : length (L j) = N) by (apply L_length; lia).
    assert (Em : map payload (others c (nc j)) = vs).
    { assert (Hext : forall (l1 l2 : list (list V)), length l1 = length l2 -> (forall i x, nth_error l1 i = Some x -> nth_error l2 i = Some x) -> l1 = l2).
      { clear. induction l1 as [|b l1 IH]; intros [|b' l2] Hl H; try discriminate; [reflexivity|]. pose proof (H O b eq_refl) as H0. simpl in H0.
        inversion H0; subst. f_equal. apply IH; [simpl in Hl; congruence|]. intros i x Hi. apply (H (Datatypes.S i) x Hi). }
      apply Hext; [unfold others; rewrite !map_length; lia|]. intros q o Ho. unfold others in Ho. rewrite map_map, nth_error_map in Ho.
      destruct (nth_error c q) as [x|] eqn:Ex; [|discriminate]. inversion Ho; subst o.
      specialize (Hs (contribution (nc j) x) ltac:(unfold others; apply in_map; apply (nth_error_In _ _ Ex))).
      destruct (Hq q x Ex) as [(E1 & _)|(_ & vq & Hvq & ->)]; [rewrite E1 in Hs; discriminate|]. exact Hvq. }
    rewrite Em. split; [|reflexivity]. apply andb_true_iff in Erc as (Erc & _).
    apply forallb_forall. intros o Ho. apply Nat.eqb_eq.
    rewrite (Hvn v (nth_error_In _ _ Hv') Erc). apply Hvn; [|exact Erc]. rewrite <- Em. apply in_map. exact Ho.
  Qed.

  (** Every possible event leads to a state of the same kind. *)
  Lemma turn_inv cl c ev r : inv cl c -> turn expose ev c = Some r -> exists c' cl', r = Ok c' /\ inv cl' c'.
  Proof using HL Hend.
    intros HI Ht. pose proof HI as (Hlen & Hat & Hcl). destruct ev as [r0|r0 i]; simpl in Ht.
    - destruct (nth_error c r0) as [x|] eqn:Ex; [|discriminate]. pose proof (Hat r0 x Ex) as Ax. pose proof (nth_lt _ _ _ Ex) as Lt.
      assert (Keep : forall x', at_ r0 (cl r0) x' -> (forall q j w, (q < N)%nat -> W j = Some w -> (j < cl q)%nat -> (j < cl r0)%nat) -> inv cl (upd c r0 x')).
      { intros x' Ax' Hq. split; [rewrite upd_length; exact Hlen|]. split.
        - intros r' y Hy. rewrite nth_upd in Hy by exact Lt. destruct (Nat.eqb_spec r' r0) as [->|Hne]; [inversion Hy; subst; exact Ax'|auto].
        - intros r' q y Hy Lq. rewrite nth_upd in Hy by exact Lt. destruct (Nat.eqb_spec r' r0) as [->|Hne]; [|eauto].
          intros j w Hw Hj. left. eauto. }
      assert (NoPend : pend x = None -> forall q j w, (q < N)%nat -> W j = Some w -> (j < cl q)%nat -> (j < cl r0)%nat).
      { intros E1 q j w Lq Hw Hj. destruct (Hcl r0 q _ Ex Lq j w Hw Hj) as [?|(_ & ? & ? & E2 & _)]; [assumption|]. congruence. }
      inversion Ax; subst x.
      + (* before a call *)
        specialize (NoPend eq_refl). cbn [pr opens closes pend colls] in Ht. destruct (Nat.eq_dec (cl r0) m) as [Em|Hne].
        * rewrite Em, Hend, nth_error_map in H0. destruct (nth_error ss r0); [|discriminate]. inversion H0; subst. discriminate.
        * destruct (W (cl r0)) as [w|] eqn:Ew.
          -- destruct (exch (cl r0) w ltac:(lia) Ew) as (HlenE & HE). destruct (HE r0 p H0) as (s & t & n & k & q & st & d & -> & A1 & A2 & A3 & A4 & A5 & A6).
             inversion Ht; subst r. eexists _, cl. split; [reflexivity|]. apply Keep; [|exact NoPend]. rewrite <- (pre_S _ _ Ew).
             eapply At1; eauto. lia.
          -- destruct (coll_round r0 (cl r0) p ltac:(lia) Ew H0) as (a & v & s & k & ->).
             destruct (coll_view cl c r0 (cl r0) a v s k HI ltac:(lia) Ew H0) as (V1 & V2 & p' & V3 & V4 & V5).
             pose proof (cpre_length r0 (cl r0) (at_lt _ _ _ Ax) H) as Enc. rewrite Enc, V1 in Ht. cbn [negb] in Ht.
             assert (Next : forall x', x' = mkRank p' (pre (cl r0)) (pre (cl r0)) None (cpre r0 (cl r0) ++ [(a, v)]) -> inv (set_cl cl r0 (Datatypes.S (cl r0))) (upd c r0 x')).
             { intros x' ->. split; [rewrite upd_length; exact Hlen|]. split.
               - intros r' y Hy. rewrite nth_upd in Hy by exact Lt. unfold set_cl. destruct (Nat.eqb_spec r' r0) as [->|Hne']; [|auto].
                 inversion Hy; subst y. rewrite <- (pre_None _ Ew).
                 replace (cpre r0 (cl r0) ++ [(a, v)]) with (cpre r0 (Datatypes.S (cl r0))) by (rewrite cpre_S, H0; reflexivity).
                 apply At0; [lia|exact V3].
               - intros r' q y Hy Lq j w Hw Hj. rewrite nth_upd in Hy by exact Lt. unfold set_cl in *.
                 assert (Hj' : (j < cl q)%nat).
                 { destruct (Nat.eqb_spec q r0) as [->|]; [|exact Hj]. destruct (Nat.eq_dec j (cl r0)) as [->|]; [congruence|lia]. }
                 destruct (Nat.eqb_spec r' r0) as [->|Hne']; [left; pose proof (NoPend q j w Lq Hw Hj'); lia|].
                 exact (Hcl r' q y Hy Lq j w Hw Hj'). }
             destruct (receives a && (r0 =? 0)%nat) eqn:Erc.
             ++ destruct (forallb sent (others c (nc (cl r0)))) eqn:Es; [|discriminate].
                destruct (V5 eq_refl eq_refl) as (V6 & V7). rewrite V6 in Ht. inversion Ht; subst r.
                eexists _, _. split; [reflexivity|]. apply Next. rewrite V7. reflexivity.
             ++ inversion Ht; subst r. eexists _, _. split; [reflexivity|]. apply Next. rewrite (V4 eq_refl). reflexivity.
      + (* MPI_Get *)
        specialize (NoPend eq_refl). simpl in Ht.
        replace ((0 <=? t) && (t <? Z.of_nat (length c))) with true in Ht.
        2:{ symmetry. apply andb_true_iff. split; [apply Z.leb_le; assumption|]. apply Z.ltb_lt. pose proof (nth_lt _ _ _ H3) as Lt2.
            rewrite L_length in Lt2 by lia. rewrite Hlen. lia. }
        simpl in Ht. inversion Ht; subst r. eexists _, cl. split; [reflexivity|]. apply Keep; [|exact NoPend].
        eapply At2; eauto; [apply repeat_length|]. intros i v Hi. exfalso. apply nth_error_In in Hi. apply repeat_spec in Hi. discriminate.
      + (* closing fence *)
        cbn [pr] in Ht. destruct (may_close c r0 w _) eqn:Em; [|discriminate]. inversion Ht; subst r. clear Ht NoPend.
        unfold may_close in Em. cbn [pend opens] in Em. apply andb_true_iff in Em as (Ha & Hall). rewrite forallb_forall in Hall.
        eexists _, (set_cl cl r0 (Datatypes.S (cl r0))). split; [reflexivity|]. cbn [pend opens closes colls].
        assert (Hval : values buf = firstn (Z.to_nat n) d).
        { rewrite <- H9. apply values_all; [exact Ha| |exact H10]. unfold vlen in H6. lia. }
        split; [rewrite upd_length; exact Hlen|]. split.
        * intros r' y Hy. rewrite nth_upd in Hy by exact Lt. unfold set_cl. destruct (Nat.eqb_spec r' r0) as [->|Hne]; [|auto].
          inversion Hy; subst y. rewrite Hval, <- (pre_S _ _ H0).
          replace (cpre r0 (cl r0)) with (cpre r0 (Datatypes.S (cl r0))) by (rewrite cpre_S, H1; apply app_nil_r).
          apply At0; [lia|]. rewrite H7. f_equal. assumption.
        * intros r' q0 y Hy Lq j w' Hw Hj. rewrite nth_upd in Hy by exact Lt. unfold set_cl in *. destruct (Nat.eqb_spec r' r0) as [->|Hne].
          -- left. destruct (Nat.eqb_spec q0 r0) as [->|Hne2]; [lia|]. destruct (Hcl r0 q0 _ Ex Lq j w' Hw Hj) as [?|(? & _)]; lia.
          -- destruct (Nat.eqb_spec q0 r0) as [->|Hne2]; [|exact (Hcl r' q0 y Hy Lq j w' Hw Hj)].
             destruct (Nat.eq_dec j (cl r0)) as [->|Hnj]; [|apply (Hcl r' r0 y Hy Lq j w' Hw); lia].
             assert (w' = w) as -> by congruence.
             pose proof (Hall y (nth_error_In _ _ Hy)) as Hc. apply andb_true_iff in Hc as (Hc & Hr). apply Nat.leb_le in Hc.
             destruct (called_at r' (cl r0) w y (cl r') H0 (Hat r' y Hy) Hc) as [Hj'|(Ej & s' & t' & n' & k' & buf' & -> & _)]; [left; exact Hj'|].
             right. split; [lia|]. exists t', buf'. split; [reflexivity|]. intros ->.
             apply negb_true_iff in Hr. unfold reads in Hr. cbn [pend opens] in Hr. destruct (eqw w w); [|congruence].
             rewrite Z.eqb_refl, Nat.leb_refl in Hr. destruct (arrived buf'); [reflexivity|discriminate].
    - destruct (nth_error c r0) as [x|] eqn:Ex; [|discriminate]. destruct (pend x) as [[[w t] buf]|] eqn:Ep; [|discriminate].
      destruct (nth_error buf i) as [[v|]|] eqn:Ei; try discriminate. destruct (nth_error c (Z.to_nat t)) as [y|] eqn:Ey; [|discriminate].
      destruct (Nat.leb_spec (count w (opens x)) (count w (opens y))) as [Hc|]; [|discriminate].
      destruct (arrive_target cl c r0 x y w t buf i HI Ex Ep Ei Ey Hc) as (Ew & Hm & Et & Eo & _ & s' & t' & n' & k' & Eq & Epr).
      pose proof (Hat r0 x Ex) as Ax. pose proof (nth_lt _ _ _ Ex) as Lt.
      inversion Ax as [| |w1 s t1 n k q st d p' buf1 B1 B2 B3 B4 B5 B6 B7 B8 B9 B10 B11 B12]; subst x; simpl in Ep; inversion Ep; subst.
      assert (Hmem : memory (pr y) = Ok st).
      { rewrite B5 in Eq. inversion Eq; subst q. simpl in B6. rewrite <- B6. destruct Epr as [->| ->]; reflexivity. }
      rewrite Hmem in Ht. cbn [bind] in Ht. rewrite B7 in Ht. cbn [bind] in Ht.
      assert (Li : (i < Z.to_nat n)%nat) by (rewrite <- B11; apply (nth_lt _ _ _ Ei)).
      destruct (nth_error d i) as [v|] eqn:Ev; [|apply nth_error_None in Ev; unfold vlen in B8; lia].
      inversion Ht; subst r. eexists _, cl. split; [reflexivity|]. cbn [pr opens closes colls].
      split; [rewrite upd_length; exact Hlen|]. split.
      + intros r' z Hz. rewrite nth_upd in Hz by exact Lt. destruct (Nat.eqb_spec r' r0) as [->|Hne]; [|auto]. inversion Hz; subst z.
        eapply At2; eauto; [rewrite upd_length; exact B11|]. intros i' v' Hi'. rewrite nth_upd in Hi' by (apply (nth_lt _ _ _ Ei)).
        destruct (Nat.eqb_spec i' i) as [->|Hne]; [|auto]. inversion Hi'; subst v'. exact Ev.
      + intros r' q0 z Hz Lq. rewrite nth_upd in Hz by exact Lt. destruct (Nat.eqb_spec r' r0) as [->|Hne]; [|exact (Hcl r' q0 z Hz Lq)].
        inversion Hz; subst z. intros j w' Hw Hj. destruct (Hcl r0 q0 _ Ex Lq j w' Hw Hj) as [Hle|(Hs & t2 & buf2 & E1 & H1')]; [left; exact Hle|].
        simpl in E1. inversion E1; subst w' t2 buf2. right. split; [exact Hs|]. exists t. eexists. split; [reflexivity|].
        intros Etq. exfalso. rewrite Etq, Nat2Z.id in Et. lia.
  Qed.

  (** The number of events so far. *)
  Definition cost (r j : nat) : nat :=
    match nth_error (L j) r with Some (FenceOpen _ _ (Get _ _ n _ _)) => (3 + Z.to_nat n)%nat | _ => 1%nat end.
  Definition done (r : nat) (x : rank) : nat :=
    (sum_to (length (closes x) + length (colls x)) (cost r) + (length (opens x) - length (closes x)) +
     match pend x with Some (_, _, buf) => Datatypes.S (length (values buf)) | None => 0 end)%nat.
  Definition events (c : config S E V R) : nat := sum_to N (fun r => match nth_error c r with Some x => done r x | None => O end).
  Definition all_events : nat := sum_to N (fun r => sum_to m (cost r)).

  Lemma sum_to_mono f i j : (i <= j)%nat -> (sum_to i f <= sum_to j f)%nat.
  Proof using Type. induction 1; cbn [sum_to]; lia. Qed.

  Lemma done_le r j x : at_ r j x -> (done r x <= sum_to m (cost r))%nat.
  Proof using HL.
    intros H. unfold done. rewrite (at_round r j x H). inversion H; subst; cbn [opens closes pend colls].
    - pose proof (sum_to_mono (cost r) j m ltac:(assumption)). lia.
    - pose proof (sum_to_mono (cost r) (Datatypes.S j) m ltac:(lia)) as Hm. cbn [sum_to] in Hm. unfold cost in Hm at 2. rewrite H2 in Hm.
      rewrite (pre_S j w H1), app_length. cbn [length]. lia.
    - pose proof (sum_to_mono (cost r) (Datatypes.S j) m ltac:(lia)) as Hm. cbn [sum_to] in Hm. unfold cost in Hm at 2. rewrite H2 in Hm.
      rewrite (pre_S j w H1), app_length. cbn [length]. pose proof (values_le buf). lia.
  Qed.

  Lemma events_le cl c : inv cl c -> (events c <= all_events)%nat.
  Proof using HL.
    intros (Hlen & Hat & _). apply sum_to_le. intros r Hr. destruct (nth_error c r) as [x|] eqn:Ex; [|lia]. apply (done_le r (cl r)), Hat, Ex.
  Qed.

  Lemma turn_counts cl c ev c' : inv cl c -> turn expose ev c = Some (Ok c') -> events c' = Datatypes.S (events c).
  Proof using HL Hend.
    intros HI Ht. pose proof HI as (Hlen & Hat & Hcl).
    assert (Step : forall r x x', nth_error c r = Some x -> done r x' = Datatypes.S (done r x) -> c' = upd c r x' -> events c' = Datatypes.S (events c)).
    { intros r x x' Ex Hd ->. pose proof (nth_lt _ _ _ Ex) as Lt. apply (sum_to_bump N _ _ r); [lia| |].
      - rewrite nth_upd by exact Lt. rewrite Nat.eqb_refl, Ex. exact Hd.
      - intros i Hi. rewrite nth_upd by exact Lt. apply Nat.eqb_neq in Hi. rewrite Hi. reflexivity. }
    destruct ev as [r0|r0 i]; simpl in Ht.
    - destruct (nth_error c r0) as [x|] eqn:Ex; [|discriminate]. pose proof (Hat r0 x Ex) as Ax. pose proof (at_round _ _ _ Ax) as Erd.
      inversion Ax; subst x; cbn [pr opens closes pend colls] in Ht, Erd.
      + destruct (Nat.eq_dec (cl r0) m) as [Em|Hne].
        { rewrite Em, Hend, nth_error_map in H0. destruct (nth_error ss r0); [|discriminate]. inversion H0; subst. discriminate. }
        destruct (W (cl r0)) as [w|] eqn:Ew.
        * destruct (exch_round r0 (cl r0) w p ltac:(lia) Ew H0) as (s & t & n & k & ->). inversion Ht; subst c'. eapply Step; [exact Ex| |reflexivity].
          unfold done. cbn [opens closes pend colls]. rewrite app_length. cbn [length]. lia.
        * destruct (coll_round r0 (cl r0) p ltac:(lia) Ew H0) as (a & v & s & k & ->).
          assert (Hd : forall q, done r0 (mkRank q (pre (cl r0)) (pre (cl r0)) None (cpre r0 (cl r0) ++ [(a, v)])) =
                              Datatypes.S (done r0 (mkRank (Coll a v s k) (pre (cl r0)) (pre (cl r0)) None (cpre r0 (cl r0))))).
          { intros q. unfold done. cbn [opens closes pend colls]. rewrite app_length. cbn [length].
            replace (length (pre (cl r0)) + (length (cpre r0 (cl r0)) + 1))%nat with (Datatypes.S (cl r0)) by lia. rewrite Erd.
            cbn [sum_to]. unfold cost at 2. rewrite H0. lia. }
          destruct (negb _); [discriminate|]. destruct (receives a && (r0 =? 0)%nat).
          -- destruct (forallb sent _); [|discriminate]. destruct (forallb _ _); [|discriminate].
             inversion Ht; subst c'. eapply Step; [exact Ex|apply Hd|reflexivity].
          -- inversion Ht; subst c'. eapply Step; [exact Ex|apply Hd|reflexivity].
      + destruct (negb _); [discriminate|]. inversion Ht; subst c'. eapply Step; [exact Ex| |reflexivity].
        unfold done. cbn [opens closes pend colls length].
        assert (Er : forall k', length (values (repeat (@None E) k')) = O) by (induction k'; simpl; auto). rewrite Er. lia.
      + destruct (may_close c r0 w _) eqn:Em; [|discriminate]. inversion Ht; subst c'. eapply Step; [exact Ex| |reflexivity].
        unfold may_close in Em. cbn [pend opens] in Em. apply andb_true_iff in Em as (Ha & _).
        unfold done. cbn [opens closes pend colls]. rewrite (pre_S _ _ H0), !app_length. cbn [length].
        replace (length (pre (cl r0)) + 1 + length (cpre r0 (cl r0)))%nat with (Datatypes.S (cl r0)) by lia. rewrite Erd.
        cbn [sum_to]. unfold cost at 2. rewrite H1. rewrite (values_length buf Ha), H9. lia.
    - destruct (nth_error c r0) as [x|] eqn:Ex; [|discriminate]. destruct (pend x) as [[[w t] buf]|] eqn:Ep; [|discriminate].
      destruct (nth_error buf i) as [[v|]|] eqn:Ei; try discriminate. destruct (nth_error c (Z.to_nat t)) as [y|] eqn:Ey; [|discriminate].
      destruct (count w (opens x) <=? count w (opens y))%nat; [|discriminate].
      destruct (memory (pr y)) as [s|]; [|discriminate]. cbn [bind] in Ht. destruct (expose s w) as [d|]; [|discriminate]. cbn [bind] in Ht.
      destruct (nth_error d i) as [v|]; [|discriminate]. inversion Ht; subst c'. eapply Step; [exact Ex| |reflexivity].
      unfold done. cbn [opens closes pend colls]. rewrite Ep. rewrite (values_upd buf i v Ei). lia.
  Qed.

  Lemma run_inv sched : forall cl c r, inv cl c -> run expose sched c = Some r ->
    exists c' cl', r = Ok c' /\ inv cl' c' /\ events c' = (events c + length sched)%nat.
  Proof using HL Hend.
    induction sched as [|ev sched IH]; intros cl c r HI Hr; cbn [run] in Hr.
    - inversion Hr; subst. exists c, cl. split; [reflexivity|]. split; [exact HI|]. simpl. lia.
    - destruct (turn expose ev c) as [[c1|u]|] eqn:Et; [| |discriminate].
      + destruct (turn_inv cl c ev _ HI Et) as (c2 & cl2 & E2 & HI2). inversion E2; subst c2.
        destruct (IH cl2 c1 r HI2 Hr) as (c' & cl' & -> & HI' & Ee). exists c', cl'. split; [reflexivity|]. split; [exact HI'|].
        rewrite Ee, (turn_counts cl c ev c1 HI Et). simpl. lia.
      + destruct (turn_inv cl c ev _ HI Et) as (c2 & cl2 & E2 & _). discriminate.
  Qed.

  Lemma ss_length : length ss = N.
  Proof using HL Hend. rewrite <- (L_length m) by lia. rewrite Hend, map_length. reflexivity. Qed.

  Lemma list_ext {A} : forall (l1 l2 : list A), length l1 = length l2 -> (forall i x, nth_error l1 i = Some x -> nth_error l2 i = Some x) -> l1 = l2.
  Proof using Type.
    induction l1 as [|a l1 IH]; intros [|b l2] Hl H; try discriminate; [reflexivity|]. pose proof (H O a eq_refl) as H0. simpl in H0.
    inversion H0; subst. f_equal. apply IH; [simpl in Hl; congruence|]. intros i x Hi. apply (H (Datatypes.S i) x Hi).
  Qed.

  Lemma finished_events cl c ys : inv cl c -> finished c ys -> ys = ss /\ events c = all_events.
  Proof using HL Hend.
    intros (Hlen & Hat & Hcl) Hf. unfold finished in Hf. pose proof ss_length as Hss.
    assert (Hyl : length ys = N) by (rewrite <- Hlen; apply (f_equal (@length _)) in Hf; rewrite !map_length in Hf; lia).
    assert (Hm : forall r x, nth_error c r = Some x -> exists s, nth_error ss r = Some s /\ pr x = Ret s /\ nth_error ys r = Some s /\ cl r = m /\ opens x = closes x /\ pend x = None).
    { intros r x Ex. pose proof (Hat r x Ex) as Ax.
      assert (Hp : exists s, pr x = Ret s /\ nth_error ys r = Some s).
      { pose proof (map_nth_error pr r c Ex) as H. rewrite Hf, nth_error_map in H.
        destruct (nth_error ys r) as [s|]; [|discriminate]. inversion H. eauto. }
      destruct Hp as (s & Hp & Hys). inversion Ax as [p Hj Hn| |]; subst x; simpl in Hp; try discriminate. subst p.
      destruct (Nat.eq_dec (cl r) m) as [Em|Hne].
      - rewrite Em in Hn. rewrite Hend, nth_error_map in Hn. destruct (nth_error ss r) as [s'|]; [|discriminate]. inversion Hn; subst.
        exists s. repeat split; auto.
      - exfalso. destruct (W (cl r)) as [w|] eqn:Ew.
        + destruct (exch_round r (cl r) w _ ltac:(pose proof (at_le _ _ _ (Hat r _ Ex)); lia) Ew Hn) as (? & ? & ? & ? & E1). discriminate.
        + destruct (coll_round r (cl r) _ ltac:(pose proof (at_le _ _ _ (Hat r _ Ex)); lia) Ew Hn) as (? & ? & ? & ? & E1). discriminate. }
    split.
    - apply list_ext; [lia|]. intros i y Hy. destruct (nth_error c i) as [x|] eqn:Ex.
      + destruct (Hm i x Ex) as (s & A & _ & B & _). congruence.
      + apply nth_error_None in Ex. pose proof (nth_lt _ _ _ Hy). lia.
    - unfold events, all_events. apply sum_to_ext. intros r Hr. destruct (nth_error c r) as [x|] eqn:Ex; [|apply nth_error_None in Ex; lia].
      destruct (Hm r x Ex) as (s & _ & _ & _ & Em & Eo & Ep). unfold done. rewrite (at_round r (cl r) x (Hat r x Ex)), Em, Eo, Ep. lia.
  Qed.

  (** The rank(s) that are most behind. *)
  Lemma least (f : nat -> nat) n : (0 < n)%nat -> exists r, (r < n)%nat /\ forall q, (q < n)%nat -> (f r <= f q)%nat.
  Proof using Type.
    induction n as [|n IH]; intros Hn; [lia|]. destruct n as [|n'].
    - exists O. split; [lia|]. intros q Hq. replace q with O by lia. lia.
    - destruct (IH ltac:(lia)) as (r & Hr & Hq). destruct (Nat.le_gt_cases (f r) (f (Datatypes.S n'))) as [H|H].
      + exists r. split; [lia|]. intros q Hq'. destruct (Nat.eq_dec q (Datatypes.S n')) as [->|]; [exact H|]. apply Hq. lia.
      + exists (Datatypes.S n'). split; [lia|]. intros q Hq'. destruct (Nat.eq_dec q (Datatypes.S n')) as [->|]; [lia|].
        pose proof (Hq q ltac:(lia)). lia.
  Qed.

  (** A rank of the list satisfies [P] or all satisfy [Q]. *)
  Lemma search {A} (P Q : nat -> A -> Prop) (l : list A) : (forall i x, nth_error l i = Some x -> P i x \/ Q i x) ->
    (exists i x, nth_error l i = Some x /\ P i x) \/ (forall i x, nth_error l i = Some x -> Q i x).
  Proof using Type.
    revert P Q. induction l as [|a l IH]; intros P Q H; [right; intros [|i] x Hi; discriminate|].
    destruct (H O a eq_refl) as [H0|H0]; [left; exists O, a; auto|].
    destruct (IH (fun i => P (Datatypes.S i)) (fun i => Q (Datatypes.S i)) (fun i x Hi => H (Datatypes.S i) x Hi)) as [(i & x & A1 & A2)|HA].
    - left. exists (Datatypes.S i), x. auto.
    - right. intros [|i] x Hi; [inversion Hi; subst; exact H0|apply (HA i x Hi)].
  Qed.

  Lemma progress cl c : inv cl c -> finished c ss \/ exists ev c', unavoidable ev c = true /\ turn expose ev c = Some (Ok c').
  Proof using HL Hend.
    intros HI. pose proof HI as (Hlen & Hat & Hcl). pose proof ss_length as Hss.
    assert (Enough : finished c ss \/ exists ev r, unavoidable ev c = true /\ turn expose ev c = Some r).
    2:{ destruct Enough as [H|(ev & r & Hu & H)]; [left; exact H|]. right. destruct (turn_inv cl c ev r HI H) as (c' & _ & -> & _). eauto. }
    destruct (Nat.eq_dec N 0) as [HN0|HN0].
    { left. unfold finished. destruct c; [|simpl in Hlen; lia]. destruct ss; [reflexivity|simpl in Hss; lia]. }
    destruct (least cl N ltac:(lia)) as (r & Hr & Hmin). set (j := cl r) in *.
    destruct (Nat.eq_dec j m) as [Ej|Ej].
    { left. unfold finished. apply list_ext; [rewrite !map_length; lia|]. intros i p Hp. rewrite nth_error_map in Hp. destruct (nth_error c i) as [x|] eqn:Ex; [|discriminate].
      inversion Hp; subst p. rewrite <- Hend. pose proof (Hat i x Ex) as Ax. pose proof (nth_lt _ _ _ Ex) as Lt. rewrite Hlen in Lt.
      pose proof (Hmin i Lt) as Hle. pose proof (at_le _ _ _ Ax). inversion Ax; subst x; cbn [pr]; [|lia|lia]. replace m with (cl i) by lia. assumption. }
    right.
    destruct (nth_error c r) as [x|] eqn:Ex; [|apply nth_error_None in Ex; lia].
    assert (Ejm : (j < m)%nat) by (pose proof (at_le _ _ _ (Hat r x Ex)); unfold j in *; lia).
    destruct (W j) as [w|] eqn:Ew.
    2:{ (* a collective call: the rank most behind makes it, all the others have *)
      pose proof (Hat r x Ex) as Ax. exists (Proceed r). fold j in Ax. pose proof (at_lt _ _ _ Ax) as Lr.
      inversion Ax as [p Hj Hp| |]; subst x; [|congruence|congruence]. destruct (coll_round r j p Ejm Ew Hp) as (a & v & s & k & ->).
      destruct (coll_view cl c r j a v s k HI Ejm Ew Hp) as (V1 & V2 & p' & _ & _ & V5).
      assert (Vs : forallb sent (others c (nc j)) = true) by (apply V2; exact Hmin).
      simpl. rewrite Ex. cbn [pr colls]. rewrite (cpre_length r j Lr Hj), V1, Vs. cbn [negb].
      destruct (receives a && (r =? 0)%nat) eqn:Erc; [destruct (V5 eq_refl Vs) as (V6 & _); rewrite V6|]; eauto. }
    (* an exchange: somebody still has to call the opening fence *)
    assert (Hge : forall q y, nth_error c q = Some y -> (j <= cl q)%nat) by (intros q y Ey; apply Hmin; rewrite <- Hlen; apply (nth_lt _ _ _ Ey)).
    destruct (search (fun q y => cl q = j /\ exists s k, pr y = FenceOpen w s k /\ opens y = pre j)
                     (fun q y => cl q = j -> opens y = pre (Datatypes.S j) /\
                        ((exists t n s k, pr y = Get w t n s k) \/ exists s k t buf, pr y = FenceClose w s k /\ pend y = Some (w, t, buf))) c)
      as [(q & y & Ey & Eq & s & k & Epr & Eop)|Hopen].
    { intros q y Ey. destruct (Nat.eq_dec (cl q) j) as [Eq|Eq]; [|right; contradiction]. pose proof (Hat q y Ey) as Ay. rewrite Eq in Ay.
      inversion Ay as [p Hj Hp|w1 s1 t1 n1 k1 q1 st1 d1 p1 C1 C2|w1 s1 t1 n1 k1 q1 st1 d1 p1 buf1 C1 C2]; subst y.
      - left. split; [exact Eq|]. destruct (exch_round q j w p Ejm Ew Hp) as (s & t & n & k & ->). cbn [pr opens]. eauto.
      - right. intros _. replace w1 with w by congruence. cbn [pr opens pend]. split; [reflexivity|]. left. eauto.
      - right. intros _. replace w1 with w by congruence. cbn [pr opens pend]. split; [reflexivity|]. right. eauto 10. }
    { exists (Proceed q). simpl. rewrite Ey, Epr. eexists. split; [|reflexivity]. apply forallb_forall. intros z Hz. apply In_nth_error in Hz as (q' & Ez).
      apply Nat.ltb_lt. rewrite Eop. unfold opened. pose proof (Hat q' z Ez) as Az. pose proof (Hge q' z Ez) as Hle.
      pose proof (count_self j w Ew) as Ecs.
      destruct (Nat.eq_dec (cl q') j) as [Eq'|Eq'].
      - rewrite Eq' in Az. inversion Az as [p Hj Hp|w1 s1 t1 n1 k1 q1 st1 d1 p1 C1 C2|w1 s1 t1 n1 k1 q1 st1 d1 p1 buf1 C1 C2]; subst z; cbn [opens pr].
        + destruct (exch_round q' j w p Ejm Ew Hp) as (s' & t' & n' & k' & ->). destruct (eqw w w); [lia|congruence].
        + lia.
        + lia.
      - assert (Ho : (count w (pre (cl q')) <= count w (opens z))%nat).
        { destruct (at_opens _ _ _ Az) as [(-> & _)|(-> & _)]; [lia|]. apply count_mono. lia. }
        pose proof (count_mono w (Datatypes.S j) (cl q') ltac:(lia)). lia. }
    assert (Hop : forall q z, nth_error c q = Some z -> (count w (pre (Datatypes.S j)) <= count w (opens z))%nat).
    { intros q z Ez. pose proof (Hat q z Ez) as Az. destruct (Nat.eq_dec (cl q) j) as [Eq|Eq].
      - destruct (Hopen q z Ez Eq) as (-> & _). lia.
      - pose proof (Hge q z Ez). pose proof (count_mono w (Datatypes.S j) (cl q) ltac:(lia)).
        destruct (at_opens _ _ _ Az) as [(-> & _)|(-> & _)]; [lia|]. pose proof (count_mono w (cl q) (Datatypes.S (cl q)) ltac:(lia)). lia. }
    (* somebody has to call MPI_Get *)
    destruct (search (fun q y => cl q = j /\ exists t n s k, pr y = Get w t n s k /\ pend y = None /\ opens y = pre (Datatypes.S j))
                     (fun q y => cl q = j -> opens y = pre (Datatypes.S j) /\ exists s k t buf, pr y = FenceClose w s k /\ pend y = Some (w, t, buf)) c)
      as [(q & y & Ey & Eq & t & n & s & k & Epr & Epe & Eop)|Hget].
    { intros q y Ey. destruct (Nat.eq_dec (cl q) j) as [Eq|Eq]; [|right; contradiction]. destruct (Hopen q y Ey Eq) as (Eo & [(t & n & s & k & Ep)|H2]).
      - left. split; [exact Eq|]. pose proof (Hat q y Ey) as Ay. rewrite Eq in Ay. exists t, n, s, k. split; [exact Ep|]. split; [|exact Eo].
        inversion Ay; subst y; cbn [pr pend] in *; [reflexivity|reflexivity|discriminate].
      - right. auto. }
    { exists (Proceed q). simpl. rewrite Ey, Epr, Epe. destruct (negb _); (eexists; split; [|reflexivity]);
        (destruct (nth_error c (Z.to_nat t)) as [z|] eqn:Ez; [|reflexivity]); apply Nat.leb_le; rewrite Eop; apply (Hop _ z Ez). }
    (* somebody waits for elements *)
    destruct (search (fun q y => cl q = j /\ exists t buf, pend y = Some (w, t, buf) /\ arrived buf = false)
                     (fun q y => cl q = j -> exists s k t buf, pr y = FenceClose w s k /\ pend y = Some (w, t, buf) /\ opens y = pre (Datatypes.S j) /\ arrived buf = true) c)
      as [(q & y & Ey & Eq & t & buf & Epe & Ea)|Hall].
    { intros q y Ey. destruct (Nat.eq_dec (cl q) j) as [Eq|Eq]; [|right; contradiction]. destruct (Hget q y Ey Eq) as (Eo & s & k & t & buf & Ep & Epe).
      destruct (arrived buf) eqn:Ea; [right; intros _; exists s, k, t, buf; auto|left; split; [exact Eq|]; eauto]. }
    { destruct (arrived_false_ex buf Ea) as (i & Ei). exists (Arrive q i). simpl. rewrite Ey, Epe, Ei.
      pose proof (Hat q y Ey) as Ay. rewrite Eq in Ay.
      inversion Ay as [| |w1 s t1 n k q0 st d p' buf1 B1 B2 B3 B4 B5 B6 B7 B8 B9 B10 B11 B12]; subst y; simpl in Epe; inversion Epe; subst.
      pose proof (nth_lt _ _ _ B5) as Lt. rewrite L_length in Lt by lia.
      destruct (nth_error c (Z.to_nat t)) as [z|] eqn:Ez; [|apply nth_error_None in Ez; lia]. cbn [opens].
      replace (_ <=? _)%nat with true by (symmetry; apply Nat.leb_le; apply (Hop _ z Ez)). eauto. }
    (* the rank most behind leaves its closing fence *)
    destruct (Hall r x Ex eq_refl) as (s & k & t & buf & Epr & Epe & Eop & Ea). exists (Proceed r). simpl. rewrite Ex, Epr.
    replace (may_close c r w x) with true; [eauto|]. symmetry. unfold may_close. rewrite Epe, Eop, Ea. cbn [andb].
    apply forallb_forall. intros y Hy. apply In_nth_error in Hy as (q & Ey). pose proof (Hat q y Ey) as Ay. pose proof (Hge q y Ey) as Hjq.
    pose proof (count_self j w Ew) as Ecs.
    destruct (Nat.eq_dec (cl q) j) as [Ecq|Ecq].
    - destruct (Hall q y Ey Ecq) as (s' & k' & t' & buf' & Epr' & Epe' & _ & Ea'). apply andb_true_iff. split.
      + apply Nat.leb_le. unfold called. rewrite (at_closes _ _ _ Ay), Ecq, Epr'. destruct (eqw w w); [lia|congruence].
      + apply negb_true_iff. unfold reads. rewrite Epe', Ea'. cbn [negb]. rewrite andb_false_r. reflexivity.
    - apply andb_true_iff. split.
      + apply Nat.leb_le. unfold called. rewrite (at_closes _ _ _ Ay).
        pose proof (count_mono w (Datatypes.S j) (cl q) ltac:(lia)). lia.
      + apply negb_true_iff. unfold reads. inversion Ay as [|w1 s1 t1 n1 k1 q1 st1 d1 p1 C1 C2|w1 s1 t1 n1 k1 q1 st1 d1 p1 buf1 C1 C2]; subst y; cbn [pend opens]; try reflexivity.
        destruct (eqw w1 w) as [->|]; [|reflexivity].
        replace (_ <=? _)%nat with false; [rewrite andb_false_r; reflexivity|]. symmetry. apply Nat.leb_gt.
        rewrite (count_self (cl q) w C2). pose proof (count_mono w (Datatypes.S j) (cl q) ltac:(lia)). lia.
  Qed.
End Generic.

(** ** All executions of programs that go through rounds *)
Section Always.
  Context {S E V R : Type} (expose : S -> list Z -> res (list E)).

  Lemma events_start L W m xs : L m = map (@Ret S E V R) xs -> @events S E V R L (start (L O)) = O /\ @inv S E V R expose L W m (fun _ => O) (start (L O)).
  Proof using Type.
    intros He. split; [|apply start_inv].
    unfold events. rewrite (sum_to_ext _ _ (fun _ => O)).
    - generalize (length (L O)). intros n. induction n; cbn [sum_to]; lia.
    - intros i Hi. destruct (nth_error (start (L O)) i) as [x|] eqn:Ex; [|reflexivity].
      unfold start in Ex. rewrite nth_error_map in Ex. destruct (nth_error (L O) i); [|discriminate]. inversion Ex. reflexivity.
  Qed.

  Lemma run_app s1 : forall s2 (c c1 : config S E V R), run expose s1 c = Some (Ok c1) -> run expose (s1 ++ s2) c = run expose s2 c1.
  Proof using Type.
    induction s1 as [|ev s1 IH]; intros s2 c c1 Hr; cbn [run app] in *; [inversion Hr; reflexivity|].
    destruct (turn expose ev c) as [[c'|u]|]; try discriminate. apply IH. exact Hr.
  Qed.

  Lemma lockstep_always (ps : list (proc S E V R)) xs : lockstep expose ps xs -> always_ends expose ps xs.
  Proof using Type.
    intros H. destruct (lockstep_levels expose ps xs H) as (L & W & m & H0 & HL & He). subst ps.
    destruct (events_start L W m xs He) as (E0 & I0). exists (all_events L m).
    assert (F : forall sched r, run expose sched (start (L O)) = Some r -> exists c cl, r = Ok c /\ inv expose L W m cl c /\ events L c = length sched).
    { intros sched r Hr. destruct (run_inv expose L W m xs HL He sched _ _ r I0 Hr) as (c & cl & -> & HI & Ee). exists c, cl. rewrite Ee, E0. auto. }
    assert (Fin : forall k sched c, run expose sched (start (L O)) = Some (Ok c) -> (all_events L m - length sched <= k)%nat ->
              exists sched' c', run expose (sched ++ sched') (start (L O)) = Some (Ok c') /\ finished c' xs).
    { induction k as [|k IH]; intros sched c Hr Hk; destruct (F sched _ Hr) as (c' & cl & Ec & HI & Ee); inversion Ec; subst c';
        (destruct (progress expose L W m xs HL He cl c HI) as [Hf|(ev & c1 & _ & Ht)]; [exists [], c; rewrite app_nil_r; auto|]);
        (assert (Hr1 : run expose (sched ++ [ev]) (start (L O)) = Some (Ok c1)) by (rewrite (run_app _ _ _ _ Hr); simpl; rewrite Ht; reflexivity));
        destruct (F _ _ Hr1) as (c2 & cl2 & Ec2 & HI2 & Ee2); inversion Ec2; subst c2; rewrite app_length in Ee2; simpl in Ee2;
        pose proof (events_le expose L W m HL cl2 c1 HI2) as Hle.
      - lia.
      - destruct (IH (sched ++ [ev]) c1 Hr1) as (s' & c' & A & B); [rewrite app_length; simpl; lia|].
        exists (ev :: s'), c'. split; [|exact B]. rewrite <- app_assoc in A. exact A. }
    intros sched r Hr. destruct (F sched r Hr) as (c & cl & -> & HI & Ee). exists c. split; [reflexivity|].
    split; [rewrite <- Ee; apply (events_le expose L W m HL cl c HI)|]. split.
    - intros ys Hf. destruct (finished_events expose L W m xs HL He cl c ys HI Hf) as (A & B). split; [exact A|lia].
    - split; [apply (progress expose L W m xs HL He cl c HI)|]. apply (Fin (all_events L m - length sched)%nat sched c Hr). lia.
  Qed.

  (** When an element can be read in the window of another rank, this rank is between the two fences of the same epoch. *)
  Lemma lockstep_reads (ps : list (proc S E V R)) xs : lockstep expose ps xs ->
    forall sched c r i x, run expose sched (start ps) = Some (Ok c) -> turn expose (Arrive r i) c = Some x ->
      exists a b win t buf, nth_error c r = Some a /\ pend a = Some (win, t, buf) /\ nth_error c (Z.to_nat t) = Some b /\
        opens b = closes b ++ [win] /\ opens b = opens a /\ closes b = closes a /\
        ((exists t' n s k, pr b = Get win t' n s k) \/ (exists s k, pr b = FenceClose win s k)).
  Proof using Type.
    intros H sched c r0 i x Hr Hx. destruct (lockstep_levels expose ps xs H) as (L & W & m & H0 & HL & He). subst ps.
    destruct (events_start L W m xs He) as (E0 & I0).
    destruct (run_inv expose L W m xs HL He sched _ _ _ I0 Hr) as (c' & cl & Ec & HI & _). inversion Ec; subst c'. clear Ec.
    simpl in Hx. destruct (nth_error c r0) as [a|] eqn:Ea; [|discriminate].
    destruct (pend a) as [[[win t] buf]|] eqn:Ep; [|discriminate].
    destruct (nth_error buf i) as [[v|]|] eqn:Ei; try discriminate. destruct (nth_error c (Z.to_nat t)) as [b|] eqn:Eb; [|discriminate].
    destruct (Nat.leb_spec (count win (opens a)) (count win (opens b))) as [Hc|]; [|discriminate].
    destruct (arrive_target expose L W m xs HL He cl c r0 a b win t buf i HI Ea Ep Ei Eb Hc) as (Ew & Hm & Et & Eo & Ecl & s' & t' & n' & k' & _ & Epr).
    exists a, b, win, t, buf. split; [reflexivity|]. split; [exact Ep|]. split; [exact Eb|].
    split; [rewrite Eo, Ecl; apply pre_S; exact Ew|].
    pose proof (proj1 (proj2 HI) r0 a Ea) as Aa.
    split; [|split].
    - inversion Aa; subst a; simpl in Ep; inversion Ep; subst. exact Eo.
    - inversion Aa; subst a; simpl in Ep; inversion Ep; subst. exact Ecl.
    - destruct Epr as [->| ->]; [left; eauto 10|right; eauto 10].
  Qed.
End Always.
