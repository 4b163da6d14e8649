(** * Interleavings of threads that do not interfere *)
From Coq Require Import List ZArith Bool Lia Permutation.
From Verif Require Import Cpp CppProof UpModel AccModel ParModel ParSpec.
From Coq Require Import List.
Import ListNotations.
Local Open Scope Z_scope.

Section Mem.
  Context {D : Type}.
  Implicit Types (m r : mem D) (a b : loc) (c : cmd D).

  Definition shape m : nat * nat := (length (fst m), length (snd m)).

  Lemma vget_upd (l : list D) i j x : 0 <= i < vlen l -> vget (upd l (Z.to_nat i) x) j = if j =? i then Ok x else vget l j.
  Proof.
    intros Hi. unfold vget, vlen in *. rewrite upd_length. destruct (Z.eqb_spec j i) as [->|Hn].
    - destruct (Z.leb_spec 0 i); [|lia]. destruct (Z.ltb_spec i (Z.of_nat (length l))); [|lia]. cbn [andb].
      rewrite (nth_error_nth' _ x) by (rewrite upd_length; lia). rewrite upd_nth, Nat.eqb_refl by lia. reflexivity.
    - destruct (Z.leb_spec 0 j); [|reflexivity]. destruct (Z.ltb_spec j (Z.of_nat (length l))); [|reflexivity]. cbn [andb].
      rewrite (nth_error_nth' _ x) by (rewrite upd_length; lia). rewrite upd_nth by lia.
      replace (Z.to_nat j =? Z.to_nat i)%nat with false by (symmetry; apply Nat.eqb_neq; lia).
      rewrite (nth_error_nth' l x) by lia. reflexivity.
  Qed.

  Lemma vset_inv (l l' : list D) i x : vset l i x = Ok l' -> 0 <= i < vlen l /\ l' = upd l (Z.to_nat i) x.
  Proof. unfold vset. destruct (Z.leb_spec 0 i); cbn [andb]; [|discriminate]. destruct (Z.ltb_spec i (vlen l)); [|discriminate]. intros E; injection E as <-. split; [lia|reflexivity]. Qed.

  Lemma loc_dec a b : {a = b} + {a <> b}.
  Proof. destruct a as [A i], b as [B j]. destruct A, B; try (right; congruence); destruct (Z.eq_dec i j); [left; congruence|right; congruence|left; congruence|right; congruence]. Qed.

  Lemma mset_inv m m' a x : mset m a x = Ok m' -> shape m' = shape m /\ mget m' a = Ok x /\ forall b, b <> a -> mget m' b = mget m b.
  Proof.
    destruct m as [f o], a as [[|] i]; unfold mset; cbn [fst snd].
    - destruct (vset f i x) as [f'|] eqn:E; [|discriminate]. cbn [bind]. intros E'; injection E' as <-. apply vset_inv in E as (Hi & ->).
      unfold shape, mget; cbn [fst snd]. rewrite upd_length. split; [reflexivity|]. split; [rewrite vget_upd, Z.eqb_refl by lia; reflexivity|].
      intros [[|] j] Hb; cbn [fst snd]; [|reflexivity]. rewrite vget_upd by lia. destruct (Z.eqb_spec j i); [congruence|reflexivity].
    - destruct (vset o i x) as [f'|] eqn:E; [|discriminate]. cbn [bind]. intros E'; injection E' as <-. apply vset_inv in E as (Hi & ->).
      unfold shape, mget; cbn [fst snd]. rewrite upd_length. split; [reflexivity|]. split; [rewrite vget_upd, Z.eqb_refl by lia; reflexivity|].
      intros [[|] j] Hb; cbn [fst snd]; [reflexivity|]. rewrite vget_upd by lia. destruct (Z.eqb_spec j i); [congruence|reflexivity].
  Qed.

  (** Writing succeeds or fails according to the shape only. *)
  Lemma mset_shape m m' a x : shape m = shape m' ->
    (exists r r', mset m a x = Ok r /\ mset m' a x = Ok r') \/ (mset m a x = Undef OobWrite /\ mset m' a x = Undef OobWrite).
  Proof.
    destruct m as [f o], m' as [f' o'], a as [[|] i]; unfold shape, mset; cbn [fst snd]; intros E; injection E as E1 E2; unfold vset, vlen; rewrite E1 || rewrite E2.
    - destruct ((0 <=? i) && (i <? Z.of_nat (length f'))); [left; do 2 eexists; split; reflexivity|right; auto].
    - destruct ((0 <=? i) && (i <? Z.of_nat (length o'))); [left; do 2 eexists; split; reflexivity|right; auto].
  Qed.

  Lemma list_ext (l l' : list D) : length l = length l' -> (forall i, vget l i = vget l' i) -> l = l'.
  Proof.
    revert l'. induction l as [|x l IH]; intros [|y l'] HL H; try discriminate; auto. f_equal.
    - specialize (H 0). unfold vget, vlen in H. cbn [length] in H. destruct (Z.ltb_spec 0 (Z.of_nat (S (length l)))); [|lia].
      destruct (Z.ltb_spec 0 (Z.of_nat (S (length l')))); [|lia]. cbn in H. congruence.
    - apply IH; [injection HL; auto|]. intros i. specialize (H (Z.succ i)). unfold vget, vlen in *. cbn [length] in *.
      destruct (Z.leb_spec 0 i); [|reflexivity]. destruct (Z.leb_spec 0 (Z.succ i)); [|lia]. rewrite Z2Nat.inj_succ in H by lia.
      cbn [nth_error] in H. destruct (Z.ltb_spec i (Z.of_nat (length l))); destruct (Z.ltb_spec i (Z.of_nat (length l'))); try (cbn [andb]; injection HL; lia);
      destruct (Z.ltb_spec (Z.succ i) (Z.of_nat (S (length l)))); try lia; destruct (Z.ltb_spec (Z.succ i) (Z.of_nat (S (length l')))); try lia; exact H.
  Qed.

  Lemma mem_ext m m' : shape m = shape m' -> (forall a, mget m a = mget m' a) -> m = m'.
  Proof.
    destruct m as [f o], m' as [f' o']. unfold shape; cbn [fst snd]. intros E H. injection E as E1 E2.
    f_equal; apply list_ext; auto; intros i; [apply (H (F, i))|apply (H (OldF, i))].
  Qed.

  (** [c] writes only to [mine] and reads only from [mine] and [ro]. *)
  Fixpoint respects (mine ro : loc -> Prop) c : Prop :=
    match c with
    | Done | Stop _ => True
    | Rd a k => (mine a \/ ro a) /\ forall x, respects mine ro (k x)
    | Wr a _ k => mine a /\ respects mine ro k
    end.

  Lemma respects_weaken (mine mine' ro : loc -> Prop) c : (forall a, mine a -> mine' a) -> respects mine ro c -> respects mine' ro c.
  Proof. intros H. induction c as [|a k IH|a x k IH|u]; simpl; auto; [|intuition]. intros (Ha & Hk). split; [intuition|]. intros x. apply IH, Hk. Qed.

  Lemma respects_then mine ro c d : respects mine ro c -> respects mine ro d -> respects mine ro (andthen c d).
  Proof. intros Hc Hd. induction c as [|a k IH|a x k IH|u]; simpl in *; auto; [|intuition]. destruct Hc as (Ha & Hk). split; auto. Qed.

  Lemma alone_then c d m : alone (andthen c d) m = (m <- alone c m ;; alone d m).
  Proof.
    revert m. induction c as [|a k IH|a x k IH|u]; intros m; cbn [andthen alone]; auto.
    - destruct (mget m a); cbn [bind]; auto.
    - destruct (mset m a x); cbn [bind]; auto.
  Qed.

  (** Running alone: what changes. *)
  Lemma alone_frame mine ro c : respects mine ro c -> forall m r, alone c m = Ok r -> shape r = shape m /\ forall a, ~ mine a -> mget r a = mget m a.
  Proof.
    induction c as [|a k IH|a x k IH|u]; cbn [respects alone]; intros H m r E.
    - injection E as <-. auto.
    - destruct (mget m a) as [x|]; [|discriminate]. cbn [bind] in E. apply (IH x); [apply H|exact E].
    - destruct (mset m a x) as [m'|] eqn:E'; [|discriminate]. cbn [bind] in E. apply mset_inv in E' as (Hs & _ & Ho).
      destruct H as (Ha & Hk). destruct (IH Hk m' r E) as (Hs' & Ho'). split; [congruence|]. intros b Hb. rewrite Ho' by exact Hb. apply Ho. congruence.
    - discriminate.
  Qed.

  (** ... and what it depends on. *)
  Lemma alone_dep mine ro c : respects mine ro c -> forall m m', shape m = shape m' -> (forall a, mine a \/ ro a -> mget m a = mget m' a) ->
    match alone c m, alone c m' with
    | Ok r, Ok r' => forall a, mine a \/ ro a -> mget r a = mget r' a
    | Undef u, Undef u' => u = u'
    | _, _ => False
    end.
  Proof.
    induction c as [|a k IH|a x k IH|u]; cbn [respects alone]; intros H m m' Hs He; auto.
    - destruct H as (Ha & Hk). rewrite <- (He a Ha). destruct (mget m a) as [x|]; cbn [bind]; auto. apply IH; auto.
    - destruct H as (Ha & Hk). destruct (mset_shape m m' a x Hs) as [(r & r' & E & E')|(-> & ->)]; cbn [bind]; auto. rewrite E, E'. cbn [bind].
      apply mset_inv in E as (S1 & G1 & O1). apply mset_inv in E' as (S2 & G2 & O2). apply IH; auto; [congruence|].
      intros b Hb. destruct (loc_dec b a) as [->|Hn]; [congruence|]. rewrite O1, O2 by exact Hn. auto.
  Qed.
End Mem.

(** ** Parallel loops whose iterations do not interfere *)
Section Tasks.
  Context {D : Type} (task : Z -> cmd D) (own : Z -> loc -> Prop) (ro : loc -> Prop).
  Hypothesis Hresp : forall i, respects (own i) ro (task i).
  Hypothesis Hdisj : forall i j a, own i a -> own j a -> i = j.
  Hypothesis Hro : forall i a, own i a -> ~ ro a.

  Definition mine (l : list Z) (a : loc) : Prop := exists i, In i l /\ own i a.

  Lemma share_respects l : respects (mine l) ro (share task l).
  Proof using Hresp.
    clear Hdisj Hro. induction l as [|i l IH]; simpl; auto. apply respects_then.
    - apply (respects_weaken (own i)); auto. intros a Ha. exists i. split; [left; reflexivity|exact Ha].
    - apply (respects_weaken (mine l)); auto. intros a (j & Hj & Ha). exists j. split; [right; exact Hj|exact Ha].
  Qed.

  (** The iterations [l] one after the other do what each would do alone. *)
  Lemma share_alone l : NoDup l -> forall m r, alone (share task l) m = Ok r ->
    forall i, In i l -> exists r', alone (task i) m = Ok r' /\ forall a, own i a -> mget r a = mget r' a.
  Proof using Hresp Hdisj Hro.
    induction l as [|i l IH]; intros Hn m r E j Hj; [destruct Hj|]. inversion Hn as [|? ? Hi Hl]; subst.
    cbn [share fold_right] in E. fold (share task l) in E. rewrite alone_then in E.
    destruct (alone (task i) m) as [m1|] eqn:E1; [|discriminate]. cbn [bind] in E.
    destruct (alone_frame _ _ _ (Hresp i) _ _ E1) as (S1 & F1). destruct (alone_frame _ _ _ (share_respects l) _ _ E) as (S2 & F2).
    destruct Hj as [->|Hj].
    - exists m1. split; [exact E1|]. intros a Ha. apply F2. intros (k & Hk & Ha'). assert (k = j) by (apply (Hdisj _ _ a); auto). subst k. contradiction.
    - destruct (IH Hl m1 r E j Hj) as (r' & Er' & Hr').
      pose proof (alone_dep _ _ _ (Hresp j) m m1) as HD. rewrite Er' in HD. destruct (alone (task j) m) as [r''|u] eqn:E2.
      + exists r''. split; [reflexivity|]. intros a Ha. rewrite Hr' by exact Ha. symmetry. apply HD; auto.
        intros b Hb. symmetry. apply F1. intros Hib. destruct Hb as [Hb|Hb]; [|apply (Hro i b); auto]. assert (i = j) by (apply (Hdisj _ _ b); auto). subst j. contradiction.
      + exfalso. apply HD; auto. intros b Hb. symmetry. apply F1. intros Hib. destruct Hb as [Hb|Hb]; [|apply (Hro i b); auto]. assert (i = j) by (apply (Hdisj _ _ b); auto). subst j. contradiction.
  Qed.

  (** Conversely any set of iterations runs when each does. *)
  Lemma share_runs l : NoDup l -> forall m, (forall i, In i l -> exists r, alone (task i) m = Ok r) -> exists r, alone (share task l) m = Ok r.
  Proof using Hresp Hdisj Hro.
    induction l as [|i l IH]; intros Hn m H; [exists m; reflexivity|]. inversion Hn as [|? ? Hi Hl]; subst.
    cbn [share fold_right]. fold (share task l). rewrite alone_then. destruct (H i (or_introl eq_refl)) as (m1 & E1). rewrite E1. cbn [bind].
    destruct (alone_frame _ _ _ (Hresp i) _ _ E1) as (S1 & F1). apply IH; auto.
    intros j Hj. destruct (H j (or_intror Hj)) as (r & Er). pose proof (alone_dep _ _ _ (Hresp j) m m1) as HD. rewrite Er in HD.
    destruct (alone (task j) m1) as [r'|u]; [eauto|]. exfalso. apply HD; auto. intros b Hb. symmetry. apply F1. intros Hib.
    destruct Hb as [Hb|Hb]; [|apply (Hro i b); auto]. assert (i = j) by (apply (Hdisj _ _ b); auto). subst j. contradiction.
  Qed.
End Tasks.

(** ** Regions *)
Section Region.
  Context {D : Type}.
  Implicit Types (m M : mem D) (th : thread D).
  Variable T : nat.

  (** A loop whose shares do not interfere, and the memory it leaves. *)
  Record fits (mine : nat -> loc -> Prop) (ro : loc -> Prop) (l : nat -> cmd D) (M M' : mem D) : Prop := {
    gl_resp : forall t, (t < T)%nat -> respects (mine t) ro (l t);
    gl_disj : forall t t' a, (t < T)%nat -> (t' < T)%nat -> mine t a -> mine t' a -> t = t';
    gl_not_ro : forall t a, (t < T)%nat -> mine t a -> ~ ro a;
    gl_dec : forall a, (exists t, (t < T)%nat /\ mine t a) \/ (forall t, (t < T)%nat -> ~ mine t a);
    gl_shape : shape M' = shape M;
    gl_alone : forall t, (t < T)%nat -> exists r, alone (l t) M = Ok r /\ forall a, mine t a -> mget M' a = mget r a;
    gl_rest : forall a, (forall t, (t < T)%nat -> ~ mine t a) -> mget M' a = mget M a
  }.
  Definition good_loop l M M' : Prop := exists mine ro, fits mine ro l M M'.

  Fixpoint chain (ls : list (nat -> cmd D)) (M M' : mem D) : Prop :=
    match ls with [] => M = M' | l :: ls => exists M1, good_loop l M M1 /\ chain ls M1 M' end.

  Definition after (t : nat) (ls : list (nat -> cmd D)) : list (cmd D) := map (fun l => l t) ls.

  (** All threads are at the same barrier. *)
  Definition idle (Mf : mem D) (c : config D) : Prop :=
    exists ls, chain ls (fst c) Mf /\ length (snd c) = T /\ forall t th, nth_error (snd c) t = Some th -> th = (Done, after t ls).

  (** Thread [t] has [vc] left of the loop [l], which it may not have entered yet. *)
  Definition left_of (l : nat -> cmd D) (ls : list (nat -> cmd D)) (t : nat) th (vc : cmd D) : Prop :=
    th = (vc, after t ls) \/ (th = (Done, l t :: after t ls) /\ vc = l t).

  (** Inside loop [l]. *)
  Definition busy_in l ls M M' (mine : nat -> loc -> Prop) (ro : loc -> Prop) (Mf : mem D) (c : config D) : Prop :=
    fits mine ro l M M' /\ chain ls M' Mf /\ length (snd c) = T /\ shape (fst c) = shape M /\
    (forall a, (forall t, (t < T)%nat -> ~ mine t a) -> mget (fst c) a = mget M a) /\
    forall t th, nth_error (snd c) t = Some th -> exists vc, left_of l ls t th vc /\ respects (mine t) ro vc /\
      exists r, alone vc (fst c) = Ok r /\ forall a, mine t a -> mget r a = mget M' a.
  Definition busy Mf c : Prop := exists l ls M M' mine ro, busy_in l ls M M' mine ro Mf c.

  Lemma nth_lt {A} (l : list A) t x : nth_error l t = Some x -> (t < length l)%nat.
  Proof. intros H. apply nth_error_Some. congruence. Qed.

  Lemma nth_upd {A} (l : list A) t x t' : (t < length l)%nat -> nth_error (upd l t x) t' = if (t' =? t)%nat then Some x else nth_error l t'.
  Proof.
    intros H. destruct (Nat.lt_ge_cases t' (length l)) as [H'|H'].
    - rewrite (nth_error_nth' _ x) by (rewrite upd_length; exact H'). rewrite upd_nth by exact H. destruct (t' =? t)%nat; [reflexivity|].
      symmetry. apply nth_error_nth'. exact H'.
    - replace (t' =? t)%nat with false by (symmetry; apply Nat.eqb_neq; lia).
      rewrite (proj2 (nth_error_None _ _)) by (rewrite upd_length; exact H'). symmetry. apply nth_error_None. exact H'.
  Qed.

  Lemma after_length t ls : length (after t ls) = length ls.
  Proof. apply map_length. Qed.

  (** At a barrier before a loop. *)
  Lemma idle_in l ls M1 Mf m ths mine ro : fits mine ro l m M1 -> chain ls M1 Mf -> length ths = T ->
    (forall t th, nth_error ths t = Some th -> th = (Done, after t (l :: ls))) -> busy_in l ls m M1 mine ro Mf (m, ths).
  Proof.
    intros G Hc HT Hth. unfold busy_in. cbn [fst snd]. split; [exact G|]. split; [exact Hc|]. split; [auto|]. split; [auto|]. split; [auto|].
    intros t th Ht. exists (l t). pose proof (nth_lt _ _ _ Ht) as Hlt. rewrite HT in Hlt. split; [right; split; [apply (Hth t th Ht)|reflexivity]|].
    split; [apply (gl_resp _ _ _ _ _ G); exact Hlt|]. destruct (gl_alone _ _ _ _ _ G t Hlt) as (r & Er & Hr). exists r. split; [exact Er|].
    intros a Ha. symmetry. auto.
  Qed.

  (** At the barrier after a loop. *)
  Lemma busy_done l ls M M' mine ro Mf m ths : busy_in l ls M M' mine ro Mf (m, ths) ->
    (forall t th, nth_error ths t = Some th -> th = (Done, after t ls)) -> m = M'.
  Proof.
    intros (G & Hc & HT & Hs & Hu & Ht) Hd. cbn [fst snd] in *. apply mem_ext; [rewrite (gl_shape _ _ _ _ _ G); exact Hs|].
    intros a. destruct (gl_dec _ _ _ _ _ G a) as [(t & Hlt & Ha)|Hno]; [|rewrite (gl_rest _ _ _ _ _ G a Hno); apply Hu, Hno].
    destruct (nth_error ths t) as [th|] eqn:E; [|apply nth_error_None in E; lia].
    destruct (Ht t th E) as (vc & Hv & _ & r & Er & Hr). specialize (Hd t th E). subst th.
    destruct Hv as [Hv|[Hv _]]; injection Hv; intros; subst.
    - cbn [alone] in Er. injection Er as <-. apply Hr, Ha.
    - assert (HH : length (after t ls) = length (l t :: after t ls)) by congruence. cbn [length] in HH. lia.
  Qed.

  Lemma busy_enter l ls M M' mine ro Mf m ths t : busy_in l ls M M' mine ro Mf (m, ths) -> nth_error ths t = Some (Done, l t :: after t ls) ->
    busy_in l ls M M' mine ro Mf (m, upd ths t (l t, after t ls)).
  Proof.
    intros (G & Hc & HT & Hs & Hu & Ht) E. unfold busy_in. cbn [fst snd] in *. rewrite upd_length. split; [exact G|]. split; [exact Hc|]. split; [auto|]. split; [auto|]. split; [auto|].
    intros t' th' E'. rewrite nth_upd in E' by (apply (nth_lt _ _ _ E)). destruct (Nat.eqb_spec t' t) as [->|Hn]; [|apply Ht, E'].
    injection E' as <-. destruct (Ht t _ E) as (vc & Hv & Hr). exists (l t). split; [left; reflexivity|].
    destruct Hv as [Hv|[_ ->]]; [|exact Hr]. exfalso.
    assert (HH : length (l t :: after t ls) = length (after t ls)) by congruence. cbn [length] in HH. lia.
  Qed.

  Lemma busy_turn Mf c : busy Mf c -> forall t o, turn t c = Some o -> exists c', o = Ok c' /\ busy Mf c'.
  Proof.
    destruct c as [m ths]. intros (l & ls & M & M' & mine & ro & B) t o E. pose proof B as (G & Hc & HT & Hs & Hu & Ht). cbn [fst snd] in *.
    unfold turn in E. destruct (nth_error ths t) as [[cm rest]|] eqn:Et; [|discriminate].
    pose proof (nth_lt _ _ _ Et) as Hlt. assert (Hlt' : (t < T)%nat) by lia.
    destruct (Ht t _ Et) as (vc & Hv & Hresp & r & Er & Hr). destruct cm as [|a k|a x k|u].
    - (* barrier *)
      destruct rest as [|c0 rest]; [discriminate|]. destruct (forallb (arrived (S (length rest))) ths) eqn:Ea; [|discriminate].
      injection E as <-. eexists; split; [reflexivity|]. destruct Hv as [Hv|[Hv ->]].
      + injection Hv; intros Erest <-. destruct ls as [|l' ls']; [discriminate Erest|].
        assert (Hall : forall t' th', nth_error ths t' = Some th' -> th' = (Done, after t' (l' :: ls'))).
        { intros t' th' E'. assert (Hth : arrived (S (length rest)) th' = true) by (apply (proj1 (forallb_forall _ _) Ea), (nth_error_In _ _ E')).
          assert (EL : S (length rest) = length (l' :: ls')) by (rewrite <- (after_length t (l' :: ls')), <- Erest; reflexivity).
          destruct (Ht t' th' E') as (vc' & [->|[-> _]] & _); unfold arrived in Hth; cbn [fst snd] in Hth; rewrite EL in Hth.
          - rewrite after_length, Nat.ltb_irrefl, Nat.eqb_refl in Hth. cbn [orb andb] in Hth. destruct vc'; try discriminate. reflexivity.
          - cbn [length] in Hth. rewrite after_length in Hth. cbn [length] in Hth. exfalso.
            destruct (Nat.ltb_spec (S (S (length ls'))) (S (length ls'))); [lia|]. destruct (Nat.eqb_spec (S (S (length ls'))) (S (length ls'))); [lia|]. discriminate. }
        assert (m = M') by (apply (busy_done _ _ _ _ _ _ _ _ _ B Hall)). subst m.
        destruct Hc as (M1 & (mine' & ro' & G') & Hc). exists l', ls', M', M1, mine', ro'.
        cbn [after map] in Erest. injection Erest as -> ->. apply (busy_enter _ _ _ _ _ _ _ _ _ t); [apply idle_in; auto|exact Et].
      + injection Hv as -> ->. exists l, ls, M, M', mine, ro. apply busy_enter; auto.
    - (* read *)
      destruct Hv as [Hv|[Hv _]]; [|discriminate]. injection Hv as <- ->. cbn [respects alone] in *.
      destruct (mget m a) as [x|] eqn:Ex; [|discriminate]. cbn [bind] in *. injection E as <-. eexists; split; [reflexivity|].
      exists l, ls, M, M', mine, ro. unfold busy_in. cbn [fst snd]. rewrite upd_length. split; [exact G|]. split; [exact Hc|]. split; [auto|]. split; [auto|]. split; [auto|].
      intros t' th' E'. rewrite nth_upd in E' by exact Hlt. destruct (Nat.eqb_spec t' t) as [->|Hn]; [|apply Ht, E'].
      injection E' as <-. exists (k x). split; [left; reflexivity|]. split; [apply Hresp|]. exists r. auto.
    - (* write *)
      destruct Hv as [Hv|[Hv _]]; [|discriminate]. injection Hv as <- ->. cbn [respects alone] in *.
      destruct (mset m a x) as [m'|] eqn:Ex; [|discriminate]. cbn [bind] in *. injection E as <-. eexists; split; [reflexivity|].
      apply mset_inv in Ex as (S1 & G1 & O1). destruct Hresp as (Ha & Hk).
      exists l, ls, M, M', mine, ro. unfold busy_in. cbn [fst snd]. rewrite upd_length. split; [exact G|]. split; [exact Hc|]. split; [exact HT|].
      split; [congruence|]. split.
      { intros b Hb. rewrite O1; [apply Hu, Hb|]. intros ->. apply (Hb t Hlt' Ha). }
      intros t' th' E'. rewrite nth_upd in E' by exact Hlt. destruct (Nat.eqb_spec t' t) as [->|Hn].
      + injection E' as <-. exists k. split; [left; reflexivity|]. split; [exact Hk|]. exists r. auto.
      + pose proof (nth_lt _ _ _ E') as Hlt2. rewrite HT in Hlt2. destruct (Ht t' th' E') as (vc' & Hv' & Hresp' & r' & Er' & Hr').
        exists vc'. split; [exact Hv'|]. split; [exact Hresp'|].
        pose proof (alone_dep _ _ _ Hresp' m m') as HD. rewrite Er' in HD.
        assert (HE : forall b, mine t' b \/ ro b -> mget m b = mget m' b).
        { intros b Hb. symmetry. apply O1. intros ->. destruct Hb as [Hb|Hb]; [apply Hn; apply (gl_disj _ _ _ _ _ G _ _ a); auto|].
          apply (gl_not_ro _ _ _ _ _ G t a); auto. }
        destruct (alone vc' m') as [r''|u]; [|exfalso; apply HD; auto]. exists r''. split; [reflexivity|].
        intros b Hb. rewrite <- Hr' by exact Hb. symmetry. apply HD; auto.
    - (* failure *)
      destruct Hv as [Hv|[Hv _]]; [|discriminate]. injection Hv as <- ->. discriminate.
  Qed.

  Lemma busy_no_race Mf c : busy Mf c -> ~ race c.
  Proof.
    destruct c as [m ths]. intros (l & ls & M & M' & mine & ro & (G & Hc & HT & Hs & Hu & Ht)) (t & t' & th & th' & a & w & w' & Hn & E & E' & A & A' & W).
    cbn [fst snd] in *.
    pose proof (nth_lt _ _ _ E) as Hlt. pose proof (nth_lt _ _ _ E') as Hlt'. rewrite HT in *.
    assert (HA : forall t th b, nth_error ths t = Some th -> next_access th = Some (a, b) -> (b = true -> mine t a) /\ (mine t a \/ ro a)).
    { intros s h b Es Hb. destruct (Ht s h Es) as (vc & [->|[-> _]] & R & _); [|discriminate]. unfold next_access in Hb. cbn [fst] in Hb.
      destruct vc; try discriminate; injection Hb as -> <-; cbn [respects] in R.
      - split; [discriminate|apply R].
      - split; [intros _; apply R|left; apply R]. }
    destruct (HA t th w E A) as (H1 & H2). destruct (HA t' th' w' E' A') as (H1' & H2').
    destruct w; [specialize (H1 eq_refl)|]; (destruct w'; [specialize (H1' eq_refl)|]); try discriminate.
    - apply Hn. apply (gl_disj _ _ _ _ _ G _ _ a); auto.
    - destruct H2' as [H2'|H2']; [apply Hn; apply (gl_disj _ _ _ _ _ G _ _ a); auto|apply (gl_not_ro _ _ _ _ _ G t a); auto].
    - destruct H2 as [H2|H2]; [apply Hn; apply (gl_disj _ _ _ _ _ G _ _ a); auto|apply (gl_not_ro _ _ _ _ _ G t' a); auto].
  Qed.

  (** A thread that is neither finished nor waiting can go on; if all wait, they wait at the same barrier. *)
  Lemma busy_progress Mf c : busy Mf c -> finished c \/ exists t, turn t c <> None.
  Proof.
    destruct c as [m ths]. intros (l & ls & M & M' & mine & ro & (G & Hc & HT & Hs & Hu & Ht)). cbn [fst snd] in *.
    (* a thread in the middle of the loop *)
    assert (Hx : (exists t th, nth_error ths t = Some th /\ is_done (fst th) = false) \/ forall t th, nth_error ths t = Some th -> is_done (fst th) = true).
    { clear. induction ths as [|h ths IH]; [right; intros [|t] th E; discriminate|]. destruct (is_done (fst h)) eqn:Eh.
      - destruct IH as [(t & th & E & Hd)|IH]; [left; exists (S t), th; auto|]. right. intros [|t] th E; [injection E as <-; exact Eh|apply (IH t th E)].
      - left. exists O, h. auto. }
    destruct Hx as [(t & th & E & Hd)|Hd].
    { right. exists t. unfold turn. rewrite E. destruct th as [cm rest]. destruct cm; try discriminate. }
    (* a thread that has not entered the loop *)
    assert (Hx : (exists t, nth_error ths t = Some (Done, l t :: after t ls)) \/ forall t th, nth_error ths t = Some th -> th = (Done, after t ls)).
    { assert (HH : forall n, (n <= length ths)%nat -> (exists t, nth_error ths t = Some (Done, l t :: after t ls)) \/
        forall t th, (t < n)%nat -> nth_error ths t = Some th -> th = (Done, after t ls)).
      { induction n as [|n IH]; intros Hn; [right; intros; lia|]. destruct IH as [IH|IH]; [lia|left; exact IH|].
        destruct (nth_error ths n) as [th|] eqn:E; [|apply nth_error_None in E; lia].
        specialize (Hd n th E). destruct (Ht n th E) as (vc & [->|[-> _]] & _).
        - cbn [fst] in Hd. destruct vc; try discriminate. right. intros t th Hlt Eth. destruct (Nat.eq_dec t n) as [->|Hne]; [congruence|apply IH; auto; lia].
        - left. exists n. exact E. }
      destruct (HH _ (Nat.le_refl _)) as [H|H]; [left; exact H|right]. intros t th E. apply H; auto. apply (nth_lt _ _ _ E). }
    destruct Hx as [(t & E)|Hx].
    - right. exists t. unfold turn. rewrite E.
      replace (forallb (arrived (S (length (after t ls)))) ths) with true; [discriminate|]. symmetry. apply forallb_forall. intros th Hin.
      apply In_nth_error in Hin as (t' & E'). specialize (Hd t' th E'). rewrite after_length. unfold arrived.
      destruct (Ht t' th E') as (vc & [->|[-> _]] & _); cbn [fst snd] in *; cbn [length]; rewrite after_length.
      + replace (length ls <? S (length ls))%nat with true by (symmetry; apply Nat.ltb_lt; lia). reflexivity.
      + rewrite Nat.eqb_refl. apply orb_true_r.
    - destruct ls as [|l' ls].
      + left. intros th Hin. cbn [snd] in Hin. apply In_nth_error in Hin as (t & E). apply (Hx t th E).
      + destruct ths as [|th ths]; [left; intros ? []|]. right. exists O. pose proof (Hx O th eq_refl) as H0. subst th. unfold turn. cbn [nth_error after map].
        replace (forallb _ _) with true; [discriminate|]. symmetry. apply forallb_forall. intros th' Hin. apply In_nth_error in Hin as (t' & E').
        rewrite (Hx t' th' E'). unfold arrived. cbn [fst snd after map length]. rewrite !map_length, Nat.eqb_refl. apply orb_true_r.
  Qed.

  Lemma busy_finished Mf c : busy Mf c -> finished c -> (0 < T)%nat -> fst c = Mf.
  Proof.
    destruct c as [m ths]. intros (l & ls & M & M' & mine & ro & B) Hf HT0. pose proof B as (G & Hc & HT & Hs & Hu & Ht). cbn [fst snd] in *.
    assert (Hls : ls = []).
    { destruct ths as [|th ths]; [simpl in HT; lia|]. destruct (Ht O th eq_refl) as (vc & Hv & _). rewrite (Hf th (or_introl eq_refl)) in Hv.
      destruct Hv as [Hv|[Hv _]]; [|discriminate]. injection Hv; intros Hm _. destruct ls; [reflexivity|discriminate]. }
    subst ls. cbn [chain] in Hc. subst Mf. apply (busy_done _ _ _ _ _ _ _ _ _ B). intros t th E. apply Hf. apply (nth_error_In _ _ E).
  Qed.

  (** Every execution of a region of loops without interference. *)
  Lemma region_runs ls m Mf : (0 < T)%nat -> chain ls m Mf -> forall s o, run s (region T ls m) = Some o ->
    exists c, o = Ok c /\ ~ race c /\ (finished c -> fst c = Mf) /\ (~ finished c -> exists t, turn t c <> None).
  Proof.
    intros HT0 Hc. assert (Hth : forall t th, nth_error (map (fun t => (Done, map (fun l => l t) ls)) (seq 0 T)) t = Some th -> th = (@Done D, after t ls)).
    { intros t th E. pose proof (nth_lt _ _ _ E) as Hlt. rewrite map_length, seq_length in Hlt.
      erewrite map_nth_error in E by (rewrite (nth_error_nth' _ O) by (rewrite seq_length; exact Hlt); rewrite seq_nth by exact Hlt; reflexivity).
      injection E as <-. reflexivity. }
    destruct ls as [|l ls].
    - intros [|t s] o E; cbn [run] in E.
      + injection E as <-. eexists; split; [reflexivity|]. unfold region. cbn [fst snd].
        assert (Hfin : @finished D (m, map (fun t => (Done, map (fun l => l t) [])) (seq 0 T))).
        { intros th Hin. cbn [snd] in Hin. apply In_nth_error in Hin as (t & E). apply (Hth t th E). }
        split; [|split; [intros _; exact Hc|intros Hn; exfalso; apply Hn, Hfin]].
        intros (t & t' & th & th' & a & w & w' & _ & E & _ & A & _). cbn [snd] in E. rewrite (Hth t th E) in A. discriminate.
      + unfold region, turn in E. destruct (nth_error _ t) as [th|] eqn:Et; [|discriminate]. rewrite (Hth t th Et) in E. discriminate.
    - destruct Hc as (M1 & (mine & ro & G) & Hc).
      assert (HB : busy Mf (region T (l :: ls) m)).
      { exists l, ls, m, M1, mine, ro. apply idle_in; auto. rewrite map_length, seq_length. reflexivity. }
      intros s. revert HB. generalize (region T (l :: ls) m) as c. clear -HT0. induction s as [|t s IH]; intros c HB o E; cbn [run] in E.
      + injection E as <-. exists c. split; [reflexivity|]. split; [apply (busy_no_race _ _ HB)|]. split; [intros Hf; apply (busy_finished _ _ HB Hf HT0)|].
        intros Hf. destruct (busy_progress _ _ HB); [contradiction|auto].
      + destruct (turn t c) as [o'|] eqn:Et; [|discriminate]. destruct (busy_turn _ _ HB t o' Et) as (c' & -> & HB'). apply (IH c' HB' o E).
  Qed.
End Region.

(** ** A worksharing loop: its iterations assigned to threads in any way *)
Section Owned.
  (** [owner a] is the iteration that may write the element [a]. *)
  Context {D : Type} (task : Z -> cmd D) (owner : loc -> option Z).
  Definition owned (i : Z) (a : loc) : Prop := owner a = Some i.
  Definition unowned (a : loc) : Prop := owner a = None.
  Hypothesis Hresp : forall i, respects (owned i) unowned (task i).

  Lemma owned_disj i j a : owned i a -> owned j a -> i = j.
  Proof using Type. unfold owned. congruence. Qed.
  Lemma owned_not i a : owned i a -> ~ unowned a.
  Proof using Type. unfold owned, unowned. congruence. Qed.

  Lemma owned_good T n who (M M' : mem D) : shares T n who -> alone (share task (map Z.of_nat (seq 0 (Z.to_nat n)))) M = Ok M' ->
    good_loop T (fun t => share task (who t)) M M'.
  Proof using Hresp.
    intros Hs E. set (all := map Z.of_nat (seq 0 (Z.to_nat n))) in *. unfold shares in Hs. fold all in Hs.
    assert (Hn : NoDup all) by (apply FinFun.Injective_map_NoDup; [intros x y; lia|apply seq_NoDup]).
    assert (Hn' : NoDup (flat_map who (seq 0 T))) by (apply (Permutation_NoDup (Permutation_sym Hs)); exact Hn).
    assert (Hin : forall t i, (t < T)%nat -> In i (who t) -> In i all).
    { intros t i Ht Hi. apply (Permutation_in _ Hs). apply in_flat_map. exists t. split; [apply in_seq; lia|exact Hi]. }
    assert (Hd : forall t t' i, (t < T)%nat -> (t' < T)%nat -> In i (who t) -> In i (who t') -> t = t').
    { intros t t' i Ht Ht' Hi Hi'. destruct (Nat.eq_dec t t') as [|Hne]; [auto|exfalso].
      assert (HS : In t (seq 0 T)) by (apply in_seq; lia). assert (HS' : In t' (seq 0 T)) by (apply in_seq; lia).
      revert HS HS' Hn'. generalize (seq 0 T) as l. induction l as [|u l IH]; intros HS HS' HN; [destruct HS|]. cbn [flat_map] in HN.
      assert (Hsep : forall x, In x (who u) -> In x (flat_map who l) -> False).
      { intros x Hx Hx'. clear -HN Hx Hx'. induction (who u) as [|y w IH]; [destruct Hx|]. cbn in HN. inversion HN as [|? ? Hy HN']; subst.
        destruct Hx as [->|Hx]; [apply Hy, in_or_app; right; exact Hx'|apply IH; auto]. }
      assert (HN2 : NoDup (flat_map who l)) by (clear -HN; induction (who u) as [|y w IH]; [exact HN|cbn in HN; inversion HN; subst; apply IH; auto]).
      destruct HS as [->|HS], HS' as [->|HS'].
      - apply Hne. reflexivity.
      - apply (Hsep i Hi). apply in_flat_map. eauto.
      - apply (Hsep i Hi'). apply in_flat_map. eauto.
      - apply IH; auto. }
    assert (Hw : forall t, (t < T)%nat -> NoDup (who t)).
    { intros t Ht. assert (HS : In t (seq 0 T)) by (apply in_seq; lia). revert HS Hn'. clear. generalize (seq 0 T) as l.
      induction l as [|u l IH]; intros HS HN; [destruct HS|]. cbn [flat_map] in HN. destruct HS as [->|HS].
      - clear -HN. induction (who t) as [|y w IH]; [constructor|]. cbn in HN. inversion HN; subst. constructor; [|apply IH; auto].
        intros Hy. apply H1. apply in_or_app. left. exact Hy.
      - apply IH; auto. clear -HN. induction (who u) as [|y w IH]; [exact HN|cbn in HN; inversion HN; subst; apply IH; auto]. }
    destruct (alone_frame _ _ _ (share_respects task owned unowned Hresp all) _ _ E) as (HS & HF).
    pose proof (share_alone task owned unowned Hresp owned_disj owned_not all Hn M M' E) as HA.
    exists (fun t => mine owned (who t)), unowned. constructor.
    - intros t Ht. apply share_respects; auto.
    - intros t t' a Ht Ht' (i & Hi & Ei) (j & Hj & Ej). assert (i = j) by (apply (owned_disj i j a); auto). subst j. apply (Hd t t' i); auto.
    - intros t a Ht (i & Hi & Ha). apply (owned_not i a Ha).
    - intros a. destruct (owner a) as [i|] eqn:Eo.
      + destruct (in_dec Z.eq_dec i (flat_map who (seq 0 T))) as [Hi|Hi].
        * left. apply in_flat_map in Hi as (t & Ht & Hi). exists t. split; [apply in_seq in Ht; lia|]. exists i. split; [exact Hi|exact Eo].
        * right. intros t Ht (j & Hj & Ej). unfold owned in Ej. apply Hi, in_flat_map. exists t. split; [apply in_seq; lia|congruence].
      + right. intros t Ht (j & Hj & Ej). unfold owned in Ej. congruence.
    - exact HS.
    - intros t Ht. destruct (share_runs task owned unowned Hresp owned_disj owned_not (who t) (Hw t Ht) M) as (r & Er).
      { intros i Hi. destruct (HA i (Hin t i Ht Hi)) as (r & Er & _). eauto. }
      exists r. split; [exact Er|]. intros a (i & Hi & Ha).
      destruct (HA i (Hin t i Ht Hi)) as (r1 & E1 & H1).
      destruct (share_alone task owned unowned Hresp owned_disj owned_not (who t) (Hw t Ht) M r Er i Hi) as (r2 & E2 & H2).
      rewrite H1, H2 by exact Ha. congruence.
    - intros a Ha. apply HF. intros (i & Hi & Hc). apply (Permutation_in _ (Permutation_sym Hs)) in Hi. apply in_flat_map in Hi as (t & Ht & Hi).
      apply (Ha t); [apply in_seq in Ht; lia|]. exists i. auto.
  Qed.
End Owned.

(** Iteration i writes element i of the array A. *)
Section Loop.
  Context {D : Type} (task : Z -> cmd D) (A : array).
  Definition cell_of (i : Z) (a : loc) : Prop := a = (A, i).
  Definition other (a : loc) : Prop := fst a <> A.
  Hypothesis Hresp : forall i, respects (cell_of i) other (task i).

  Lemma respects_ext (mine mine' ro ro' : loc -> Prop) (c : cmd D) : (forall a, mine a -> mine' a) -> (forall a, ro a -> ro' a) ->
    respects mine ro c -> respects mine' ro' c.
  Proof using Type.
    intros H H'. induction c as [|a k IH|a x k IH|u]; simpl; auto; [|intuition]. intros (Ha & Hk). split; [intuition|]. intros x. apply IH, Hk.
  Qed.

  Lemma loop_good T n who (M M' : mem D) : shares T n who -> alone (share task (map Z.of_nat (seq 0 (Z.to_nat n)))) M = Ok M' ->
    good_loop T (fun t => share task (who t)) M M'.
  Proof using Hresp.
    apply (owned_good task (fun a => match fst a, A with F, F | OldF, OldF => Some (snd a) | _, _ => None end)).
    intros i. apply (respects_ext (cell_of i) _ other); [| |apply Hresp].
    - intros a ->. unfold owned. cbn [fst snd]. destruct A; reflexivity.
    - intros [B k]. unfold other, unowned. cbn [fst]. destruct A, B; congruence.
  Qed.
End Loop.

(** ** Termination *)
Section Length.
  Context {D : Type}.

  (** At most [n] accesses. *)
  Fixpoint atmost (n : nat) (c : cmd D) : Prop :=
    match c with
    | Done => True
    | Rd _ k => exists n', n = S n' /\ forall x, atmost n' (k x)
    | Wr _ _ k => exists n', n = S n' /\ atmost n' k
    | Stop _ => True
    end.

  Lemma atmost_then n n' c d : atmost n c -> (forall k, (n' <= k)%nat -> atmost k d) -> atmost (n + n') (andthen c d).
  Proof.
    intros Hc Hd. revert n Hc. induction c as [|a k IH|a x k IH|u]; intros n Hc; cbn [atmost andthen] in *; auto.
    - apply Hd. lia.
    - destruct Hc as (m & -> & Hk). exists (m + n')%nat. split; [reflexivity|]. auto.
    - destruct Hc as (m & -> & Hk). exists (m + n')%nat. split; [reflexivity|]. auto.
  Qed.

  Lemma atmost_mono c : forall n n', (n <= n')%nat -> atmost n c -> atmost n' c.
  Proof.
    induction c as [|a k IH|a x k IH|u]; intros n n' Hn Hc; cbn [atmost] in *; auto.
    - destruct Hc as (m & -> & Hk). exists (n' - 1)%nat. split; [lia|]. intros x. apply (IH x m); [lia|auto].
    - destruct Hc as (m & -> & Hk). exists (n' - 1)%nat. split; [lia|]. apply (IH m); [lia|auto].
  Qed.

  Lemma atmost_share (task : Z -> cmd D) n l : (forall i, atmost n (task i)) -> atmost (length l * n) (share task l).
  Proof.
    intros H. induction l as [|i l IH]; simpl; auto. apply atmost_then; auto. intros k Hk. apply (atmost_mono _ _ _ Hk IH).
  Qed.

  (** The turns left to a thread. *)
  Inductive budget : thread D -> nat -> Prop :=
  | Budget c rest n ns : atmost n c -> Forall2 (fun c n => atmost n c) rest ns -> budget (c, rest) (n + list_sum (map S ns)).

  Lemma turn_budget t c c' bs : turn t c = Some (Ok c') -> Forall2 budget (snd c) bs ->
    exists bs', Forall2 budget (snd c') bs' /\ (S (list_sum bs') <= list_sum bs)%nat.
  Proof.
    destruct c as [m ths]. cbn [snd]. intros E HB.
    assert (HU : forall th th', nth_error ths t = Some th -> snd c' = upd ths t th' ->
      (forall b, budget th b -> exists b', budget th' b' /\ (S b' <= b)%nat) -> exists bs', Forall2 budget (snd c') bs' /\ (S (list_sum bs') <= list_sum bs)%nat).
    { clear E m. intros th th' E -> H. revert t E. induction HB as [|x b ths bs Hx HB IH]; intros [|t] E; try discriminate.
      - injection E as ->. destruct (H b Hx) as (b' & Hb' & Hle). exists (b' :: bs). split; [constructor; auto|]. change (S (b' + list_sum bs) <= b + list_sum bs)%nat. lia.
      - destruct (IH t E) as (bs' & HB' & Es). exists (b :: bs'). split; [constructor; auto|]. change (S (b + list_sum bs') <= b + list_sum bs)%nat. lia. }
    unfold turn in E. destruct (nth_error ths t) as [[cm rest]|] eqn:Et; [|discriminate]. destruct cm as [|a k|a x k|u].
    - destruct rest as [|c0 rest]; [discriminate|]. destruct (forallb _ _); [|discriminate]. injection E as <-. eapply HU; [reflexivity|reflexivity|].
      intros b Hb. inversion Hb as [? ? n ns H1 H2]; subst. inversion H2 as [|? n0 ? ns0 H3 H4]; subst. eexists; split; [constructor; eassumption|].
      cbn [map]. change (list_sum (S n0 :: map S ns0)) with (S n0 + list_sum (map S ns0))%nat.
      lia.
    - destruct (mget m a) as [x|]; [|discriminate]. injection E as <-. eapply HU; [reflexivity|reflexivity|].
      intros b Hb. inversion Hb as [? ? n ns H1 H2]; subst. destruct H1 as (n' & -> & Hk). exists (n' + list_sum (map S ns))%nat. split; [constructor; auto|cbn; lia].
    - destruct (mset m a x) as [m'|]; [|discriminate]. injection E as <-. eapply HU; [reflexivity|reflexivity|].
      intros b Hb. inversion Hb as [? ? n ns H1 H2]; subst. destruct H1 as (n' & -> & Hk). exists (n' + list_sum (map S ns))%nat. split; [constructor; auto|cbn; lia].
    - discriminate.
  Qed.

  Lemma run_budget s : forall c c' bs, run s c = Some (Ok c') -> Forall2 budget (snd c) bs -> (length s <= list_sum bs)%nat.
  Proof.
    induction s as [|t s IH]; intros c c' bs E HB; [simpl; lia|]. cbn [run] in E. destruct (turn t c) as [[c1|]|] eqn:Et; try discriminate.
    destruct (turn_budget t c c1 bs Et HB) as (bs' & HB' & Hle). specialize (IH c1 c' bs' E HB'). simpl. lia.
  Qed.

  Lemma region_bounded T (ls : list (nat -> cmd D)) m : (forall l t, In l ls -> exists n, atmost n (l t)) ->
    exists N, forall s c, run s (region T ls m) = Some (Ok c) -> (length s <= N)%nat.
  Proof.
    intros H. assert (HT : forall t, exists ns, Forall2 (fun c n => atmost n c) (map (fun l => l t) ls) ns).
    { intros t. induction ls as [|l ls IH]; [exists []; constructor|]. destruct IH as (ns & Hns); [intros; apply H; right; auto|].
      destruct (H l t (or_introl eq_refl)) as (n & Hn). exists (n :: ns). constructor; auto. }
    assert (HB : exists bs, Forall2 budget (snd (region T ls m)) bs).
    { unfold region. cbn [snd]. generalize (seq 0 T) as l. induction l as [|t l (bs & IH)]; [exists []; constructor|].
      destruct (HT t) as (ns & Hns). exists ((0 + list_sum (map S ns)) :: bs)%nat. constructor; auto. constructor; [exact I|exact Hns]. }
    destruct HB as (bs & HB). exists (list_sum bs). intros s c E. apply (run_budget s _ c bs E HB).
  Qed.

  (** Progress and termination: some execution is complete, and every execution can be completed. *)
  Lemma run_app s s' : forall c : config D, run (s ++ s') c = match run s c with Some (Ok c') => run s' c' | o => o end.
  Proof. induction s as [|t s IH]; intros c; cbn [app run]; [reflexivity|]. destruct (turn t c) as [[c'|]|]; auto. Qed.

  Lemma region_completes T (ls : list (nat -> cmd D)) m :
    (forall l t, In l ls -> exists n, atmost n (l t)) ->
    (forall s o, run s (region T ls m) = Some o -> exists c, o = Ok c /\ (finished c \/ exists t, turn t c <> None)) ->
    forall s c, run s (region T ls m) = Some (Ok c) -> exists s' c', run s' c = Some (Ok c') /\ finished c'.
  Proof.
    intros HB HP. destruct (region_bounded T ls m HB) as (N & HN). intros s c E.
    assert (HI : forall k s c, (N <= length s + k)%nat -> run s (region T ls m) = Some (Ok c) -> exists s' c', run s' c = Some (Ok c') /\ finished c').
    { clear s c E. induction k as [|k IH]; intros s c Hk E; destruct (HP s _ E) as (c1 & Ec & [Hf|(t & Ht)]); injection Ec as <-.
      - exists [], c. auto.
      - exfalso. destruct (turn t c) as [o|] eqn:Et; [|congruence]. assert (E2 : run (s ++ [t]) (region T ls m) = Some o).
        { rewrite run_app, E. cbn [run]. rewrite Et. destruct o; reflexivity. }
        destruct (HP _ _ E2) as (c2 & -> & _). specialize (HN _ _ E2). rewrite app_length in HN. simpl in HN. lia.
      - exists [], c. auto.
      - destruct (turn t c) as [o|] eqn:Et; [|congruence]. assert (E2 : run (s ++ [t]) (region T ls m) = Some o).
        { rewrite run_app, E. cbn [run]. rewrite Et. destruct o; reflexivity. }
        destruct (HP _ _ E2) as (c2 & -> & _). destruct (IH (s ++ [t]) c2 ltac:(rewrite app_length; simpl; lia) E2) as (s' & c' & E' & Hf).
        exists (t :: s'), c'. split; [|exact Hf]. cbn [run]. rewrite Et. exact E'. }
    apply (HI N s c); [lia|exact E].
  Qed.
End Length.

(** ** The loops of advect, run by one thread *)
Section Sequential.
  Context {D : Type} (ar : arith D).

  Lemma ploop_for {S} body (B : Z -> S * list D -> res (S * list D)) (old : list D) after cnt :
    (forall i s f k, alone (body i s k) (f, old) = (' (s', f') <- B i (s, f) ;; alone (k s') (f', old))) ->
    forall k s f, alone (ploop k cnt body s after) (f, old) = (' (s', f') <- for_from k cnt B (s, f) ;; alone (after s') (f', old)).
  Proof.
    intros H. induction cnt as [|cnt IH]; intros k s f; cbn [ploop for_from]; [reflexivity|]. rewrite H.
    destruct (B (Z.of_nat k) (s, f)) as [[s' f']|]; cbn [bind]; [|reflexivity]. apply IH.
  Qed.

  (** The iterations in order. *)
  Lemma share_for task (B : Z -> list D -> res (list D)) old n :
    (forall i f, alone (task i) (f, old) = (f' <- B i f ;; Ok (f', old))) ->
    forall f, alone (share task (map Z.of_nat (seq 0 (Z.to_nat n)))) (f, old) = (f' <- for_upto n B f ;; Ok (f', old)).
  Proof.
    intros H. unfold for_upto. generalize O as k. generalize (Z.to_nat n) as cnt. induction cnt as [|cnt IH]; intros k f; [reflexivity|].
    cbn [seq map share fold_right for_from]. fold (share task (map Z.of_nat (seq (S k) cnt))). rewrite alone_then, H.
    destruct (B (Z.of_nat k) f); cbn [bind]; [|reflexivity]. apply IH.
  Qed.

  Lemma copy_for f n : forall old, alone (share (@copy_task D) (map Z.of_nat (seq 0 (Z.to_nat n)))) (f, old) =
    (old' <- for_upto n (fun i old => x <- vget f i ;; vset old i x) old ;; Ok (f, old')).
  Proof.
    unfold for_upto. generalize O as k. generalize (Z.to_nat n) as cnt. induction cnt as [|cnt IH]; intros k old; [reflexivity|].
    cbn [seq map share fold_right for_from]. fold (share (@copy_task D) (map Z.of_nat (seq (S k) cnt))). rewrite alone_then.
    cbn [copy_task alone mget mset fst snd]. destruct (vget f (Z.of_nat k)) as [x|]; cbn [bind]; [|reflexivity].
    cbn [alone mset fst snd]. destruct (vset old (Z.of_nat k) x) as [o|]; cbn [bind alone]; [|reflexivity]. apply IH.
  Qed.

  Lemma up_axis_alone u dt old i j inds f k :
    alone (up_axis_task ar u dt i j inds k) (f, old) = (' (inds', f') <- up_axis ar u dt old i j (inds, f) ;; alone (k inds') (f', old)).
  Proof.
    unfold up_axis_task, up_private, up_axis.
    destruct (vget inds j) as [oldIndex|]; cbn [bind]; [|reflexivity]. destruct (vget (up_v u) j) as [vj|]; cbn [bind]; [|reflexivity].
    destruct (vget (up_upDirection u) j) as [uj|]; cbn [bind]; [|reflexivity]. destruct (vget (up_deltas u) j) as [dj|]; cbn [bind]; [|reflexivity].
    destruct (vget (up_numCells u) j) as [nj|]; cbn [bind]; [|reflexivity]. destruct (vset inds j _) as [inds1|]; cbn [bind]; [|reflexivity].
    destruct (vget inds1 j) as [x|]; cbn [bind]; [|reflexivity]. destruct (umod (u64 x) nj) as [q|]; cbn [bind]; [|reflexivity].
    destruct (vset inds1 j (i32 q)) as [inds2|]; cbn [bind]; [|reflexivity]. destruct (up_getFlatIndex u inds2) as [upI|]; cbn [bind]; [|reflexivity].
    cbn [priv alone mget fst snd]. destruct (vget f i) as [fi|]; cbn [bind alone]; [|reflexivity].
    cbn [mget fst snd]. destruct (vget old upI) as [y|]; cbn [bind alone]; [|reflexivity].
    cbn [mget fst snd]. destruct (vget old i) as [z|]; cbn [bind alone]; [|reflexivity].
    cbn [mset fst snd]. destruct (vset f i _) as [f'|]; cbn [bind]; [|reflexivity].
    destruct (vset inds2 j oldIndex) as [inds3|]; reflexivity.
  Qed.

  Lemma up_cell_alone N u dt old i f :
    alone (up_cell_task ar N u dt i) (f, old) = (f' <- up_cell ar N u dt old i f ;; Ok (f', old)).
  Proof.
    unfold up_cell_task, up_cell. destruct (up_getIndexSet N u i) as [inds|]; cbn [bind priv alone]; [|reflexivity].
    rewrite (ploop_for _ (up_axis ar u dt old i)) by (intros; apply up_axis_alone). unfold for_upto.
    destruct (for_from 0 (Z.to_nat N) (up_axis ar u dt old i) (inds, f)) as [[x y]|]; reflexivity.
  Qed.

  Lemma acc_axis_alone N a dt old inds i k upI f after :
    alone (acc_axis_task ar N a dt inds i k upI after) (f, old) =
    (' (u, f') <- acc_axis ar N a dt old inds i k (upI, f) ;; alone (after u) (f', old)).
  Proof.
    unfold acc_axis_task, acc_axis.
    destruct (if k <? N then _ else _) as [w|]; cbn [bind priv]; [|reflexivity].
    destruct (vget (ac_coeff a) k) as [c|]; cbn [bind priv]; [|reflexivity]. destruct w as [u|]; cbn [bind priv]; [|reflexivity].
    cbn [alone mget fst snd]. destruct (vget old u) as [x|]; cbn [bind alone]; [|reflexivity].
    cbn [mget fst snd]. destruct (vget old i) as [y|]; cbn [bind alone]; [|reflexivity].
    cbn [mget fst snd]. destruct (vget f i) as [z|]; cbn [bind alone]; [|reflexivity].
    cbn [mset fst snd]. destruct (vset f i _) as [f'|]; reflexivity.
  Qed.

  Lemma acc_cell_alone N a dt old i f :
    alone (acc_cell_task ar N a dt i) (f, old) = (f' <- acc_cell ar N a dt old i f ;; Ok (f', old)).
  Proof.
    unfold acc_cell_task, acc_cell. destruct (acc_inds N a i) as [inds|]; cbn [bind priv alone]; [|reflexivity].
    rewrite (ploop_for _ (acc_axis ar N a dt old inds i)) by (intros; apply acc_axis_alone). unfold for_upto. change (Z.to_nat 3) with 3%nat.
    destruct (for_from 0 3 (acc_axis ar N a dt old inds i) (None, f)) as [[x y]|]; reflexivity.
  Qed.

  (** *** Which elements an iteration accesses *)
  Lemma copy_respects i : respects (cell_of OldF i) (other OldF) (@copy_task D i).
  Proof. cbn. unfold cell_of, other. cbn. intuition discriminate. Qed.

  Lemma ploop_respects {S} body mine ro (after : S -> cmd D) cnt : (forall s, respects mine ro (after s)) ->
    (forall i s k, (forall s, respects mine ro (k s)) -> respects mine ro (body i s k)) -> forall k s, respects mine ro (ploop k cnt body s after).
  Proof. intros Ha Hb. induction cnt as [|cnt IH]; intros k s; cbn [ploop]; auto. Qed.

  Lemma priv_respects {A} mine ro (r : res A) k : (forall a, respects mine ro (k a)) -> @respects D mine ro (priv r k).
  Proof. intros H. destruct r; cbn; auto. Qed.

  Lemma up_cell_respects N u dt i : respects (cell_of F i) (other F) (up_cell_task ar N u dt i).
  Proof.
    unfold up_cell_task. apply priv_respects. intros inds. apply ploop_respects; [intros; exact I|]. intros j s k Hk. unfold up_axis_task.
    apply priv_respects. intros [[[coeff inds'] upI] o]. cbn [respects]. unfold cell_of, other; cbn [fst].
    repeat (split; [first [left; reflexivity|right; discriminate|reflexivity]|]; intros). apply priv_respects. exact Hk.
  Qed.

  Lemma acc_cell_respects N a dt i : respects (cell_of F i) (other F) (acc_cell_task ar N a dt i).
  Proof.
    unfold acc_cell_task. apply priv_respects. intros inds. apply ploop_respects; [intros; exact I|]. intros j s k Hk. unfold acc_axis_task.
    apply priv_respects. intros [[upI c] u]. cbn [respects]. unfold cell_of, other; cbn [fst].
    repeat (split; [first [left; reflexivity|right; discriminate|reflexivity]|]; intros). apply Hk.
  Qed.

  (** *** How many accesses an iteration makes *)
  Lemma ploop_atmost {S} body n (after : S -> cmd D) cnt : (forall s, atmost 0 (after s)) ->
    (forall i s k m, (forall s, atmost m (k s)) -> atmost (n + m) (body i s k)) -> forall k s, atmost (cnt * n) (ploop k cnt body s after).
  Proof. intros Ha Hb. induction cnt as [|cnt IH]; intros k s; cbn [ploop]; [apply Ha|]. cbn [Nat.mul]. apply Hb. intros s'. apply IH. Qed.

  Lemma priv_atmost {A} n (r : res A) k : (forall a, atmost n (k a)) -> @atmost D n (priv r k).
  Proof. intros H. destruct r; cbn; auto. Qed.

  Lemma up_cell_atmost N u dt i : atmost (Z.to_nat N * 4) (up_cell_task ar N u dt i).
  Proof.
    unfold up_cell_task. apply priv_atmost. intros inds. apply ploop_atmost; [intros; exact I|]. intros j s k m Hk. unfold up_axis_task.
    apply priv_atmost. intros [[[coeff inds'] upI] o]. cbn [atmost Nat.add].
    repeat (eexists; split; [reflexivity|]; intros). apply priv_atmost. exact Hk.
  Qed.

  Lemma acc_cell_atmost N a dt i : atmost 12 (acc_cell_task ar N a dt i).
  Proof.
    unfold acc_cell_task. apply priv_atmost. intros inds. apply (ploop_atmost _ 4 _ 3); [intros; exact I|]. intros j s k m Hk. unfold acc_axis_task.
    apply priv_atmost. intros [[upI c] u]. cbn [atmost Nat.add].
    repeat (eexists; split; [reflexivity|]; intros). apply Hk.
  Qed.

  Lemma copy_atmost i : atmost 2 (@copy_task D i).
  Proof. cbn. eexists; split; [reflexivity|]. intros x. eexists; split; [reflexivity|exact I]. Qed.
End Sequential.
