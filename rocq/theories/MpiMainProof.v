(** * The MPI programs rank by rank: the calls of all ranks in step *)
From Coq Require Import List String.
From Verif Require Import Cpp CppProof Radix OMap MaiModel MaiSpec MaiProof CdModel CdSpec CdProof CmdModel FilterModel FilterSpec FilterProof FilterRank LapModel UpMpiModel VtkModel
  NumModel NumProof TextModel TextProof MpiTextModel MpiSchedModel MpiSchedSpec MpiSchedFilter MpiMainModel.
Import ListNotations.
Local Open Scope string_scope.
Local Open Scope Z_scope.
Local Arguments Z.of_nat : simpl never.
Local Arguments prodZ : simpl never.

(** ** One call of all ranks *)
Section Calls.
  Context {S E V R X : Type} (expose : S -> list Z -> res (list E)).
  Notation process := (proc S E V R).

  Lemma coll_quiet a (v : X -> list V) (s : X -> option S) (k : X -> process) l xs :
    receives a = false -> lockstep expose (map k l) xs ->
    lockstep expose (map (fun x => Coll a (v x) (s x) (fun _ => k x)) l) xs.
  Proof using Type.
    intros Ha H. apply (lockstep_coll expose a _ (map k l)); [|exact H]. split; [rewrite !map_length; reflexivity|].
    exists 0%nat, (map v l). split; [rewrite !map_length; reflexivity|]. split; [intros; congruence|].
    intros i p Hp. rewrite nth_error_map in Hp. destruct (nth_error l i) as [x|] eqn:Ex; [|discriminate]. inversion Hp; subst.
    exists (v x), (s x), (fun _ => k x). split; [reflexivity|]. rewrite !nth_error_map, Ex. split; reflexivity.
  Qed.

  Lemma coll_root a (v : X -> list V) (s : X -> option S) (k : X -> list (list V) -> process) l (rt : X -> bool) n xs :
    receives a = true -> (forall i x, nth_error l i = Some x -> rt x = (i =? 0)%nat) -> (forall x, In x l -> List.length (v x) = n) ->
    lockstep expose (map (fun x => k x (if rt x then map v l else [])) l) xs ->
    lockstep expose (map (fun x => Coll a (v x) (s x) (k x)) l) xs.
  Proof using Type.
    intros Ha Hr Hn H. apply (lockstep_coll expose a _ (map (fun x => k x (if rt x then map v l else [])) l)); [|exact H].
    split; [rewrite !map_length; reflexivity|].
    exists n, (map v l). split; [rewrite !map_length; reflexivity|].
    split; [intros u Hu _; apply in_map_iff in Hu as (x & <- & Hx); apply Hn, Hx|].
    intros i p Hp. rewrite nth_error_map in Hp. destruct (nth_error l i) as [x|] eqn:Ex; [|discriminate]. inversion Hp; subst.
    exists (v x), (s x), (k x). split; [reflexivity|]. rewrite !nth_error_map, Ex. split; [reflexivity|].
    cbn [option_map]. rewrite Ha, (Hr i x Ex). reflexivity.
  Qed.
End Calls.

Lemma tab_Forall2 {A} (body : Z -> res A) n : forall k l, tab_from k n body = Ok l ->
  Forall2 (fun i a => body i = Ok a) (map Z.of_nat (seq k n)) l.
Proof.
  induction n as [|n IH]; intros k l E; cbn [tab_from] in E; [inversion E; constructor|].
  apply bind_ok in E as (x & Ex & E). apply bind_ok in E as (t & Et & E). inversion E; subst. cbn [seq map]. constructor; [exact Ex|].
  apply IH. exact Et.
Qed.

Lemma Forall2_mid {A B C} (P : A -> B -> Prop) (Q : B -> C -> Prop) l l' :
  Forall2 (fun a c => exists b, P a b /\ Q b c) l l' -> exists m, Forall2 P l m /\ Forall2 Q m l'.
Proof.
  induction 1 as [|a c l l' (b & H1 & H2) _ (m & I1 & I2)]; [exists []; split; constructor|]. exists (b :: m). split; constructor; assumption.
Qed.
Lemma Forall2_in_r {A B} (P : A -> B -> Prop) l l' b : Forall2 P l l' -> In b l' -> exists a, In a l /\ P a b.
Proof.
  induction 1 as [|a c l l' H _ IH]; intros Hb; [destruct Hb|]. destruct Hb as [<-|Hb]; [exists a; split; [left; reflexivity|exact H]|].
  destruct (IH Hb) as (a' & Ha & H'). exists a'. split; [right; exact Ha|exact H'].
Qed.
Lemma Forall2_in_l {A B} (P : A -> B -> Prop) l l' a : Forall2 P l l' -> In a l -> exists b, In b l' /\ P a b.
Proof.
  induction 1 as [|c b l l' H _ IH]; intros Hb; [destruct Hb|]. destruct Hb as [<-|Hb]; [exists b; split; [left; reflexivity|exact H]|].
  destruct (IH Hb) as (b' & Ha & H'). exists b'. split; [right; exact Ha|exact H'].
Qed.

Lemma nth_error_eq {A} (l l' : list A) : (forall i, nth_error l i = nth_error l' i) -> l = l'.
Proof.
  revert l'. induction l as [|a l IH]; intros [|b l'] H; [reflexivity|discriminate (H 0%nat)|discriminate (H 0%nat)|].
  pose proof (H 0%nat) as H0. inversion H0; subst. f_equal. apply IH. intros i. apply (H (S i)).
Qed.

Lemma Forall2_exists {A B} (P : A -> B -> Prop) l : (forall a, In a l -> exists b, P a b) -> exists l', Forall2 P l l'.
Proof.
  induction l as [|a l IH]; intros H; [exists []; constructor|]. destruct (H a (or_introl eq_refl)) as (b & Hb).
  destruct IH as (l' & Hl); [intros a' Ha; apply H; right; exact Ha|]. exists (b :: l'). constructor; assumption.
Qed.

Lemma for_from_run {St} (I : nat -> St -> Prop) body : (forall j s s', body (Z.of_nat j) s = Ok s' -> I j s -> I (S j) s') ->
  forall cnt k s s', I k s -> for_from k cnt body s = Ok s' -> I (k + cnt)%nat s'.
Proof.
  intros H. induction cnt as [|cnt IH]; intros k s s' H0 E; cbn [for_from] in E.
  - inversion E; subst. rewrite Nat.add_0_r. exact H0.
  - apply bind_ok in E as (s1 & E1 & E). replace (k + S cnt)%nat with (S k + cnt)%nat by lia. apply (IH (S k) s1 s'); [|exact E]. apply (H k s s1 E1 H0).
Qed.

(** A loop advances an iterator by one in each pass. *)
Lemma for_next {X L} (len : X -> L) (body : Z -> mai * X -> res (mai * X)) :
  (forall i m x m' x', body i (m, x) = Ok (m', x') -> m' = mai_next m /\ len x' = len x) ->
  forall n m x m' x', for_upto n body (m, x) = Ok (m', x') -> m' = Nat.iter (Z.to_nat n) mai_next m /\ len x' = len x.
Proof.
  intros H n m x m' x' E. unfold for_upto in E.
  apply (for_from_run (fun j s => fst s = Nat.iter j mai_next m /\ len (snd s) = len x)) in E; [exact E| |split; reflexivity].
  intros j [m1 x1] [m2 x2] E1 (H1 & H2). apply H in E1 as (-> & Hx). cbn [fst snd] in *. rewrite H1, Hx, H2. split; reflexivity.
Qed.

(** The iterator after a loop over all its terms. *)
Definition adv (m : mai) : mai := Nat.iter (Z.to_nat (m_ntot m)) mai_next (mai_begin m).
Lemma iter_next n m : exists b, Nat.iter n mai_next m = mai_setBig m b.
Proof.
  induction n as [|n (b & IH)]; [exists (m_bigIndex m); destruct m; reflexivity|].
  change (Nat.iter (S n) mai_next m) with (mai_next (Nat.iter n mai_next m)). rewrite IH. eexists. reflexivity.
Qed.
Lemma adv_adv m : adv (adv m) = adv m.
Proof. unfold adv at 2. destruct (iter_next (Z.to_nat (m_ntot m)) (mai_begin m)) as (b & ->). reflexivity. Qed.

Section Main.
  Context {D : Type} (ar : arith D) (show : D -> string) (reduce : nat -> list D -> D) (rtime : redop -> list D -> D) (wall : Z -> D)
    (atof : string -> D) (tolerant : bool).
  Notation process := (proc (filter D) (option D) D TextModel.run).
  Notation lockstep := (lockstep (R := TextModel.run) exposed).
  Implicit Types f g : filter D.
  Implicit Types w : list (filter D).

  (** The filters of all ranks, in order. *)
  Definition ranked w : Prop := forall i f, nth_error w i = Some f -> f_rk f = Z.of_nat i.

  Lemma ranked_root w i f : ranked w -> nth_error w i = Some f -> (f_rk f =? 0) = (i =? 0)%nat.
  Proof using Type. intros H E. rewrite (H i f E). destruct i; [reflexivity|]. apply Z.eqb_neq. lia. Qed.
  Lemma ranked_const w w' : Forall2 (fun f f' => const f' = const f) w w' -> ranked w -> ranked w'.
  Proof using Type.
    intros H R i f' E. assert (i < List.length w')%nat as Hi by (apply nth_error_Some; congruence). rewrite <- (Forall2_len _ _ _ H) in Hi.
    destruct (nth_error w i) as [f|] eqn:Ef; [|apply nth_error_None in Ef; lia]. destruct (Forall2_nth _ _ _ i f H Ef) as (g & Eg & Hg).
    assert (g = f') by congruence. subst g. rewrite <- (R i f Ef). unfold const in Hg. congruence.
  Qed.
  Lemma ranked_ranks w : ranked w -> map f_rk w = map Z.of_nat (seq 0 (List.length w)).
  Proof using Type.
    intros H. apply nth_error_eq. intros i. rewrite !nth_error_map. destruct (nth_error w i) as [f|] eqn:E.
    - assert (i < List.length w)%nat as Hi by (apply nth_error_Some; congruence). cbn [option_map]. rewrite (H i f E).
      rewrite (nth_error_nth' _ 0%nat) by (rewrite seq_length; exact Hi). rewrite seq_nth by exact Hi. reflexivity.
    - apply nth_error_None in E. replace (nth_error (seq 0 (List.length w)) i) with (@None nat); [reflexivity|].
      symmetry. apply nth_error_None. rewrite seq_length. exact E.
  Qed.

  (** ** The constructor *)
  Lemma ctor_step_const it f f1 : ctor_step it f = Ok f1 -> const f1 = const f.
  Proof using Type.
    unfold ctor_step. destruct (filter_getNumberOfNonZeroElements (fst it) =? 0); [intros E; inversion E; reflexivity|]. intros E.
    apply bind_ok in E as (side & _ & E). apply bind_ok in E as (n & _ & E). apply newWindow_alike in E as (A & _). exact A.
  Qed.

  Lemma windows_lockstep (k : Z -> filter D -> process) xs st : forall w w',
    Forall2 (fun f f' => for_each st ctor_step f = Ok f') w w' -> lockstep (map (fun f => k (f_rk f) f) w') xs ->
    lockstep (map (fun f => windows_proc st f (k (f_rk f))) w) xs.
  Proof using Type.
    induction st as [|it st IH]; intros w w' H HL; cbn [for_each windows_proc] in *.
    - assert (w = w') as -> by (clear - H; induction H as [|f f' w w' E _ IH]; [reflexivity|inversion E; rewrite IH; reflexivity]). exact HL.
    - assert (HM : exists w1, Forall2 (fun f f1 => ctor_step it f = Ok f1) w w1 /\ Forall2 (fun f1 f' => for_each st ctor_step f1 = Ok f') w1 w').
      { apply Forall2_mid. revert H. apply Forall2_imp. intros f f' _ E. apply bind_ok in E. exact E. }
      destruct HM as (w1 & H1 & H2). specialize (IH w1 w' H2 HL).
      erewrite (map_Forall2 _ _ (fun f1 => if filter_getNumberOfNonZeroElements (fst it) =? 0 then windows_proc st f1 (k (f_rk f1))
                                           else Coll WinCreate [] (Some f1) (fun _ => windows_proc st f1 (k (f_rk f1)))) w w1) with (2 := H1).
      2:{ intros f f1 E. pose proof (ctor_step_const it f f1 E) as HC. assert (f_rk f1 = f_rk f) as -> by (unfold const in HC; congruence).
          unfold ctor_step in E. destruct (filter_getNumberOfNonZeroElements (fst it) =? 0); [inversion E; reflexivity|]. cbv zeta in E. rewrite E. reflexivity. }
      destruct (filter_getNumberOfNonZeroElements (fst it) =? 0); [exact IH|].
      apply (coll_quiet exposed WinCreate (fun _ => []) Some (fun f1 => windows_proc st f1 (k (f_rk f1)))); [reflexivity|exact IH].
  Qed.

  Lemma world_new_Forall2 sz dims x0 x1 st w : world_new ar sz dims x0 x1 st = Ok w ->
    Forall2 (fun rk f => filter_new ar rk sz dims x0 x1 st = Ok f) (map Z.of_nat (seq 0 (Z.to_nat sz))) w.
  Proof using Type. intros E. apply tab_Forall2 in E. exact E. Qed.

  (** What the constructor leaves in every filter. *)
  Lemma world_new_const sz dims x0 x1 st w : world_new ar sz dims x0 x1 st = Ok w ->
    ranked w /\ List.length w = Z.to_nat sz /\ alike w /\
    forall f, In f w -> exists valid c, cd_build cd_empty sz dims = Ok (valid, c) /\ const f = (f_rk f, sz, vlen dims, dims, x0, x1, valid).
  Proof using Type.
    intros E. pose proof (world_new_Forall2 _ _ _ _ _ _ E) as H. pose proof (Forall2_len _ _ _ H) as HL. rewrite map_length, seq_length in HL.
    split; [|split; [lia|split; [apply (world_new_alike ar _ _ _ _ _ _ E)|]]].
    - intros i f Ei. assert (i < List.length w)%nat as Hi by (apply nth_error_Some; congruence). rewrite <- HL in Hi.
      assert (Es : nth_error (map Z.of_nat (seq 0 (Z.to_nat sz))) i = Some (Z.of_nat i)).
      { rewrite nth_error_map, (nth_error_nth' _ 0%nat), seq_nth by (try rewrite seq_length; exact Hi). reflexivity. }
      destruct (Forall2_nth _ _ _ i _ H Es) as (g & Eg & Hg). assert (g = f) by congruence. subst g.
      destruct (new_alike ar _ _ _ _ _ _ _ _ _ Hg Hg) as ((v & c & _ & HC) & _). unfold const in HC. congruence.
    - intros f Hf. destruct (Forall2_in_r _ _ _ f H Hf) as (rk & _ & Hr). destruct (new_alike ar _ _ _ _ _ _ _ _ _ Hr Hr) as ((v & c & Hc & HC) & _).
      exists v, c. split; [exact Hc|]. rewrite HC. unfold const in HC. congruence.
  Qed.

  Lemma new_lockstep sz dims x0 x1 st w (k : Z -> filter D -> process) xs :
    world_new ar sz dims x0 x1 st = Ok w -> lockstep (map (fun f => k (f_rk f) f) w) xs ->
    lockstep (map (fun rk => new_proc ar rk sz dims x0 x1 st (k rk)) (map Z.of_nat (seq 0 (Z.to_nat sz)))) xs.
  Proof using Type.
    intros E HL. pose proof (world_new_Forall2 _ _ _ _ _ _ E) as H. revert H. generalize (map Z.of_nat (seq 0 (Z.to_nat sz))). intros ranks H.
    assert (HR : Forall2 (fun rk f => filter_new ar rk sz dims x0 x1 st = Ok f /\ f_rk f = rk) ranks w).
    { revert H. apply Forall2_imp. intros rk f _ Ef. split; [exact Ef|]. destruct (new_alike ar _ _ _ _ _ _ _ _ _ Ef Ef) as ((v & c & _ & HC) & _).
      unfold const in HC. congruence. }
    clear E H. unfold new_proc. destruct (cd_build cd_empty sz dims) as [[valid dcmp]|u] eqn:Eb.
    2:{ destruct HR as [|rk f ranks w [Ef _] _]; [exact HL|]. unfold filter_new in Ef. rewrite Eb in Ef. discriminate. }
    cbn [priv]. destruct valid; cbn [negb].
    2:{ erewrite (map_Forall2 _ _ (fun f => k (f_rk f) f) ranks w) with (2 := HR); [exact HL|].
        intros rk f [Ef Er]. unfold filter_new in Ef. rewrite Eb in Ef. cbn [bind negb] in Ef. inversion Ef; subst. reflexivity. }
    match goal with |- lockstep (map (fun rk => priv (@?init rk) _) _) _ => set (ini := init) end.
    assert (HM : exists w0, Forall2 (fun rk f0 => ini rk = Ok f0 /\ f_rk f0 = rk) ranks w0 /\ Forall2 (fun f0 f => for_each st ctor_step f0 = Ok f) w0 w).
    { apply Forall2_mid. revert HR. apply Forall2_imp. intros rk f _ [Ef Er]. unfold filter_new in Ef. rewrite Eb in Ef. cbn [bind negb] in Ef. unfold ini.
      apply bind_ok in Ef as ((lo & c) & -> & Ef). cbn [bind]. apply bind_ok in Ef as ((hi & c1) & -> & Ef). cbn [bind].
      apply bind_ok in Ef as (mit & -> & Ef). cbn [bind]. eexists. split; [split; reflexivity|]. exact Ef. }
    destruct HM as (w0 & H1 & H2).
    rewrite (map_Forall2 _ _ (fun f0 => windows_proc st f0 (k (f_rk f0))) ranks w0) with (2 := H1).
    2:{ intros rk f0 [Ef Er]. unfold ini in Ef. cbv beta zeta in Ef |- *. rewrite Ef, Er. reflexivity. }
    apply (windows_lockstep k xs st w0 w H2 HL).
  Qed.

  (** ** The destructor *)
  Definition freeable (wins : list (list Z * (Z * Z * Z))) f : Prop :=
    osorted lexcmp (f_winIds f) /\ incl wins (f_winIds f) /\ NoDup (flat_map ids3 wins) /\ incl (flat_map ids3 wins) (f_allocs f).

  Lemma release_ok live i : In i live -> release live i = Ok (remove Z.eq_dec i live).
  Proof using Type.
    intros H. unfold release. replace (existsb (Z.eqb i) live) with true; [reflexivity|]. symmetry. apply existsb_exists. exists i. split; [exact H|apply Z.eqb_refl].
  Qed.

  Lemma free_step s i wins f (k : process) : freeable ((s, i) :: wins) f ->
    exists f1 f2, free_proc ((s, i) :: wins) f k = Coll (WinFree s) [] (Some f1) (fun _ => free_proc wins f2 k) /\ freeable wins f2.
  Proof using Type.
    intros (Hs & Hi & Hn & Ha). destruct i as [[i1 i2] i3]. cbn [flat_map ids3 snd app] in Hn, Ha.
    assert (EF : omap_find lexcmp s (f_winIds f) = Some (i1, i2, i3)) by (apply lfind_In; [exact Hs|apply Hi; left; reflexivity]).
    inversion Hn as [|? ? N1 Hn1]; subst. inversion Hn1 as [|? ? N2 Hn2]; subst. inversion Hn2 as [|? ? N3 Hn3]; subst. cbn [In] in N1, N2.
    set (a1 := remove Z.eq_dec i1 (f_allocs f)). set (a2 := remove Z.eq_dec i2 a1).
    assert (I1 : In i1 (f_allocs f)) by (apply Ha; left; reflexivity).
    assert (I2 : In i2 a1) by (apply in_in_remove; [intros E; apply N1; left; congruence|apply Ha; right; left; reflexivity]).
    assert (I3 : In i3 a2).
    { apply in_in_remove; [intros E; apply N2; left; congruence|]. apply in_in_remove; [intros E; apply N1; right; left; congruence|]. apply Ha. right. right. left. reflexivity. }
    cbn [free_proc fst]. rewrite EF, (release_ok _ _ I1). cbn [bind]. fold a1. rewrite (release_ok _ _ I2). cbn [bind priv]. fold a2.
    cbn [set_ids f_winIds f_allocs]. rewrite EF, (release_ok _ _ I3). cbn [priv].
    eexists. eexists. split; [reflexivity|]. unfold freeable. cbn [set_ids f_winIds f_allocs].
    split; [exact Hs|]. split; [intros x Hx; apply Hi; right; exact Hx|]. split; [exact Hn3|].
    intros x Hx. apply in_in_remove; [intros ->; contradiction|]. apply in_in_remove; [intros ->; apply N2; right; exact Hx|].
    apply in_in_remove; [intros ->; apply N1; right; right; exact Hx|]. apply Ha. right. right. right. exact Hx.
  Qed.

  Lemma free_lockstep xs keys : forall l : list (list (list Z * (Z * Z * Z)) * filter D * process),
    (forall p, In p l -> map fst (fst (fst p)) = keys /\ freeable (fst (fst p)) (snd (fst p))) ->
    lockstep (map snd l) xs -> lockstep (map (fun p => free_proc (fst (fst p)) (snd (fst p)) (snd p)) l) xs.
  Proof using Type.
    induction keys as [|s keys IH]; intros l H HL.
    - erewrite map_ext_in; [exact HL|]. intros [[wins f] k] Hp. destruct (H _ Hp) as (E & _). cbn [fst snd] in *. destruct wins; [reflexivity|discriminate].
    - destruct (Forall2_exists (fun p q => free_proc (fst (fst p)) (snd (fst p)) (snd p) = Coll (WinFree s) [] (Some (fst q)) (fun _ => free_proc (fst (fst (snd q))) (snd (fst (snd q))) (snd (snd q))) /\
          map fst (fst (fst (snd q))) = keys /\ freeable (fst (fst (snd q))) (snd (fst (snd q))) /\ snd (snd q) = snd p) l) as (l' & Hl).
      { intros [[wins f] k] Hp. destruct (H _ Hp) as (E & HF). cbn [fst snd] in *. destruct wins as [|[s' i] wins]; [discriminate|]. inversion E; subst.
        destruct (free_step s i wins f k HF) as (f1 & f2 & E1 & HF2). exists (f1, (wins, f2, k)). cbn [fst snd]. auto. }
      erewrite (map_Forall2 _ _ _ l l') with (2 := Hl); [|intros p q (E & _); exact E].
      apply (coll_quiet exposed (WinFree s) (fun _ => []) (fun q => Some (fst q)) (fun q => free_proc (fst (fst (snd q))) (snd (fst (snd q))) (snd (snd q)))); [reflexivity|].
      rewrite <- (map_map snd (fun p => free_proc (fst (fst p)) (snd (fst p)) (snd p))). apply IH.
      + intros p Hp. apply in_map_iff in Hp as (q & <- & Hq). destruct (Forall2_in_r _ _ _ q Hl Hq) as (p & _ & _ & A & B & _). split; assumption.
      + rewrite map_map. replace (map (fun x => snd (snd x)) l') with (map snd l); [exact HL|]. apply (map_Forall2 _ snd (fun x => snd (snd x)) l l') with (2 := Hl).
        intros p q (_ & _ & _ & E). symmetry. exact E.
  Qed.

  Lemma delete_lockstep w (k : filter D -> process) xs : alike w -> lockstep (map k w) xs -> lockstep (map (fun f => delete_proc f (k f)) w) xs.
  Proof using Type.
    intros (HO & HA) HL. destruct w as [|f0 w0] eqn:Ew; [exact HL|]. rewrite <- Ew in *.
    assert (H0 : In f0 w) by (rewrite Ew; left; reflexivity). clear Ew.
    pose proof (free_lockstep xs (map fst (f_winIds f0)) (map (fun f => (f_winIds f, f, k f)) w)) as HF. rewrite !map_map in HF. apply HF; [|exact HL].
    intros p Hp. apply in_map_iff in Hp as (f & <- & Hf). cbn [fst snd]. split; [apply HA; assumption|].
    destruct (HO f Hf) as (_ & A & B & C & _). split; [exact A|]. split; [apply incl_refl|]. split; [exact B|exact C].
  Qed.

  (** ** The iterators and the lengths of the fields *)

  (** The iterator is where a loop over all its terms leaves it. *)
  Definition ended f : Prop := exists m, f_mit f = Some m /\ adv m = m.
  Definition outlen f : nat := List.length (f_outData f).

  Lemma ended_adv f m : f_mit f = Some (adv m) -> ended f.
  Proof using Type. intros E. exists (adv m). split; [exact E|apply adv_adv]. Qed.
  Lemma set_mit_ended f m : f_mit f = Some m -> adv m = m -> set_mit f (adv m) = f.
  Proof using Type. intros E A. rewrite A. destruct f. unfold set_mit. cbn in E |- *. rewrite E. reflexivity. Qed.
  Lemma get_mit_ok f m : get_mit f = Ok m -> f_mit f = Some m.
  Proof using Type. unfold get_mit. destruct (f_mit f); [|discriminate]. intros E. inversion E. reflexivity. Qed.
  Lemma vset_length {A} (v : list A) i a v' : vset v i a = Ok v' -> List.length v' = List.length v.
  Proof using Type. unfold vset. destruct (_ && _); [|discriminate]. intros E. inversion E. apply upd_length. Qed.

  Lemma publish_ended data f f' : filter_publish data f = Ok f' -> (f_mit f', f_outData f') = (f_mit f, f_outData f).
  Proof using Type.
    unfold filter_publish. intros E. apply bind_ok in E as (mit & _ & E). revert E. apply (for_each_keeps (fun f => (f_mit f, f_outData f))).
    clear. intros s f f' E. apply bind_ok in E as ((src & dst) & _ & E). apply bind_ok in E as (wit & _ & E).
    apply bind_ok in E as ((wit' & src') & _ & E). inversion E. reflexivity.
  Qed.
  Lemma setInData_ended u f f' : filter_setInData ar f u = Ok f' -> ended f' /\ outlen f' = outlen f.
  Proof using Type.
    unfold filter_setInData. intros E. apply bind_ok in E as (mit & _ & E). apply bind_ok in E as ((mit' & v) & E1 & E).
    apply publish_ended in E. inversion E as [[Em Eo]]. apply (for_next (fun _ => tt)) in E1 as (-> & _).
    - split; [apply (ended_adv f' mit Em)|]. unfold outlen. rewrite Eo. reflexivity.
    - clear. intros i m x m' x' E. apply bind_ok in E as (inds & _ & E). apply bind_ok in E as (pos & _ & E). apply bind_ok in E as (y & _ & E). inversion E. auto.
  Qed.
  Lemma setInDataByIndices_ended u f f' : filter_setInDataByIndices f u = Ok f' -> ended f' /\ outlen f' = outlen f.
  Proof using Type.
    unfold filter_setInDataByIndices. intros E. apply bind_ok in E as (mit & _ & E). apply bind_ok in E as ((mit' & v) & E1 & E).
    apply publish_ended in E. inversion E as [[Em Eo]]. apply (for_next (fun _ => tt)) in E1 as (-> & _).
    - split; [apply (ended_adv f' mit Em)|]. unfold outlen. rewrite Eo. reflexivity.
    - clear. intros i m x m' x' E. apply bind_ok in E as (inds & _ & E). apply bind_ok in E as (y & _ & E). inversion E. auto.
  Qed.
  Lemma copyOutToIn_ended f f' : filter_copyOutToIn f = Ok f' -> (ended f -> ended f') /\ outlen f' = outlen f.
  Proof using Type.
    unfold filter_copyOutToIn. intros E. apply bind_ok in E as (mit & _ & E). apply bind_ok in E as (v & _ & E).
    apply publish_ended in E. inversion E as [[Em Eo]]. split; [|unfold outlen; rewrite Eo; reflexivity].
    intros (m & H1 & H2). exists m. split; [rewrite Em; exact H1|exact H2].
  Qed.
  Lemma zeroOut_ended f f' : filter_zeroOut ar f = Ok f' -> ended f' /\ outlen f' = outlen f.
  Proof using Type.
    unfold filter_zeroOut. intros E. apply bind_ok in E as (mit & _ & E). apply bind_ok in E as ((mit' & v) & E1 & E). inversion E.
    apply (for_next (@List.length D)) in E1 as (-> & Hl).
    - split; [apply (ended_adv _ mit); reflexivity|exact Hl].
    - clear. intros i m x m' x' E. apply bind_ok in E as (y & Ey & E). inversion E; subst. split; [reflexivity|apply (vset_length _ _ _ _ Ey)].
  Qed.
  Lemma accumulate_ended f wit dst off v f' : filter_accumulate ar f wit dst off v = Ok f' -> ended f' /\ outlen f' = outlen f.
  Proof using Type.
    unfold filter_accumulate. intros E. apply bind_ok in E as (mit & _ & E). apply bind_ok in E as ((mit' & o) & E1 & E). inversion E.
    apply (for_next (@List.length D)) in E1 as (-> & Hl).
    - split; [apply (ended_adv _ mit); reflexivity|exact Hl].
    - clear. intros i m x m' x' E. apply bind_ok in E as (inds & _ & E). apply bind_ok in E as ((io & inside) & _ & E). apply bind_ok in E as (y & Ey & E).
      inversion E; subst. split; [reflexivity|]. clear E. destruct inside; [|destruct dst].
      + apply bind_ok in Ey as (b & _ & Ey). apply bind_ok in Ey as (z & _ & Ey). apply bind_ok in Ey as (o & _ & Ey). apply (vset_length _ _ _ _ Ey).
      + apply bind_ok in Ey as (b & _ & Ey). apply bind_ok in Ey as (z & _ & Ey). apply bind_ok in Ey as (o & _ & Ey). apply (vset_length _ _ _ _ Ey).
      + inversion Ey. reflexivity.
  Qed.
  Lemma apply_ended remote f f' : filter_applyFilter ar remote f = Ok f' -> shape f' = shape f /\ ended f' /\ outlen f' = outlen f.
  Proof using Type.
    unfold filter_applyFilter. intros E. apply bind_ok in E as (f1 & E1 & E). pose proof (proj1 (zeroOut_keeps ar f f1 E1)) as H0. apply zeroOut_ended in E1 as (H1 & H2).
    assert (HB : forall l g g', ended g -> for_each l (fun it f => filter_branch ar remote f it) g = Ok g' -> shape g' = shape g /\ ended g' /\ outlen g' = outlen g).
    2:{ destruct (HB _ _ _ H1 E) as (A0 & A & B). split; [congruence|]. split; [exact A|congruence]. }
    clear. induction l as [|it l IH]; intros g g' Hg E; cbn [for_each] in E; [inversion E; subst; auto|]. apply bind_ok in E as (g1 & E1 & E).
    assert (H1 : shape g1 = shape g /\ ended g1 /\ outlen g1 = outlen g).
    2:{ destruct H1 as (A0 & A & B). destruct (IH g1 g' A E) as (A1 & A' & B'). split; [congruence|]. split; [exact A'|congruence]. }
    clear - E1. unfold filter_branch in E1. destruct it as [offset val]. apply bind_ok in E1 as (side & _ & E). apply bind_ok in E as ((rk & c) & _ & E).
    apply bind_ok in E as ((wit & f1) & EW & E). apply bind_ok in E as ((dst & f2) & EF & E). pose proof (proj1 (accumulate_keeps ar _ _ _ _ _ _ E)) as A0. apply accumulate_ended in E as (A & B).
    enough (shape f2 = shape g /\ outlen f2 = outlen g) as (E1 & E2) by (split; [congruence|split; [exact A|congruence]]). clear A A0 B.
    assert (HS : shape f1 = shape g) by (apply windowIter_keeps in EW as (HS & _); exact HS).
    assert (HO : outlen f1 = outlen g).
    { unfold filter_getWindowIter in EW. apply bind_ok in EW as ((a & b) & _ & EW). apply bind_ok in EW as ((a' & b') & _ & EW). apply bind_ok in EW as ((u & v) & _ & EW).
      apply bind_ok in EW as (m & _ & EW). inversion EW. reflexivity. }
    destruct (omap_find lexcmp side (f_winIds f1)); [|inversion EF; subst; auto]. rewrite <- HS, <- HO. apply bind_ok in EF as ((d & f3) & EF & E3). inversion E3; subst.
    unfold filter_fetch in EF. apply bind_ok in EF as (wi & _ & EF). apply bind_ok in EF as (id & _ & EF). apply bind_ok in EF as ((sr & ds) & _ & EF).
    destruct (_ <? 0); [discriminate|]. destruct (negb _); [discriminate|]. apply bind_ok in EF as (da & _ & EF). destruct (_ <? _); [discriminate|].
    destruct (_ <? _); [discriminate|]. inversion EF. split; reflexivity.
  Qed.

  Lemma localSum_ended f b s f' : ended f -> filter_localSum ar f b = Ok (s, f') -> f' = f.
  Proof using Type.
    intros (m & H1 & H2) E. unfold filter_localSum, get_mit in E. rewrite H1 in E. cbn [bind] in E. apply bind_ok in E as ((mit & v) & E1 & E).
    apply (for_next (fun _ => tt)) in E1 as (-> & _); [|intros i m0 x m' x' E0; apply bind_ok in E0 as (y & _ & E0); inversion E0; auto].
    inversion E. apply (set_mit_ended f m H1 H2).
  Qed.
  Lemma print_ended f b s f' : ended f -> filter_print f b = Ok (s, f') -> f' = f.
  Proof using Type.
    intros (m & H1 & H2) E. unfold filter_print, get_mit in E. rewrite H1 in E. cbn [bind] in E. apply bind_ok in E as ((mit & v) & E1 & E).
    apply (for_next (fun _ => tt)) in E1 as (-> & _);
      [|intros i m0 x m' x' E0; apply bind_ok in E0 as (inds & _ & E0); apply bind_ok in E0 as (y & _ & E0); inversion E0; auto].
    inversion E. apply (set_mit_ended f m H1 H2).
  Qed.
  Lemma saveVTK_ended f buf fld f' : ended f -> filter_saveVTK_root ar buf f = Ok (fld, f') -> exists c, f' = set_dcmp f c.
  Proof using Type.
    intros (m & H1 & H2) E. unfold filter_saveVTK_root, get_mit in E. rewrite H1 in E. apply bind_ok in E as (ntot & _ & E).
    apply bind_ok in E as (git & _ & E). cbn [bind] in E. apply bind_ok in E as (((c & mit) & gf) & E1 & E). inversion E. exists c. clear E.
    unfold for_upto in E1. apply (for_from_run (fun _ s => snd (fst s) = m)) in E1; [|clear E1|reflexivity].
    - cbn [fst snd] in E1. subst mit. rewrite <- H2 at 1. rewrite set_mit_ended; [reflexivity| |exact H2]. exact H1.
    - intros j [[c1 m1] g1] [[c2 m2] g2] E1 Em. cbn [fst snd] in *. subst m1. apply bind_ok in E1 as ((bi & c3) & _ & E1).
      apply bind_ok in E1 as ((m3 & g3) & E2 & E1). inversion E1; subst.
      apply (for_next (fun _ => tt)) in E2 as (-> & _); [exact H2|].
      clear. intros i m0 x m' x' E0. repeat (let y := fresh in apply bind_ok in E0 as (y & _ & E0)). inversion E0; auto.
  Qed.
  Lemma localSum_dcmp f c b : filter_localSum ar (set_dcmp f c) b = (' (s, f') <- filter_localSum ar f b ;; Ok (s, set_dcmp f' c)).
  Proof using Type.
    unfold filter_localSum, get_mit. cbn [set_dcmp f_mit f_inData f_outData]. destruct (f_mit f); [|reflexivity]. cbn [bind].
    destruct (for_upto _ _ _) as [[mit s]|]; reflexivity.
  Qed.

  (** ** What the ranks contribute *)
  Lemma reduce_lockstep o (v : filter D -> D) red (k : filter D -> D -> process) w xs : ranked w ->
    lockstep (map (fun f => k f (if f_rk f =? 0 then red (map v w) else a_zero ar)) w) xs ->
    lockstep (map (fun f => reduce_proc ar o (v f) red f (k f)) w) xs.
  Proof using Type.
    intros HR HL. unfold reduce_proc.
    apply (coll_root exposed (Reduce o) (fun f => [v f]) Some (fun f got => k f (if f_rk f =? 0 then red (List.concat got) else a_zero ar)) w (fun f => f_rk f =? 0) 1%nat).
    - reflexivity.
    - intros i f E. apply (ranked_root w i f HR E).
    - reflexivity.
    - erewrite map_ext_in; [exact HL|]. intros f _. cbv beta. destruct (f_rk f =? 0); [|reflexivity]. do 2 f_equal.
      clear. induction w as [|f w IH]; [reflexivity|]. cbn [map List.concat app]. rewrite IH. reflexivity.
  Qed.

  Lemma checksum_lockstep i b (k : filter D -> D -> filter D -> process) w sums xs :
    ranked w -> (forall f, In f w -> ended f) -> world_localSums ar w b = Ok sums ->
    lockstep (map (fun f => k f (if f_rk f =? 0 then reduce i sums else a_zero ar) f) w) xs ->
    lockstep (map (fun f => checksum_proc ar reduce i b f (k f)) w) xs.
  Proof using Type.
    intros HR HE ES HL. unfold world_localSums in ES. apply mapM_Forall2 in ES.
    set (v f := match filter_localSum ar f b with Ok (s, _) => s | Undef _ => a_zero ar end).
    assert (Ev : map v w = sums /\ forall f, In f w -> filter_localSum ar f b = Ok (v f, f)).
    { clear HR HL. induction ES as [|f s w sums E _ IH]; [split; [reflexivity|intros f []]|].
      destruct IH as (I1 & I2); [intros g Hg; apply HE; right; exact Hg|]. apply bind_ok in E as ((s' & f') & E & E'). inversion E'; subst s'.
      assert (f' = f) by (apply (localSum_ended f b s f'); [apply HE; left; reflexivity|exact E]). subst f'.
      assert (Es : v f = s) by (unfold v; rewrite E; reflexivity).
      split; [cbn [map]; congruence|]. intros g [<-|Hg]; [rewrite Es; exact E|apply I2, Hg]. }
    destruct Ev as (E1 & E2). unfold checksum_proc.
    rewrite (map_ext_in _ (fun f => reduce_proc ar Sum (v f) (reduce i) f (fun z => k f z f))).
    2:{ intros f Hf. rewrite (E2 f Hf). reflexivity. }
    apply (reduce_lockstep Sum v (reduce i) (fun f z => k f z f) w xs HR). rewrite E1. exact HL.
  Qed.

  (** The times as a rank sees them. *)
  Definition times_of (ranks : list Z) (rk : Z) : D * D * D :=
    let walls := map wall ranks in
    (if rk =? 0 then rtime Min walls else a_zero ar, if rk =? 0 then rtime Max walls else a_zero ar, if rk =? 0 then rtime Sum walls else a_zero ar).

  Lemma times_lockstep (k : filter D -> D * D * D -> process) w xs : ranked w ->
    lockstep (map (fun f => k f (times_of (map f_rk w) (f_rk f))) w) xs ->
    lockstep (map (fun f => times_proc ar rtime wall f (k f)) w) xs.
  Proof using Type.
    intros HR HL. unfold times_proc.
    apply (reduce_lockstep Sum (fun f => wall (f_rk f)) (rtime Sum) (fun f s =>
             reduce_proc ar Min (wall (f_rk f)) (rtime Min) f (fun m => reduce_proc ar Max (wall (f_rk f)) (rtime Max) f (fun M => k f (m, M, s)))) w xs HR).
    apply (reduce_lockstep Min (fun f => wall (f_rk f)) (rtime Min) (fun f m => reduce_proc ar Max (wall (f_rk f)) (rtime Max) f (fun M =>
             k f (m, M, if f_rk f =? 0 then rtime Sum (map (fun f => wall (f_rk f)) w) else a_zero ar))) w xs HR).
    apply (reduce_lockstep Max (fun f => wall (f_rk f)) (rtime Max) (fun f M =>
             k f (if f_rk f =? 0 then rtime Min (map (fun f => wall (f_rk f)) w) else a_zero ar, M, if f_rk f =? 0 then rtime Sum (map (fun f => wall (f_rk f)) w) else a_zero ar)) w xs HR).
    unfold times_of in HL. rewrite map_map in HL. exact HL.
  Qed.

  (** ** The output file *)

  (** What saveVTK needs besides: the ranks have the same number [N] of elements, together those of the grid. *)
  Definition even w : Prop := exists N, 0 < N < two31 /\
    forall f, In f w -> Z.of_nat (outlen f) = N /\ for_upto (f_ndims f) (fun i n => g <- vget (f_globalDims f) i ;; Ok (u64 (n * g))) 1 = Ok (vlen w * N).

  Definition marked c f := if f_rk f =? 0 then set_dcmp f c else f.

  Lemma gather_lockstep w field : ranked w -> (forall f, In f w -> ended f) -> even w -> world_saveVTK ar w = Ok field ->
    tolerant = true \/ List.length w = 1%nat ->
    exists c, forall (k : Z -> option (list D) -> filter D -> process) xs,
      lockstep (map (fun f => k (f_rk f) (if f_rk f =? 0 then Some field else None) f) (map (marked c) w)) xs ->
      lockstep (map (fun f => gather_proc ar tolerant f (k (f_rk f))) w) xs.
  Proof using Type.
    intros HR HE (N & HN & HV) ES HT. unfold world_saveVTK in ES. apply bind_ok in ES as (f0 & E0 & ES). apply bind_ok in ES as ((fld & f1) & ES & E'). inversion E'; subst fld.
    apply vget_inv in E0 as (_ & E0). change (Z.to_nat 0) with 0%nat in E0. assert (H0 : In f0 w) by (apply (nth_error_In w 0 E0)).
    destruct (saveVTK_ended f0 _ _ _ (HE f0 H0) ES) as (c & ->). exists c. intros k xs HL. unfold gather_proc.
    assert (Hw : 1 <= vlen w) by (unfold vlen; destruct w; [destruct H0|cbn [List.length]; lia]).
    assert (HT' : forall f, In f w -> tolerant = true \/ (f_rk f =? 0) = true).
    { intros f Hf. destruct HT as [HT|HT]; [left; exact HT|right]. apply In_nth_error in Hf as (i & Ei). rewrite (ranked_root w i f HR Ei).
      assert (i < List.length w)%nat by (apply nth_error_Some; congruence). destruct i; [reflexivity|lia]. }
    set (buf f := if f_rk f =? 0 then repeat (a_zero ar) (Z.to_nat (vlen w * N)) else []).
    assert (Enl : forall f, In f w -> i32 (vlen (f_outData f)) = N).
    { intros f Hf. destruct (HV f Hf) as (E & _). unfold outlen in E. unfold vlen. rewrite E. apply i32_id. unfold two31 in *. lia. }
    rewrite (map_ext_in _ (fun f => Coll Gather (f_outData f) (Some f) (fun got =>
      if f_rk f =? 0 then
        priv (let data := List.concat got in
              if vlen (buf f) <? vlen data then Undef OobWrite
              else filter_saveVTK_root ar (data ++ skipn (List.length data) (buf f)) f) (fun '(field, f') => k (f_rk f) (Some field) f')
      else k (f_rk f) None f))).
    2:{ intros f Hf. destruct (HV f Hf) as (EN & ENT). rewrite ENT. cbn [priv]. rewrite (Enl f Hf). fold (buf f).
        assert (F1 : front tolerant (f_outData f) = Ok tt).
        { unfold front, vlen. fold (outlen f). rewrite EN. replace (N =? 0) with false by (symmetry; apply Z.eqb_neq; lia). reflexivity. }
        assert (F2 : front tolerant (buf f) = Ok tt).
        { unfold front. destruct (HT' f Hf) as [T|T]; [rewrite T, andb_false_r; reflexivity|]. unfold buf. rewrite T. unfold vlen at 1. rewrite repeat_length.
          replace (Z.of_nat (Z.to_nat (vlen w * N)) =? 0) with false by (symmetry; apply Z.eqb_neq; nia). reflexivity. }
        rewrite F1, F2. cbn [bind]. replace (N <? 0) with false by (symmetry; apply Z.ltb_ge; lia). cbn [priv].
        rewrite firstn_all2; [reflexivity|]. fold (outlen f). lia. }
    apply (coll_root exposed Gather f_outData Some (fun f got =>
      if f_rk f =? 0 then
        priv (let data := List.concat got in
              if vlen (buf f) <? vlen data then Undef OobWrite
              else filter_saveVTK_root ar (data ++ skipn (List.length data) (buf f)) f) (fun '(field, f') => k (f_rk f) (Some field) f')
      else k (f_rk f) None f) w (fun f => f_rk f =? 0) (Z.to_nat N)).
    - reflexivity.
    - intros i f E. apply (ranked_root w i f HR E).
    - intros f Hf. destruct (HV f Hf) as (E & _). fold (outlen f). lia.
    - rewrite map_map in HL. erewrite map_ext_in; [exact HL|]. intros f Hf. unfold marked.
      destruct (f_rk f =? 0) eqn:Ef; [|rewrite Ef; reflexivity]. cbn [set_dcmp f_rk]. rewrite Ef.
      assert (f = f0) as ->.
      { apply In_nth_error in Hf as (i & Ei). rewrite (ranked_root w i f HR Ei) in Ef. destruct i; [congruence|discriminate]. }
      cbv zeta. fold (world_gather w).
      assert (EL : List.length (world_gather w) = Z.to_nat (vlen w * N)).
      { unfold world_gather, vlen. clear - HV HN. set (m := vlen w) in HV. clearbody m.
        induction w as [|f w IH]; [reflexivity|]. cbn [map List.concat]. rewrite app_length, IH; [|intros g Hg; apply HV; right; exact Hg].
        destruct (HV f (or_introl eq_refl)) as (E & _). fold (outlen f). cbn [List.length]. lia. }
      assert (EB : List.length (buf f0) = Z.to_nat (vlen w * N)) by (unfold buf; rewrite Ef; apply repeat_length).
      replace (vlen (buf f0) <? vlen (world_gather w)) with false by (symmetry; apply Z.ltb_ge; unfold vlen at 1 2; lia).
      rewrite skipn_all2 by lia. rewrite app_nil_r, ES. reflexivity.
  Qed.

  (** The filters after some of the functions: same constants, windows and lengths, iterators at the end. *)
  Definition moved w w' : Prop := Forall2 (fun f f' => shape f' = shape f /\ outlen f' = outlen f /\ ended f') w w'.

  Lemma moved_trans w1 w2 w3 : moved w1 w2 -> moved w2 w3 -> moved w1 w3.
  Proof using Type.
    intros H. revert w3. induction H as [|f f' w w' (A & B & C) _ IH]; intros w3 H3; inversion H3 as [|? f3 ? w4 (A' & B' & C') H4]; subst; constructor.
    - split; [congruence|]. split; [congruence|exact C'].
    - apply IH. exact H4.
  Qed.
  Lemma moved_same w : (forall f, In f w -> ended f) -> moved w w.
  Proof using Type. induction w as [|f w IH]; intros H; constructor; [auto using in_eq|]. apply IH. intros g Hg. apply H. right. exact Hg. Qed.
  Lemma moved_ended w w' f : moved w w' -> In f w' -> ended f.
  Proof using Type. intros H Hf. destruct (Forall2_in_r _ _ _ f H Hf) as (g & _ & _ & _ & A). exact A. Qed.
  Lemma moved_alike w w' : moved w w' -> alike w -> alike w'.
  Proof using Type. intros H. apply alike_shape. revert H. apply Forall2_imp. intros f f' _ (A & _). exact A. Qed.
  Lemma shape_const f f' : shape f' = shape f -> const f' = const f.
  Proof using Type. unfold shape. intros E. congruence. Qed.
  Lemma moved_const w w' : moved w w' -> Forall2 (fun f f' => const f' = const f) w w'.
  Proof using Type. apply Forall2_imp. intros f f' _ (A & _). apply shape_const, A. Qed.
  Lemma moved_even w w' : moved w w' -> even w -> even w'.
  Proof using Type.
    intros H (N & HN & HV). exists N. split; [exact HN|]. intros f' Hf'. destruct (Forall2_in_r _ _ _ f' H Hf') as (f & Hf & A & B & _).
    destruct (HV f Hf) as (E1 & E2). apply shape_const in A. unfold const in A.
    assert (vlen w' = vlen w) as -> by (unfold vlen; rewrite (Forall2_len _ _ _ H); reflexivity).
    replace (f_ndims f') with (f_ndims f) by congruence. replace (f_globalDims f') with (f_globalDims f) by congruence. rewrite B. auto.
  Qed.

  Lemma setInData_moved u w w' : world_setInData ar w u = Ok w' -> moved w w'.
  Proof using Type.
    intros E. apply mapM_Forall2 in E. revert E. apply Forall2_imp. intros f f' _ E. split; [apply (setInData_shape ar u f f' E)|].
    apply setInData_ended in E as (A & B). auto.
  Qed.
  Lemma setInDataByIndices_moved u w w' : world_setInDataByIndices w u = Ok w' -> moved w w'.
  Proof using Type.
    intros E. apply mapM_Forall2 in E. revert E. apply Forall2_imp. intros f f' _ E. split; [apply (setInDataByIndices_shape u f f' E)|].
    apply setInDataByIndices_ended in E as (A & B). auto.
  Qed.
  Lemma copyOutToIn_moved w w' : (forall f, In f w -> ended f) -> world_copyOutToIn w = Ok w' -> moved w w'.
  Proof using Type.
    intros H E. apply mapM_Forall2 in E. revert E. apply Forall2_imp. intros f f' Hf E. split; [apply (copyOutToIn_shape f f' E)|].
    apply copyOutToIn_ended in E as (A & B). auto.
  Qed.
  Lemma apply_moved w w' : world_apply ar w = Ok w' -> moved w w'.
  Proof using Type.
    intros E. apply mapM_Forall2 in E. revert E. apply Forall2_imp. intros f f' _ E. apply apply_ended in E as (A & B & C). auto.
  Qed.

  (** Filters that differ in the decomposition object only. *)
  Definition upto f f' : Prop := f' = f \/ exists c, f' = set_dcmp f c.
  Lemma upto_moved w w' : Forall2 upto w w' -> (forall f, In f w -> ended f) -> moved w w'.
  Proof using Type.
    intros H HE. revert H. apply Forall2_imp. intros f f' Hf [->|(c & ->)]; [auto|]. split; [reflexivity|]. split; [reflexivity|]. apply HE in Hf. exact Hf.
  Qed.
  Lemma upto_sums w w' b : Forall2 upto w w' -> world_localSums ar w' b = world_localSums ar w b.
  Proof using Type.
    unfold world_localSums. induction 1 as [|f f' w w' H _ IH]; [reflexivity|]. cbn [mapM]. rewrite IH.
    replace (' (s, _) <- filter_localSum ar f' b ;; Ok s) with (' (s, _) <- filter_localSum ar f b ;; Ok s); [reflexivity|].
    destruct H as [->|(c & ->)]; [reflexivity|]. rewrite localSum_dcmp. destruct (filter_localSum ar f b) as [[s g]|]; reflexivity.
  Qed.

  Lemma output_lockstep (writeVTK : bool) filename (out err : Z -> string) w vtk dims x0 x1 warning files :
    ranked w -> (forall f, In f w -> ended f) -> (forall f, In f w -> f_globalDims f = dims /\ f_xmins f = x0 /\ f_xmaxs f = x1) ->
    (writeVTK = true -> even w /\ (tolerant = true \/ List.length w = 1%nat)) ->
    (if writeVTK then field <- world_saveVTK ar w ;; Ok (Some field) else Ok None) = Ok vtk ->
    save_text ar show 0 filename dims x0 x1 vtk = Ok (warning, files) ->
    exists w', Forall2 upto w w' /\ forall (k : Z -> string -> string -> list (string * string) -> filter D -> process) xs,
      lockstep (map (fun f => k (f_rk f) (out (f_rk f) ++ root (f_rk f) (announce filename vtk)) (err (f_rk f) ++ root (f_rk f) warning)
                               (if f_rk f =? 0 then files else []) f) w') xs ->
      lockstep (map (fun f => output_proc ar show tolerant writeVTK filename (out (f_rk f)) (err (f_rk f)) f (k (f_rk f))) w) xs.
  Proof using Type.
    intros HR HE HC HV ES ET. destruct writeVTK.
    - apply bind_ok in ES as (field & ES & E'). inversion E'; subst vtk. clear E'. destruct (HV eq_refl) as (H1 & H2).
      destruct (gather_lockstep w field HR HE H1 ES H2) as (c & HG). exists (map (marked c) w). split.
      { clear. induction w as [|f w IH]; constructor; [|exact IH]. unfold marked, upto. destruct (f_rk f =? 0); eauto. }
      intros k xs HL. unfold output_proc, save_proc. cbn [save_text announce] in *. change (0 =? 0) with true in ET. cbn [announce] in HL.
      apply (HG (fun rk field f =>
        match field with
        | Some field =>
            priv (writeVTK_text ar show filename (f_globalDims f) (f_xmins f) (f_xmaxs f) field "outData") (fun '(warning, files) =>
              k rk (out rk ++ (if rk =? 0 then "Data will be written to file " ++ filename ++ newline else "")) (err rk ++ warning) files f)
        | None => k rk (out rk ++ (if rk =? 0 then "Data will be written to file " ++ filename ++ newline else "")) (err rk ++ "") [] f
        end)).
      erewrite map_ext_in; [exact HL|]. intros f Hf. cbv beta. unfold root. apply in_map_iff in Hf as (g & Eg & Hg).
      destruct (f_rk f =? 0); [|reflexivity]. destruct (HC g Hg) as (C1 & C2 & C3).
      replace (f_globalDims f) with dims by (rewrite <- Eg, <- C1; unfold marked; destruct (f_rk g =? 0); reflexivity).
      replace (f_xmins f) with x0 by (rewrite <- Eg, <- C2; unfold marked; destruct (f_rk g =? 0); reflexivity).
      replace (f_xmaxs f) with x1 by (rewrite <- Eg, <- C3; unfold marked; destruct (f_rk g =? 0); reflexivity).
      rewrite ET. reflexivity.
    - inversion ES; subst vtk. cbn [save_text] in ET. inversion ET; subst. exists w. split.
      { clear. induction w as [|f w IH]; constructor; [left; reflexivity|exact IH]. }
      intros k xs HL. cbn [announce] in HL. unfold output_proc. erewrite map_ext_in; [exact HL|]. intros f _. cbv beta. unfold root.
      destruct (f_rk f =? 0); rewrite !append_nil; reflexivity.
  Qed.

  Lemma newWindow_out f side f' : filter_newWindow f side = Ok f' -> f_outData f' = f_outData f.
  Proof using Type.
    unfold filter_newWindow. intros E. apply bind_ok in E as ((sit & f1) & E1 & E). unfold filter_getWindowIter in E1.
    apply bind_ok in E1 as ((a & b) & _ & E1). apply bind_ok in E1 as ((a' & b') & _ & E1). apply bind_ok in E1 as ((u & v) & _ & E1). apply bind_ok in E1 as (m & _ & E1).
    destruct (_ <? 0); [discriminate|]. inversion E1; subst. inversion E. reflexivity.
  Qed.
  Lemma ctor_step_out it f f' : ctor_step it f = Ok f' -> f_outData f' = f_outData f.
  Proof using Type.
    unfold ctor_step. destruct (_ =? 0); [intros E; inversion E; reflexivity|]. intros E.
    apply bind_ok in E as (side & _ & E). apply bind_ok in E as (n & _ & E). apply newWindow_out in E. exact E.
  Qed.

  Lemma new_even sz dims x0 x1 st w : world_new ar sz dims x0 x1 st = Ok w -> (forall f, In f w -> f_valid f = true) ->
    grid_ok dims -> 1 <= sz <= 2 ^ 30 -> even w.
  Proof using Type.
    intros E HV Hg Hn. destruct (world_new_const _ _ _ _ _ _ E) as (HR & HL & _ & HC).
    assert (Hw : vlen w = sz) by (unfold vlen; rewrite HL; lia).
    destruct (cd_build cd_empty sz dims) as [[[] c]|u] eqn:Eb.
    2,3: destruct w as [|f w]; [cbn [List.length] in HL; lia|]; destruct (HC f (or_introl eq_refl)) as (v & c' & Eb' & Hc);
         specialize (HV f (or_introl eq_refl)); unfold const in Hc; congruence.
    destruct (cd_build_true cd_empty sz dims c Hg ltac:(unfold two31; lia) Eb) as (b & Hb & ->).
    exists (prodZ (local_dims dims b)). split; [apply (local_prod_range dims sz b Hg Hn Hb)|]. intros f Hf.
    destruct (Forall2_in_r _ _ _ f (world_new_Forall2 _ _ _ _ _ _ E) Hf) as (rk & Hrk & Er).
    apply in_map_iff in Hrk as (i & <- & Hi). apply in_seq in Hi. split.
    - unfold filter_new in Er. rewrite Eb in Er. cbn [bind negb] in Er.
      rewrite cd_getBegIndices_of in Er by (auto; apply (n31 dims sz b); auto). cbn [bind] in Er.
      rewrite cd_getEndIndices_of in Er by (auto; apply (n31 dims sz b); auto). cbn [bind] in Er.
      rewrite mai_build_good in Er by (apply (box_good dims sz b); auto). cbn [bind] in Er.
      rewrite nterms_of, (box_extents dims sz b Hg Hn Hb) in Er. apply (for_each_keeps f_outData) in Er; [|intros it g g'; apply ctor_step_out].
      unfold outlen. rewrite Er. cbn [f_outData]. rewrite repeat_length. pose proof (local_prod_range dims sz b Hg Hn Hb). lia.
    - destruct (HC f Hf) as (v & c & _ & Hc). unfold const in Hc. replace (f_ndims f) with (vlen dims) by congruence. replace (f_globalDims f) with dims by congruence.
      pose proof (mai_ntot_eq dims (vlen dims) eq_refl) as EN. unfold mai_ntot in EN. rewrite EN, Hw. f_equal.
      rewrite <- (local_dims_prod sz dims b Hb). pose proof (prodZ_pos dims (grid_allpos dims Hg)). destruct Hg as (_ & _ & _ & HP).
      pose proof (local_dims_prod sz dims b Hb). rewrite u64_id; [ring|]. unfold two64. lia.
  Qed.

  (** ** The loops *)
  Lemma repeat_instr n : forall k w,
    for_from k n (fun _ w => w <- world_apply ar w ;; world_copyOutToIn w) w =
    for_each (List.concat (repeat [IApply; ILocal filter_copyOutToIn] n)) (world_instr ar) w.
  Proof using Type.
    induction n as [|n IH]; intros k w; [reflexivity|]. cbn [for_from repeat List.concat app for_each world_instr].
    destruct (world_apply ar w) as [w1|]; [|reflexivity]. cbn [bind]. fold (world_copyOutToIn w1). destruct (world_copyOutToIn w1) as [w2|]; [|reflexivity]. apply IH.
  Qed.
  Lemma repeat_moved n : forall k w w', (forall f, In f w -> ended f) ->
    for_from k n (fun _ w => w <- world_apply ar w ;; world_copyOutToIn w) w = Ok w' -> moved w w'.
  Proof using Type.
    induction n as [|n IH]; intros k w w' HE E; cbn [for_from] in E; [inversion E; subst; apply moved_same, HE|].
    apply bind_ok in E as (w2 & E1 & E). apply bind_ok in E1 as (w1 & E0 & E1). pose proof (apply_moved w w1 E0) as M1.
    pose proof (copyOutToIn_moved w1 w2 (fun f => moved_ended w w1 f M1) E1) as M2.
    apply (moved_trans w w1); [exact M1|]. apply (moved_trans w1 w2); [exact M2|]. apply (IH (S k)); [|exact E]. intros f. apply (moved_ended w1 w2 f M2).
  Qed.

  Lemma steps_lockstep n : forall i (out : Z -> string) w w' sums0 sums, ranked w -> alike w ->
    (forall f, In f w -> ended f) -> for_from i n (fun _ => um_step ar) (w, sums0) = Ok (w', sums) ->
    moved w w' /\ exists news, sums = (sums0 ++ news)%list /\ List.length news = n /\
    forall (k : Z -> string -> filter D -> process) xs,
      lockstep (map (fun f => k (f_rk f) (out (f_rk f) ++ root (f_rk f) (iters_text show reduce i news)) f) w') xs ->
      lockstep (map (fun f => steps_proc ar show reduce n i (out (f_rk f)) f (k (f_rk f))) w) xs.
  Proof using Type.
    induction n as [|n IH]; intros i out w w' sums0 sums HR HA HE E; cbn [for_from] in E.
    - inversion E; subst. split; [apply moved_same, HE|]. exists []. split; [rewrite app_nil_r; reflexivity|]. split; [reflexivity|].
      intros k xs HL. cbn [steps_proc iters_text] in *. erewrite map_ext_in; [exact HL|]. intros f _. cbv beta. unfold root. destruct (f_rk f =? 0); rewrite append_nil; reflexivity.
    - apply bind_ok in E as ((w2 & sums2) & E1 & E). cbn [um_step] in E1. apply bind_ok in E1 as (w1 & EA & E1). apply bind_ok in E1 as (ins & EI & E1).
      apply bind_ok in E1 as (outs & EO & E1). apply bind_ok in E1 as (w3 & EC & E1). inversion E1; subst w3 sums2. clear E1.
      pose proof (apply_moved w w1 EA) as M1. assert (HE1 : forall f, In f w1 -> ended f) by (intros f; apply (moved_ended w w1 f M1)).
      pose proof (copyOutToIn_moved w1 w2 HE1 EC) as M2. assert (HE2 : forall f, In f w2 -> ended f) by (intros f; apply (moved_ended w1 w2 f M2)).
      pose proof (ranked_const _ _ (moved_const _ _ M1) HR) as HR1. pose proof (ranked_const _ _ (moved_const _ _ M2) HR1) as HR2.
      pose proof (moved_alike _ _ M1 HA) as HA1. pose proof (moved_alike _ _ M2 HA1) as HA2.
      set (line := "iter " ++ show_int (Z.of_nat i) ++ " check sum  in/out = " ++ show (reduce (2 * i)%nat ins) ++ " / " ++ show (reduce (2 * i + 1)%nat outs) ++ newline).
      destruct (IH (S i) (fun rk => out rk ++ root rk line) w2 w' _ _ HR2 HA2 HE2 E) as (M3 & news & Es & Hl & HS).
      split; [apply (moved_trans w w1); [exact M1|]; apply (moved_trans w1 w2); assumption|].
      exists ((ins, outs) :: news). split; [rewrite Es, <- app_assoc; reflexivity|]. split; [cbn [List.length]; congruence|].
      intros k xs HL. cbn [steps_proc].
      assert (HL' : lockstep (map (fun f => k (f_rk f) ((out (f_rk f) ++ root (f_rk f) line) ++ root (f_rk f) (iters_text show reduce (S i) news)) f) w') xs).
      { erewrite map_ext_in; [exact HL|]. intros f _. cbv beta. f_equal. rewrite append_assoc. f_equal. unfold root.
        destruct (f_rk f =? 0); [|reflexivity]. cbn [iters_text]. unfold line. rewrite !append_assoc. reflexivity. }
      specialize (HS k xs HL'). clear HL HL'.
      (* copyOutToIn *)
      set (K1 := fun rk (ins outs : D) f => priv (filter_copyOutToIn f) (fun f' => steps_proc ar show reduce n (S i)
           (out rk ++ (if f_rk f =? 0 then "iter " ++ show_int (Z.of_nat i) ++ " check sum  in/out = " ++ show ins ++ " / " ++ show outs ++ newline else "")) f' (k rk))).
      assert (H1 : lockstep (map (fun f => K1 (f_rk f) (if f_rk f =? 0 then reduce (2 * i)%nat ins else a_zero ar) (if f_rk f =? 0 then reduce (2 * i + 1)%nat outs else a_zero ar) f) w1) xs).
      { apply mapM_Forall2 in EC. erewrite (map_Forall2 _ _ _ w1 w2) with (2 := EC); [exact HS|]. intros f f' Ef. unfold K1.
        pose proof (shape_const _ _ (copyOutToIn_shape f f' Ef)) as Hc. assert (f_rk f' = f_rk f) as -> by (unfold const in Hc; congruence). rewrite Ef. cbn [priv]. unfold root, line.
        destruct (f_rk f =? 0); reflexivity. }
      apply (checksum_lockstep (2 * i + 1) false (fun f z f' => K1 (f_rk f) (if f_rk f =? 0 then reduce (2 * i)%nat ins else a_zero ar) z f') w1 outs xs HR1 HE1 EO) in H1.
      apply (checksum_lockstep (2 * i) true (fun f z f' => checksum_proc ar reduce (2 * i + 1) false f' (fun z' f'' => K1 (f_rk f) z z' f'')) w1 ins xs HR1 HE1 EI) in H1.
      apply (apply_lockstep ar (fun rk f1 => checksum_proc ar reduce (2 * i) true f1 (fun z f' => checksum_proc ar reduce (2 * i + 1) false f' (fun z' f'' => K1 rk z z' f''))) xs w w1 HA EA).
      intros _. exact H1.
  Qed.
End Main.
