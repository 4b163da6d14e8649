(** * Proofs for C71: which cells applyFilter reads, on every grid *)
From Coq Require Import Sorted Permutation.
From Verif Require Import Cpp CppProof OMap MaiModel MaiSpec Radix MaiProof CdModel CdSpec CdProof FilterModel FilterSpec
  FilterProof FilterRank FilterWorld FilterProg WrapSpec.
Local Open Scope Z_scope.
Local Arguments prodZ : simpl never.
Local Arguments Z.of_nat : simpl never.

(** ** Loops that may stop at an out-of-bounds read *)
Section Stops.
  Context {St : Type}.

  Lemma for_from_oob (I : nat -> St -> Prop) body k cnt s :
    I k s ->
    (forall i s, (k <= i < k + cnt)%nat -> I i s ->
       (exists s', body (Z.of_nat i) s = Ok s' /\ I (S i) s') \/ body (Z.of_nat i) s = Undef OobRead) ->
    ((exists s', for_from k cnt body s = Ok s' /\ I (k + cnt)%nat s') \/ for_from k cnt body s = Undef OobRead) /\
    ((exists i, (k <= i < k + cnt)%nat /\ forall s, I i s -> body (Z.of_nat i) s = Undef OobRead) ->
       for_from k cnt body s = Undef OobRead).
  Proof using Type.
    revert k s; induction cnt as [|c IH]; intros k s H0 Hstep; simpl.
    - split; [left; exists s; rewrite Nat.add_0_r; auto|]. intros (i & Hi & _). lia.
    - destruct (Hstep k s ltac:(lia) H0) as [(s' & E & H')|E]; rewrite E; cbn [bind]; [|auto].
      destruct (IH (S k) s' H') as [H1 H2]; [intros; apply Hstep; auto; lia|].
      replace (k + S c)%nat with (S k + c)%nat by lia. split; [exact H1|].
      intros (i & Hi & Hf). apply H2. exists i. split; [|exact Hf].
      destruct (Nat.eq_dec i k) as [->|Hne]; [|lia]. rewrite (Hf s H0) in E. discriminate.
  Qed.

  Lemma for_upto_oob (I : nat -> St -> Prop) body N s :
    I O s ->
    (forall i s, (i < Z.to_nat N)%nat -> I i s ->
       (exists s', body (Z.of_nat i) s = Ok s' /\ I (S i) s') \/ body (Z.of_nat i) s = Undef OobRead) ->
    ((exists s', for_upto N body s = Ok s' /\ I (Z.to_nat N) s') \/ for_upto N body s = Undef OobRead) /\
    ((exists i, (i < Z.to_nat N)%nat /\ forall s, I i s -> body (Z.of_nat i) s = Undef OobRead) ->
       for_upto N body s = Undef OobRead).
  Proof using Type.
    intros H0 Hs. unfold for_upto. destruct (for_from_oob I body 0 (Z.to_nat N) s H0) as [H1 H2].
    - intros i s1 Hi. apply Hs. lia.
    - split; [exact H1|]. intros (i & Hi & Hf). apply H2. exists i. split; [lia|exact Hf].
  Qed.

  Lemma for_each_oob {A} (I : St -> Prop) (body : A -> St -> res St) l : forall s,
    I s ->
    (forall a s, In a l -> I s -> (exists s', body a s = Ok s' /\ I s') \/ body a s = Undef OobRead) ->
    ((exists s', for_each l body s = Ok s' /\ I s') \/ for_each l body s = Undef OobRead) /\
    ((exists a, In a l /\ forall s, I s -> body a s = Undef OobRead) -> for_each l body s = Undef OobRead).
  Proof using Type.
    induction l as [|a l IH]; intros s H0 Hs; simpl.
    - split; [left; eauto|]. intros (a & [] & _).
    - destruct (Hs a s (or_introl eq_refl) H0) as [(s' & E & H')|E]; rewrite E; cbn [bind]; [|auto].
      destruct (IH s' H') as [H1 H2]; [intros; apply Hs; auto; right; auto|]. split; [exact H1|].
      intros (x & [->|Hx] & Hf); [rewrite (Hf s H0) in E; discriminate|]. apply H2. eauto.
  Qed.

  Lemma mapM_oob {A B} (body : A -> res B) l :
    (forall a, In a l -> (exists b, body a = Ok b) \/ body a = Undef OobRead) ->
    (exists a, In a l /\ body a = Undef OobRead) -> mapM body l = Undef OobRead.
  Proof using Type.
    induction l as [|a l IH]; intros Hs (x & Hx & Hf); [destruct Hx|]. simpl.
    destruct (Hs a (or_introl eq_refl)) as [(y & E)|E]; rewrite E; cbn [bind]; [|reflexivity].
    rewrite IH; [reflexivity| |].
    - intros; apply Hs; right; auto.
    - destruct Hx as [->|Hx]; [congruence|]. eauto.
  Qed.
End Stops.

(** ** Flat indices outside a box *)
Lemma prod_le e g : length e = length g -> (forall j, (j < length g)%nat -> 1 <= nth j e 0 <= nth j g 0) -> 0 < prodZ e <= prodZ g.
Proof.
  revert e. induction g as [|y g IH]; intros [|x e] L H; try discriminate; [change (prodZ []) with 1; lia|].
  rewrite !prodZ_cons. specialize (IH e ltac:(simpl in L; lia) (fun j Hj => H (S j) (proj1 (Nat.succ_lt_mono j (length g)) Hj))).
  specialize (H O ltac:(simpl; lia)). simpl in H. nia.
Qed.

Lemma strides_bound e g d :
  length e = length g -> length d = length g ->
  (forall j, (j < length g)%nat -> 1 <= nth j e 0 <= nth j g 0 /\ - nth j g 0 < nth j d 0 < nth j g 0) ->
  - prodZ g < dot (strides e) d < prodZ g.
Proof.
  revert e d. induction g as [|y g IH]; intros [|x e] [|z d] L1 L2 H; try discriminate; [change (prodZ []) with 1; simpl; lia|].
  simpl. rewrite prodZ_cons.
  assert (H' := fun j Hj => H (S j) (proj1 (Nat.succ_lt_mono j (length g)) Hj)). simpl in H'.
  specialize (IH e d ltac:(simpl in L1; lia) ltac:(simpl in L2; lia) H').
  specialize (H O ltac:(simpl; lia)). simpl in H.
  assert (He : 0 < prodZ e <= prodZ g).
  { apply prod_le; [simpl in L1; lia|]. intros j Hj. apply (H' j Hj). }
  nia.
Qed.

Lemma strd_bound e g d :
  length e = length g -> length d = length g ->
  (forall j, (j < length g)%nat -> 1 <= nth j e 0 <= nth j g 0 /\ - nth j g 0 < nth j d 0 < nth j g 0) ->
  - prodZ g < dot (strd false e) d < prodZ g.
Proof.
  intros L1 L2 H. simpl. rewrite <- (rev_involutive d), dot_rev by (rewrite strides_length, !rev_length; lia).
  rewrite <- (prodZ_rev g). apply strides_bound; rewrite ?rev_length; auto.
  intros j Hj. rewrite !rev_nth by lia. replace (length e) with (length g) by lia. replace (length d) with (length g) by lia. apply H. lia.
Qed.

Lemma dot_mono a : forall u v, length u = length a -> length v = length a -> allpos a ->
  (forall j, (j < length a)%nat -> nth j u 0 <= nth j v 0) -> dot a u <= dot a v.
Proof.
  induction a as [|x a IH]; intros [|y u] [|z v] L1 L2 Hp H; try discriminate.
  simpl. inversion Hp; subst.
  specialize (IH u v ltac:(simpl in L1; lia) ltac:(simpl in L2; lia) ltac:(assumption) (fun j Hj => H (S j) (proj1 (Nat.succ_lt_mono j (length a)) Hj))).
  specialize (H O ltac:(simpl; lia)). simpl in H. nia.
Qed.

Lemma dot_mono_lt a : forall u v, length u = length a -> length v = length a -> allpos a ->
  (forall j, (j < length a)%nat -> nth j u 0 <= nth j v 0) -> (exists j, (j < length a)%nat /\ nth j u 0 < nth j v 0) ->
  dot a u < dot a v.
Proof.
  induction a as [|x a IH]; intros [|y u] [|z v] L1 L2 Hp H (i & Hi & Hlt); try discriminate; [simpl in Hi; lia|].
  simpl. inversion Hp; subst. assert (H' := fun j Hj => H (S j) (proj1 (Nat.succ_lt_mono j (length a)) Hj)). simpl in H'.
  pose proof (H O ltac:(simpl; lia)) as H0. simpl in H0.
  destruct i as [|i].
  - simpl in Hlt. pose proof (dot_mono a u v ltac:(simpl in L1; lia) ltac:(simpl in L2; lia) ltac:(assumption) H'). nia.
  - specialize (IH u v ltac:(simpl in L1; lia) ltac:(simpl in L2; lia) ltac:(assumption) H').
    specialize (IH (ex_intro _ i (conj (proj2 (Nat.succ_lt_mono i (length a)) Hi) Hlt))). nia.
Qed.

Lemma dot_zero a : forall v, (forall j, nth j v 0 = 0) -> dot a v = 0.
Proof.
  induction a as [|x a IH]; intros [|y v] H; simpl; try reflexivity.
  rewrite IH by (intros j; apply (H (S j))). specialize (H O). simpl in H. lia.
Qed.

Lemma dot_strides_top e : allpos e -> dot (strides e) (map Z.pred e) = prodZ e - 1.
Proof.
  induction 1 as [|x e Hx He IH]; [reflexivity|]. simpl. rewrite IH, prodZ_cons. lia.
Qed.
Lemma dot_strd_top e : allpos e -> dot (strd false e) (map Z.pred e) = prodZ e - 1.
Proof.
  intros H. simpl. rewrite <- (rev_involutive (map Z.pred e)), dot_rev by (rewrite strides_length, !rev_length, map_length; auto).
  rewrite <- map_rev, dot_strides_top by (apply allpos_rev; auto). rewrite prodZ_rev. reflexivity.
Qed.

Lemma i32_u64 z : - two31 < z < two31 -> i32 (u64 z) = z.
Proof.
  intros Hz. unfold i32, u64. rewrite <- (Zplus_mod_idemp_l (z mod two64)).
  rewrite <- (Znumtheory.Zmod_div_mod two32 two64 z); [|reflexivity|reflexivity|exists two32; reflexivity].
  rewrite Zplus_mod_idemp_l. fold (i32 z). apply i32_id. lia.
Qed.

(** ** One axis *)

(** Cell reached along an axis from cell [x] by the displacement [o], and the first cell of the layer received from the
    neighbour in the direction [o], for a process at position [c] of [B] processes with [L] cells each. *)
Definition tgt (L B x o : Z) : Z := u64 (x + o) mod (L * B).
Definition lay (L B c o : Z) : Z := let c' := (c + o) mod B in if 0 <? - o then (c' + 1) * L - 1 else c' * L.

Definition bad_axis (L B o : Z) : Prop := o < 0 /\ ~ (L * B | 2 ^ 64).

Lemma tgt_minus g : 0 < g -> u64 (-1) mod g = (2 ^ 64 - 1) mod g.
Proof. reflexivity. Qed.

Lemma last_iff g : 0 < g -> ((2 ^ 64 - 1) mod g = g - 1 <-> (g | 2 ^ 64)).
Proof.
  intros Hg. split.
  - intros E. apply Z.mod_divide; [lia|]. replace (2 ^ 64) with ((2 ^ 64 - 1) + 1) by lia. rewrite Zplus_mod, E.
    rewrite Zplus_mod_idemp_r. replace (g - 1 + 1) with (0 + 1 * g) by lia. rewrite Z.mod_add by lia. apply Z.mod_0_l. lia.
  - intros (q & E). rewrite E. replace (q * g - 1) with ((g - 1) + (q - 1) * g) by lia. rewrite Z.mod_add by lia. apply Z.mod_small. lia.
Qed.

Local Ltac fin := split; [nia|]; split; [nia|]; split; [intros; nia|]; split; [intros [Hneg _]; lia|]; intros; nia.

Local Ltac sg := try change (0 <? Z.opp 0) with false; try change (0 <? Z.opp 1) with false; try change (0 <? Z.opp (-1)) with true; try change (Z.opp 0 =? 0) with true; cbv iota.

Section Axis.
  Context (L B o : Z).
  Hypothesis HL : 0 < L.
  Hypothesis HB : 0 < B.
  Hypothesis Hm : L * B < two31.
  Hypothesis Ho : -1 <= o <= 1.

  Lemma tgt_small x : 0 <= x + o < L * B -> tgt L B x o = x + o.
  Proof using Hm. intros H. unfold tgt. rewrite u64_id by (unfold two31, two64 in *; lia). apply Z.mod_small. lia. Qed.
  Lemma tgt_top x : x + o = L * B -> tgt L B x o = 0.
  Proof using HL HB Hm Ho. intros H. unfold tgt. rewrite u64_id by (unfold two31, two64 in *; nia). rewrite H. apply Z.mod_same. nia. Qed.
  Lemma tgt_range x : 0 <= tgt L B x o < L * B.
  Proof using HL HB. unfold tgt. apply Z.mod_pos_bound. nia. Qed.
  Lemma lay_range c : 0 <= c < B -> 0 <= lay L B c o < L * B.
  Proof using HL HB. intros Hc. unfold lay. pose proof (Z.mod_pos_bound (c + o) B HB). destruct (0 <? - o); nia. Qed.

  Definition dif c x := tgt L B x o - lay L B c o.
  Definition exits c x := ~ (c * L <= tgt L B x o < (c + 1) * L).
  Definition place c x := 0 <= c < B /\ c * L <= x < (c + 1) * L.

  (** The basic choice of a process and a cell: the step leads straight into the layer of the neighbour, except to the left
      of cell 0. *)
  Lemma base_low : exists c x, place c x /\ dif c x <= 0 /\ (o = 0 \/ ~ (bad_axis L B o /\ B = 1) -> dif c x = 0) /\
    (bad_axis L B o -> B = 1 -> dif c x < 0) /\ (o <> 0 -> 1 < B -> exits c x).
  Proof using HL HB Hm Ho.
    assert (H2 : o = 0 \/ o = 1 \/ o = -1) by lia. unfold place, dif, exits, bad_axis.
    destruct H2 as [E|[E|E]].
    - exists 0, 0. rewrite tgt_small by (rewrite E; nia). unfold lay. rewrite E. rewrite Z.mod_small by lia. sg. fin.
    - exists 0, (L - 1). destruct (Z.eq_dec B 1) as [E1|E1].
      + rewrite tgt_top by (rewrite E, E1; lia). unfold lay. rewrite E, E1, Z.mod_1_r. sg. fin.
      + rewrite tgt_small by (rewrite E; nia). unfold lay. rewrite E. rewrite Z.mod_small by lia. sg. fin.
    - exists (B - 1), ((B - 1) * L). destruct (Z.eq_dec B 1) as [E1|E1].
      + unfold tgt, lay. rewrite E, E1. rewrite Z.mod_1_r. sg.
        replace ((1 - 1) * L + -1) with (-1) by lia. rewrite !Z.mul_1_r, tgt_minus by lia.
        pose proof (last_iff L HL) as HI. pose proof (Z.mod_pos_bound (2 ^ 64 - 1) L HL) as HR. 
        set (k := (2 ^ 64 - 1) mod L) in *. 
        split; [lia|]. split; [lia|]. split; [|split; [|lia]].
        * intros [H|H]; [lia|]. destruct (Z.eq_dec k (L - 1)); [lia|]. exfalso. apply H. split; auto. split; [lia|]. tauto.
        * intros (_ & H) _. destruct (Z.eq_dec k (L - 1)); [|lia]. tauto.
      + rewrite tgt_small by (rewrite E; nia). unfold lay. rewrite E. rewrite Z.mod_small by lia. sg. fin.
  Qed.

  (** The same with the last cell along the axes without displacement. *)
  Lemma base_high : ~ (bad_axis L B o /\ B = 1) -> exists c x, place c x /\ dif c x = (if - o =? 0 then L else 1) - 1 /\ (o <> 0 -> 1 < B -> exits c x).
  Proof using HL HB Hm Ho.
    intros Hn. destruct (Z.eq_dec o 0) as [E|E].
    - exists 0, (L - 1). unfold place, dif. rewrite tgt_small by (rewrite E; nia). unfold lay. rewrite E. rewrite Z.mod_small by lia. sg. repeat split; try lia.
    - destruct base_low as (c & x & H1 & _ & H2 & _ & H3). exists c, x. split; auto. split; auto.
      replace (- o =? 0) with false by (symmetry; apply Z.eqb_neq; lia). simpl. auto.
  Qed.

  (** A step that stays inside although the axis has several cells: the layer is missed. *)
  Lemma stay : o <> 0 -> 1 < L ->
    (exists c x, place c x /\ dif c x < 0) \/ (exists c x, place c x /\ 0 < dif c x).
  Proof using HL HB Hm Ho.
    intros H0 H1. assert (H2 : o = 1 \/ o = -1) by lia. unfold place, dif.
    destruct H2 as [E|E], (Z.eq_dec B 1) as [E1|E1].
    - right. exists 0, (L - 2). rewrite tgt_small by (rewrite E, E1; nia). unfold lay. rewrite E, E1, Z.mod_1_r. sg. lia.
    - left. exists 0, (L - 2). rewrite tgt_small by (rewrite E; nia). unfold lay. rewrite E, Z.mod_small by lia. sg. lia.
    - left. exists 0, 1. rewrite tgt_small by (rewrite E, E1; nia). unfold lay. rewrite E, E1, Z.mod_1_r. sg. lia.
    - right. exists (B - 1), ((B - 1) * L + 1). rewrite tgt_small by (rewrite E; nia). unfold lay. rewrite E, Z.mod_small by lia. sg. lia.
  Qed.

  (** The step to the left of cell 0. *)
  Lemma left_of_zero : bad_axis L B o -> place 0 0 /\ dif 0 0 < 0 /\ (L <= (2 ^ 64 - 1) mod (L * B) -> exits 0 0).
  Proof using HL HB Hm Ho.
    intros (H0 & Hd). assert (E : o = -1) by lia. unfold place, dif, exits, tgt, lay. rewrite E. sg. change (0 + -1) with (-1).
    rewrite tgt_minus by nia. pose proof (last_iff (L * B) ltac:(nia)) as HI. pose proof (Z.mod_pos_bound (2 ^ 64 - 1) (L * B) ltac:(nia)) as HR.
    replace ((-1) mod B) with (B - 1) by (apply (Z.mod_unique (-1) B (-1) (B - 1)); lia).
    set (k := (2 ^ 64 - 1) mod (L * B)) in *. assert (k <> L * B - 1) by tauto. repeat split; try lia.
  Qed.
End Axis.

(** ** All axes together *)
Lemma fin_choice {A} (d : A) (P : nat -> A -> Prop) m :
  (forall l, (l < m)%nat -> exists a, P l a) -> exists ch, forall l, (l < m)%nat -> P l (ch l).
Proof.
  induction m as [|m IH]; intros H; [exists (fun _ => d); intros; lia|].
  destruct IH as (ch & Hc); [intros; apply H; lia|]. destruct (H m ltac:(lia)) as (a & Ha).
  exists (fun l => if Nat.eqb l m then a else ch l). intros l Hl. destruct (Nat.eqb_spec l m) as [->|Hne]; auto. apply Hc. lia.
Qed.

Lemma ex_lt_dec (P : nat -> Prop) m : (forall j, {P j} + {~ P j}) -> {exists j, (j < m)%nat /\ P j} + {forall j, (j < m)%nat -> ~ P j}.
Proof.
  intros Hd. induction m as [|m [IH|IH]]; [right; intros; lia| |].
  - left. destruct IH as (j & Hj & H). exists j. split; auto.
  - destruct (Hd m) as [H|H]; [left; exists m; auto|]. right. intros j Hj. destruct (Nat.eq_dec j m) as [->|Hne]; auto. apply IH. lia.
Qed.

Section Geo.
  Context (dims : list Z) (n : Z) (b : list Z).
  Hypothesis Hg : grid_ok dims.
  Hypothesis Hn : 1 <= n <= 2 ^ 30.
  Hypothesis Hb : is_decomp n dims b.

  Notation blo := (beg_of dims b).
  Notation bhi := (end_of dims b).
  Notation nd := (length dims).
  Notation wlo := (wlo dims b).
  Notation whi := (whi dims b).
  Notation wext := (wext dims b).
  Notation Lo l := (nth l (local_dims dims b) 0).
  Notation Bo l := (nth l b 0).

  Lemma ax_mul l : (l < nd)%nat -> Lo l * Bo l = nth l dims 0.
  Proof using Hb. intros H. apply (local_dims_mul n dims b l Hb H). Qed.
  Lemma ax_L l : (l < nd)%nat -> 0 < Lo l.
  Proof using Hg Hb. intros H. pose proof (local_dims_pos n dims b Hg Hb) as P. rewrite allpos_nth in P. apply P. rewrite local_dims_length; auto. apply Hb. Qed.
  Lemma ax_B l : (l < nd)%nat -> 0 < Bo l.
  Proof using Hb. intros H. destruct Hb as (_ & P & _). apply P; auto. Qed.
  Lemma ax_m l : (l < nd)%nat -> Lo l * Bo l < two31.
  Proof using Hg Hb. intros H. rewrite ax_mul by auto. apply (grid_dim_range dims l Hg H). Qed.

  Definition flat (r : Z) (off g : list Z) : Z :=
    dot (strd false (wext (opp off))) (vsub (cwrap dims (shift g off)) (wlo (nb_of b r off) (opp off))).

  (** The code wants a cell that is neither in the box of the process nor in the layer it has received. *)
  Definition missing (r : Z) (off g : list Z) : Prop :=
    in_box (blo r) (bhi r) g /\ ~ in_box (blo r) (bhi r) (cwrap dims (shift g off)) /\
    ~ (0 <= flat r off g < prodZ (wext (opp off))).

  Lemma tgt_nth off g l : length off = nd -> length g = nd -> (l < nd)%nat ->
    nth l (cwrap dims (shift g off)) 0 = tgt (Lo l) (Bo l) (nth l g 0) (nth l off 0).
  Proof using Hb.
    intros H1 H2 Hl. assert (Ls : length (shift g off) = nd) by (rewrite shift_length; lia).
    rewrite cwrap_nth, shift_nth by lia. unfold tgt. rewrite ax_mul by auto. reflexivity.
  Qed.

  Lemma lay_nth off r l : length off = nd -> (l < nd)%nat ->
    nth l (wlo (nb_of b r off) (opp off)) 0 = lay (Lo l) (Bo l) (nth l (coords b r) 0) (nth l off 0).
  Proof using Hb.
    intros H1 Hl. unfold FilterProof.wlo. rewrite vec_nth by auto. rewrite FilterProof.opp_nth. unfold lay.
    rewrite (beg_of_nth n), (end_of_nth n) by auto. rewrite (coords_nb n dims) by auto. rewrite (nb_coords_nth n dims) by auto. reflexivity.
  Qed.

  Lemma wext_nth off l : length off = nd -> (l < nd)%nat -> nth l (wext (opp off)) 0 = if - nth l off 0 =? 0 then Lo l else 1.
  Proof using Type. intros H1 Hl. unfold FilterProof.wext. rewrite vec_nth by auto. rewrite FilterProof.opp_nth. reflexivity. Qed.

  Lemma flat_bound r off g : unit_offset nd off -> length g = nd -> - two31 < flat r off g < two31.
  Proof using Hg Hn Hb.
    intros (H1 & H2) Hl. pose proof Hg as (_ & _ & _ & HP).
    assert (Hs : length (cwrap dims (shift g off)) = nd) by (apply cwrap_length; rewrite shift_length; lia).
    assert (Hw : length (wlo (nb_of b r off) (opp off)) = nd) by apply vec_length.
    assert (H : - prodZ dims < flat r off g < prodZ dims).
    { apply strd_bound; [apply vec_length|rewrite vsub_length; lia|]. intros l Hlt. rewrite wext_nth by auto.
      rewrite vsub_nth by lia. rewrite tgt_nth, lay_nth by auto. rewrite <- (ax_mul l Hlt).
      pose proof (ax_L l Hlt) as A1. pose proof (ax_B l Hlt) as A2.
      pose proof (tgt_range (Lo l) (Bo l) (nth l off 0) A1 A2 (nth l g 0)).
      pose proof (lay_range (Lo l) (Bo l) (nth l off 0) A1 A2 (nth l (coords b r) 0) (coords_range n dims b r l Hb Hlt)).
      split; [|lia]. destruct (_ =? 0); nia. }
    unfold two31. lia.
  Qed.

  Section Chosen.
    Context (off : list Z) (ch : nat -> Z * Z).
    Hypothesis Hu : unit_offset nd off.
    Hypothesis Hch : forall l, (l < nd)%nat -> place (Lo l) (Bo l) (fst (ch l)) (snd (ch l)).
    Let r := dot (strides b) (vec nd (fun l => fst (ch l))).
    Let g := vec nd (fun l => snd (ch l)).
    Let df l := dif (Lo l) (Bo l) (nth l off 0) (fst (ch l)) (snd (ch l)).

    Lemma ch_digits : digit_vec b (vec nd (fun l => fst (ch l))).
    Proof using Hch Hb.
      assert (E : length b = nd) by apply Hb. split; [rewrite vec_length; auto|]. intros l Hl. rewrite vec_nth by lia. apply Hch. lia.
    Qed.
    Lemma ch_coords : coords b r = vec nd (fun l => fst (ch l)).
    Proof using Hch Hb. apply digits_flat, ch_digits. Qed.
    Lemma ch_rank : 0 <= r < n.
    Proof using Hch Hb. pose proof (Radix.flat_range b _ ch_digits) as H. destruct Hb as (_ & _ & E). rewrite E in H. exact H. Qed.
    Lemma ch_length : length g = nd. Proof using Type. apply vec_length. Qed.
    Lemma ch_box : in_box (blo r) (bhi r) g.
    Proof using Hch Hb Hg Hn.
      split; [rewrite ch_length, (blo_length dims n b); auto|]. split; [rewrite ch_length, (bhi_length dims n b); auto|].
      rewrite ch_length. intros l Hl. rewrite (beg_of_nth n), (end_of_nth n) by auto. rewrite ch_coords. unfold g. rewrite !vec_nth by auto. apply (Hch l Hl).
    Qed.
    Lemma ch_out : (exists j, (j < nd)%nat /\ exits (Lo j) (Bo j) (nth j off 0) (fst (ch j)) (snd (ch j))) ->
      ~ in_box (blo r) (bhi r) (cwrap dims (shift g off)).
    Proof using Hch Hb Hg Hn Hu.
      intros (j & Hj & He) (_ & _ & H). destruct Hu as (Lo' & _).
      specialize (H j). rewrite cwrap_length in H by (rewrite shift_length; rewrite ?ch_length; lia). specialize (H Hj).
      rewrite tgt_nth in H by (auto using ch_length). rewrite (beg_of_nth n), (end_of_nth n) in H by auto. rewrite ch_coords in H. unfold g in H.
      rewrite !vec_nth in H by auto. apply He. exact H.
    Qed.
    Lemma ch_flat : flat r off g = dot (strd false (wext (opp off))) (vec nd df).
    Proof using Hch Hb Hu.
      unfold flat. f_equal. destruct Hu as (Lo' & _).
      assert (Hs : length (cwrap dims (shift g off)) = nd) by (apply cwrap_length; rewrite shift_length; rewrite ch_length; lia).
      assert (Hw : length (wlo (nb_of b r off) (opp off)) = nd) by apply vec_length.
      apply (nth_ext' 0); [rewrite vsub_length, vec_length; lia|]. rewrite vsub_length by lia. rewrite Hs. intros l Hl.
      rewrite vsub_nth by lia. rewrite tgt_nth, lay_nth by (auto using ch_length). rewrite ch_coords. unfold g. rewrite !vec_nth by auto. reflexivity.
    Qed.
    Lemma ch_pos : allpos (strd false (wext (opp off))) /\ length (strd false (wext (opp off))) = nd.
    Proof using Hb Hg Hn.
      split; [apply strd_pos, (wext_pos dims n b Hg Hn Hb)|]. rewrite strd_length. apply vec_length.
    Qed.

    Lemma missing_neg :
      (exists j, (j < nd)%nat /\ exits (Lo j) (Bo j) (nth j off 0) (fst (ch j)) (snd (ch j))) ->
      (forall l, (l < nd)%nat -> df l <= 0) -> (exists i, (i < nd)%nat /\ df i < 0) ->
      exists r g, 0 <= r < n /\ missing r off g.
    Proof using Hch Hb Hg Hn Hu.
      intros Hex Hle (i & Hi & Hlt). exists r, g. split; [exact ch_rank|]. split; [exact ch_box|]. split; [apply ch_out; auto|].
      rewrite ch_flat. destruct ch_pos as (P1 & P2). intros (H & _).
      assert (dot (strd false (wext (opp off))) (vec nd df) < dot (strd false (wext (opp off))) (vec nd (fun _ => 0))); [|
        rewrite (dot_zero _ (vec nd (fun _ => 0))) in H0; [lia|]].
      - apply dot_mono_lt; rewrite ?P2, ?vec_length; auto.
        + intros l Hl. rewrite !vec_nth by auto. auto.
        + exists i. rewrite !vec_nth by auto. auto.
      - intros l. destruct (lt_dec l nd); [rewrite vec_nth; auto|apply nth_overflow; rewrite vec_length; lia].
    Qed.

    Lemma missing_pos :
      (exists j, (j < nd)%nat /\ exits (Lo j) (Bo j) (nth j off 0) (fst (ch j)) (snd (ch j))) ->
      (forall l, (l < nd)%nat -> (if - nth l off 0 =? 0 then Lo l else 1) - 1 <= df l) ->
      (exists i, (i < nd)%nat /\ (if - nth i off 0 =? 0 then Lo i else 1) - 1 < df i) ->
      exists r g, 0 <= r < n /\ missing r off g.
    Proof using Hch Hb Hg Hn Hu.
      intros Hex Hle (i & Hi & Hlt). exists r, g. split; [exact ch_rank|]. split; [exact ch_box|]. split; [apply ch_out; auto|].
      rewrite ch_flat. destruct ch_pos as (P1 & P2). intros (_ & H). destruct Hu as (Lo' & _).
      pose proof (dot_strd_top (wext (opp off)) (proj1 (wext_pos dims n b Hg Hn Hb (opp off)))) as HT.
      assert (dot (strd false (wext (opp off))) (map Z.pred (wext (opp off))) < dot (strd false (wext (opp off))) (vec nd df)); [|lia].
      assert (LW : length (wext (opp off)) = nd) by apply vec_length.
      assert (NW : forall l, (l < nd)%nat -> nth l (map Z.pred (wext (opp off))) 0 = (if - nth l off 0 =? 0 then Lo l else 1) - 1).
      { intros l Hl. rewrite (nth_indep _ 0 (Z.pred 0)) by (rewrite map_length; lia). rewrite map_nth, wext_nth by auto. lia. }
      apply dot_mono_lt; rewrite ?P2, ?vec_length, ?map_length; auto.
      - intros l Hl. rewrite vec_nth, NW by auto. auto.
      - exists i. rewrite vec_nth, NW by auto. auto.
    Qed.
  End Chosen.

  Lemma ax_div l : (l < nd)%nat -> nth l dims 0 / nth l b 0 = Lo l.
  Proof using Hb. intros Hl. rewrite <- (ax_mul l Hl). apply Z.div_mul. pose proof (ax_B l Hl). lia. Qed.

  Lemma cross_lt off j : unit_offset nd off -> crosses b off j -> (j < nd)%nat.
  Proof using Type. intros (E & _) (H & _). destruct (lt_dec j nd); auto. exfalso. apply H, nth_overflow. lia. Qed.
  Lemma nz_lt off j : unit_offset nd off -> nth j off 0 <> 0 -> (j < nd)%nat.
  Proof using Type. intros (E & _) H. destruct (lt_dec j nd); auto. exfalso. apply H, nth_overflow. lia. Qed.

  Lemma cross_dec off j : {crosses b off j} + {~ crosses b off j}.
  Proof using Type.
    clear Hg Hn Hb. unfold crosses. destruct (Z.eq_dec (nth j off 0) 0); [right; tauto|]. destruct (Z_lt_dec 1 (nth j b 0)); [left|right]; tauto.
  Qed.

  (** Sound displacements lead into the box or into the layer. *)
  Lemma sound_reaches off : unit_offset nd off -> sound_offset dims b off -> reaches dims n b off.
  Proof using Hg Hn Hb.
    intros Hu (S1 & S2) r g Hr (G1 & G2 & G3) Hout. destruct Hu as (Eo & Hu).
    rewrite (blo_length dims n b) in G1 by auto.
    set (t := cwrap dims (shift g off)) in *.
    assert (Lt : length t = nd) by (apply cwrap_length; rewrite shift_length; lia).
    destruct (ex_lt_dec (fun j => ~ (nth j (blo r) 0 <= nth j t 0 < nth j (bhi r) 0)) nd) as [(j0 & Hj0 & Hn0)|Hall].
    { intros j. destruct (Z_le_dec (nth j (blo r) 0) (nth j t 0)), (Z_lt_dec (nth j t 0) (nth j (bhi r) 0)); [right|left|left|left]; lia. }
    2:{ exfalso. apply Hout. split; [rewrite (blo_length dims n b); auto|]. split; [rewrite (bhi_length dims n b); auto|].
        rewrite Lt. intros j Hj. specialize (Hall j Hj). lia. }
    rewrite (beg_of_nth n), (end_of_nth n) in Hn0 by auto.
    assert (HG : forall l, (l < nd)%nat -> nth l (coords b r) 0 * Lo l <= nth l g 0 < (nth l (coords b r) 0 + 1) * Lo l).
    { intros l Hl. specialize (G3 l ltac:(lia)). rewrite (beg_of_nth n), (end_of_nth n) in G3 by auto. exact G3. }
    assert (HT : forall l, (l < nd)%nat -> nth l t 0 = tgt (Lo l) (Bo l) (nth l g 0) (nth l off 0)).
    { intros l Hl. unfold t. apply tgt_nth; auto. }
    assert (HW : forall l, (l < nd)%nat -> (nth l off 0 < 0 -> nth l g 0 = 0 -> (nth l dims 0 | 2 ^ 64)) ->
       tgt (Lo l) (Bo l) (nth l g 0) (nth l off 0) = (nth l g 0 + nth l off 0) mod (Lo l * Bo l)).
    { intros l Hl Hd. unfold tgt. specialize (Hu l Hl). pose proof (HG l Hl). pose proof (coords_range n dims b r l Hb Hl).
      pose proof (ax_L l Hl). pose proof (ax_B l Hl). pose proof (ax_m l Hl).
      assert (Hx : 0 <= nth l g 0 < Lo l * Bo l) by nia.
      destruct (Z_lt_ge_dec (nth l g 0 + nth l off 0) 0) as [H'|H'].
      - unfold u64. symmetry. apply Znumtheory.Zmod_div_mod; [nia|reflexivity|]. rewrite ax_mul by auto. apply Hd; lia.
      - rewrite u64_id by (unfold two31, two64 in *; lia). reflexivity. }
    assert (C0 : crosses b off j0).
    { rewrite HT in Hn0 by auto. pose proof (HG j0 Hj0) as HGj. pose proof (coords_range n dims b r j0 Hb Hj0) as HC. pose proof (ax_L j0 Hj0) as HL0. split.
      - intros E. apply Hn0. rewrite E. rewrite tgt_small; [lia|apply (ax_m j0 Hj0)|nia].
      - destruct (Z_lt_dec 1 (Bo j0)) as [H|H]; auto. exfalso. apply Hn0. pose proof (ax_B j0 Hj0). assert (E1 : Bo j0 = 1) by lia.
        pose proof (tgt_range (Lo j0) (Bo j0) (nth j0 off 0) HL0 ltac:(lia) (nth j0 g 0)). rewrite E1 in *. nia. }
    split; [apply nonzero_true; exists j0; split; [lia|apply C0]|].
    split; [rewrite Lt; symmetry; apply vec_length|]. split; [rewrite Lt; symmetry; apply vec_length|].
    rewrite Lt. intros l Hl. pose proof (HG l Hl) as HGl. pose proof (coords_range n dims b r l Hb Hl) as HC.
    pose proof (ax_L l Hl) as HLl. pose proof (ax_B l Hl) as HBl. pose proof (ax_m l Hl) as Hml. specialize (Hu l Hl) as Hul.
    unfold FilterProof.wlo, FilterProof.whi. rewrite !vec_nth by auto. rewrite !FilterProof.opp_nth, HT by auto.
    rewrite (beg_of_nth n), (end_of_nth n) by auto. rewrite (coords_nb n dims) by auto. rewrite (nb_coords_nth n dims) by auto.
    destruct (Z.eq_dec (nth l off 0) 0) as [E0|E0].
    { rewrite E0. change (0 <? - 0) with false. change (- 0 <? 0) with false. cbv iota. rewrite Z.add_0_r, (Z.mod_small (nth l (coords b r) 0)) by auto.
      rewrite tgt_small; [lia|auto|nia]. }
    (* the step wraps as it should *)
    assert (Hd : nth l off 0 < 0 -> nth l g 0 = 0 -> (nth l dims 0 | 2 ^ 64)).
    { intros Hneg Hx. destruct (Nat.eq_dec l j0) as [->|Hne].
      - destruct (S2 j0 C0 Hneg) as [H|(H & _)]; auto. exfalso. apply Hn0. rewrite HT, Hx by auto.
        assert (E1 : nth j0 off 0 = -1) by lia. rewrite E1. unfold tgt. change (0 + -1) with (-1). rewrite ax_mul by auto.
        assert (EC : nth j0 (coords b r) 0 = 0) by nia. rewrite EC. rewrite ax_div in H by auto.
        pose proof (Z.mod_pos_bound (2 ^ 64 - 1) (nth j0 dims 0) ltac:(rewrite <- (ax_mul j0 Hj0); nia)).
        rewrite tgt_minus by (rewrite <- (ax_mul j0 Hj0); nia). lia.
      - destruct (cross_dec off l) as [Cl|Cl].
        + destruct (S2 l Cl Hneg) as [H|(_ & H)]; auto. exfalso. apply Hne. symmetry. apply (H j0 C0).
        + assert (EB : Bo l = 1). { destruct (Z.eq_dec (Bo l) 1); auto. exfalso. apply Cl. split; auto. lia. }
          rewrite (S1 l j0 C0 E0 Hne), EB. apply Z.divide_1_l. }
    rewrite HW by auto.
    destruct (Nat.eq_dec l j0) as [->|Hne].
    - rewrite HT, HW in Hn0 by auto.
      destruct (step_axis (Lo j0) (Bo j0) (nth j0 (coords b r) 0) (nth j0 g 0) (nth j0 off 0)) as [H|[(H & H')|(H & H')]]; auto; [contradiction| |];
        rewrite H in H' |- *; rewrite H'.
      + change (0 <? Z.opp 1) with false. change (Z.opp 1 <? 0) with true. cbv iota. lia.
      + change (0 <? Z.opp (-1)) with true. change (Z.opp (-1) <? 0) with false. cbv iota. lia.
    - assert (EL : Lo l = 1). { pose proof (S1 l j0 C0 E0 Hne) as E1. rewrite <- (ax_mul l Hl) in E1. nia. }
      rewrite EL in *. replace (nth l g 0) with (nth l (coords b r) 0) by lia. rewrite Z.mul_1_l.
      set (c' := (nth l (coords b r) 0 + nth l off 0) mod Bo l). destruct (0 <? - nth l off 0), (- nth l off 0 <? 0); lia.
  Qed.

  (** Unsound displacements do not. *)
  Lemma unsound_missing off : unit_offset nd off -> ~ sound_offset dims b off -> exists r g, 0 <= r < n /\ missing r off g.
  Proof using Hg Hn Hb.
    intros Hu Hns. pose proof Hu as (Eo & Hu1).
    assert (Hbad : forall l, (l < nd)%nat -> {bad_axis (Lo l) (Bo l) (nth l off 0)} + {~ bad_axis (Lo l) (Bo l) (nth l off 0)}).
    { intros l Hl. unfold bad_axis. destruct (Z_lt_dec (nth l off 0) 0); [|right; tauto].
      destruct (Znumtheory.Zdivide_dec (Lo l * Bo l) (2 ^ 64)); [right|left]; tauto. }
    assert (Hlow : forall l, (l < nd)%nat -> exists p : Z * Z, place (Lo l) (Bo l) (fst p) (snd p) /\
       dif (Lo l) (Bo l) (nth l off 0) (fst p) (snd p) <= 0 /\
       (bad_axis (Lo l) (Bo l) (nth l off 0) -> Bo l = 1 -> dif (Lo l) (Bo l) (nth l off 0) (fst p) (snd p) < 0) /\
       (nth l off 0 <> 0 -> 1 < Bo l -> exits (Lo l) (Bo l) (nth l off 0) (fst p) (snd p))).
    { intros l Hl. destruct (base_low (Lo l) (Bo l) (nth l off 0) (ax_L l Hl) (ax_B l Hl) (ax_m l Hl) (Hu1 l Hl)) as (c & x & H1 & H2 & _ & H3 & H4).
      exists (c, x). auto. }
    destruct (fin_choice (0, 0) _ nd Hlow) as (low & HL). clear Hlow.
    set (with1 := fun (ch : nat -> Z * Z) i p l => if Nat.eqb l i then p else ch l : Z * Z).
    (* a step to the left of cell 0 that is not periodic *)
    destruct (ex_lt_dec (fun j => crosses b off j /\ (nth j off 0 < 0 /\ ~ (nth j dims 0 | 2 ^ 64)) /\
         (Lo j <= (2 ^ 64 - 1) mod nth j dims 0 \/ exists i, (i < nd)%nat /\ crosses b off i /\ i <> j)) nd) as [(j & Hj & Cj & (B1 & B2) & Hor)|N2].
    { intros j. destruct (cross_dec off j); [|right; tauto]. destruct (Z_lt_dec (nth j off 0) 0); [|right; tauto].
      destruct (Znumtheory.Zdivide_dec (nth j dims 0) (2 ^ 64)); [right; tauto|].
      destruct (Z_le_dec (Lo j) ((2 ^ 64 - 1) mod nth j dims 0)); [left; tauto|].
      destruct (ex_lt_dec (fun i => crosses b off i /\ i <> j) nd) as [H|H]; [|left; tauto|right].
      - intros i. destruct (cross_dec off i), (Nat.eq_dec i j); [right|left|right|right]; tauto.
      - intros (_ & _ & [H'|(i & Hi & H')]); [lia|]. apply (H i Hi H'). }
    { rewrite <- (ax_mul j Hj) in B2, Hor.
      destruct (left_of_zero (Lo j) (Bo j) (nth j off 0) (ax_L j Hj) (ax_B j Hj) (ax_m j Hj) (Hu1 j Hj) (conj B1 B2)) as (P1 & P2 & P3).
      apply (missing_neg off (with1 low j (0, 0)) Hu).
      - intros l Hl. unfold with1. destruct (Nat.eqb_spec l j) as [->|Hne]; [exact P1|apply (HL l Hl)].
      - destruct Hor as [Hor|(i & Hi & Ci & Hne)].
        + exists j. split; auto. unfold with1. rewrite Nat.eqb_refl. auto.
        + exists i. split; auto. unfold with1. destruct (Nat.eqb_spec i j); [contradiction|]. apply (HL i Hi); apply Ci.
      - intros l Hl. cbv beta. unfold with1. destruct (Nat.eqb_spec l j) as [->|Hne]; [simpl; lia|apply (HL l Hl)].
      - exists j. split; auto. cbv beta. unfold with1. rewrite Nat.eqb_refl. exact P2. }
    (* another axis with several cells *)
    destruct (ex_lt_dec (fun i => nth i off 0 <> 0 /\ nth i dims 0 <> Bo i /\ exists j, (j < nd)%nat /\ crosses b off j /\ i <> j) nd)
      as [(i & Hi & Oi & Di & j & Hj & Cj & Hij)|N1].
    { intros i. destruct (Z.eq_dec (nth i off 0) 0); [right; tauto|]. destruct (Z.eq_dec (nth i dims 0) (Bo i)); [right; tauto|].
      destruct (ex_lt_dec (fun j => crosses b off j /\ i <> j) nd) as [H|H]; [|left; tauto|right].
      - intros j. destruct (cross_dec off j), (Nat.eq_dec i j); [right|left|right|right]; tauto.
      - intros (_ & _ & j & Hj & H'). apply (H j Hj H'). }
    { destruct (ex_lt_dec (fun l => nth l off 0 < 0 /\ ~ (nth l dims 0 | 2 ^ 64) /\ Bo l = 1) nd) as [(l & Hl & Q1 & Q2 & Q3)|NB].
      { intros l. destruct (Z_lt_dec (nth l off 0) 0); [|right; tauto]. destruct (Z.eq_dec (Bo l) 1); [|right; tauto].
        destruct (Znumtheory.Zdivide_dec (nth l dims 0) (2 ^ 64)); [right|left]; tauto. }
      { apply (missing_neg off low Hu).
        - intros k Hk. apply (HL k Hk).
        - exists j. split; auto. apply (HL j Hj); apply Cj.
        - intros k Hk. apply (HL k Hk).
        - exists l. split; auto. apply (HL l Hl); auto. split; auto. rewrite ax_mul by auto. auto. }
      assert (L1 : 1 < Lo i). { pose proof (ax_L i Hi). rewrite <- (ax_mul i Hi) in Di. destruct (Z.eq_dec (Lo i) 1) as [E|E]; [|lia]. rewrite E in Di. lia. }
      destruct (stay (Lo i) (Bo i) (nth i off 0) (ax_L i Hi) (ax_B i Hi) (ax_m i Hi) (Hu1 i Hi) Oi L1) as [(c & x & P1 & P2)|(c & x & P1 & P2)].
      - apply (missing_neg off (with1 low i (c, x)) Hu).
        + intros l Hl. unfold with1. destruct (Nat.eqb_spec l i) as [->|Hne]; [exact P1|apply (HL l Hl)].
        + exists j. split; auto. unfold with1. destruct (Nat.eqb_spec j i); [congruence|]. apply (HL j Hj); apply Cj.
        + intros l Hl. cbv beta. unfold with1. destruct (Nat.eqb_spec l i) as [->|Hne]; [simpl; lia|apply (HL l Hl)].
        + exists i. split; auto. cbv beta. unfold with1. rewrite Nat.eqb_refl. exact P2.
      - assert (Hhigh : forall l, (l < nd)%nat -> exists p : Z * Z, place (Lo l) (Bo l) (fst p) (snd p) /\
          dif (Lo l) (Bo l) (nth l off 0) (fst p) (snd p) = (if - nth l off 0 =? 0 then Lo l else 1) - 1 /\
          (nth l off 0 <> 0 -> 1 < Bo l -> exits (Lo l) (Bo l) (nth l off 0) (fst p) (snd p))).
        { intros l Hl. destruct (base_high (Lo l) (Bo l) (nth l off 0) (ax_L l Hl) (ax_B l Hl) (ax_m l Hl) (Hu1 l Hl)) as (c' & x' & H1 & H2 & H3).
          - intros ((Q1 & Q2) & Q3). apply (NB l Hl). rewrite ax_mul in Q2 by auto. auto.
          - exists (c', x'). auto. }
        destruct (fin_choice (0, 0) _ nd Hhigh) as (high & HH). clear Hhigh.
        assert (Eif : (if - nth i off 0 =? 0 then Lo i else 1) = 1). { replace (- nth i off 0 =? 0) with false by (symmetry; apply Z.eqb_neq; lia). reflexivity. }
        apply (missing_pos off (with1 high i (c, x)) Hu).
        + intros l Hl. unfold with1. destruct (Nat.eqb_spec l i) as [->|Hne]; [exact P1|apply (HH l Hl)].
        + exists j. split; auto. unfold with1. destruct (Nat.eqb_spec j i); [congruence|]. apply (HH j Hj); apply Cj.
        + intros l Hl. cbv beta. unfold with1. destruct (Nat.eqb_spec l i) as [->|Hne]; [rewrite Eif; simpl; lia|].
          destruct (HH l Hl) as (_ & -> & _). lia.
        + exists i. split; auto. cbv beta. unfold with1. rewrite Nat.eqb_refl, Eif. exact P2. }
    exfalso. apply Hns. split.
    - intros i j Cj Oi Hij. pose proof (nz_lt off i Hu Oi) as Hi. destruct (Z.eq_dec (nth i dims 0) (Bo i)) as [E|E]; auto.
      exfalso. apply (N1 i Hi). split; auto. split; auto. exists j. split; auto. apply (cross_lt off j Hu Cj).
    - intros j Cj Hneg. pose proof (cross_lt off j Hu Cj) as Hj. destruct (Znumtheory.Zdivide_dec (nth j dims 0) (2 ^ 64)) as [H|H]; [left; auto|right].
      rewrite ax_div by auto. split.
      + destruct (Z_lt_dec ((2 ^ 64 - 1) mod nth j dims 0) (Lo j)) as [H'|H']; auto. exfalso. apply (N2 j Hj). split; auto. split; auto. left. lia.
      + intros i Ci. destruct (Nat.eq_dec i j) as [E|E]; auto. exfalso. apply (N2 j Hj). split; auto. split; auto.
        right. exists i. split; auto. apply (cross_lt off i Hu Ci).
  Qed.
End Geo.

(** ** The loop over the cells *)
Lemma mai_fill_oob {X} lo hi rm body (v : list X) :
  good_box lo hi -> length v = length (nested_loops rm lo hi) ->
  (forall i inds v, nth_error (nested_loops rm lo hi) i = Some inds -> length v = length (nested_loops rm lo hi) ->
     mai_getIndices (mai_of lo hi rm (Z.of_nat i)) = Ok inds -> in_box lo hi inds ->
     (exists v', body (Z.of_nat i) (mai_of lo hi rm (Z.of_nat i), v) = Ok (mai_next (mai_of lo hi rm (Z.of_nat i)), v') /\
        length v' = length v) \/
     body (Z.of_nat i) (mai_of lo hi rm (Z.of_nat i), v) = Undef OobRead) ->
  ((exists v', for_upto (prodZ (extents lo hi)) body (mai_of lo hi rm 0, v) = Ok (mai_of lo hi rm (prodZ (extents lo hi)), v') /\
      length v' = length v) \/
   for_upto (prodZ (extents lo hi)) body (mai_of lo hi rm 0, v) = Undef OobRead) /\
  ((exists inds, in_box lo hi inds /\ forall i v, mai_getIndices (mai_of lo hi rm (Z.of_nat i)) = Ok inds ->
      length v = length (nested_loops rm lo hi) -> body (Z.of_nat i) (mai_of lo hi rm (Z.of_nat i), v) = Undef OobRead) ->
   for_upto (prodZ (extents lo hi)) body (mai_of lo hi rm 0, v) = Undef OobRead).
Proof.
  intros Hb Hl Hbody.
  set (L := nested_loops rm lo hi) in *. set (N := prodZ (extents lo hi)).
  pose proof (good_prod lo hi Hb) as HN. fold N in HN.
  assert (HL : length L = Z.to_nat N) by (apply loops_length; auto).
  assert (HI : forall i inds, nth_error L i = Some inds -> mai_getIndices (mai_of lo hi rm (Z.of_nat i)) = Ok inds).
  { intros i inds EL. assert (i < length L)%nat by (apply nth_error_Some; congruence).
    rewrite mai_getIndices_of by auto. f_equal.
    pose proof (nth_nested_loops rm lo hi (Z.of_nat i) Hb ltac:(fold N; lia)) as E.
    rewrite Nat2Z.id in E. fold L in E. congruence. }
  destruct (for_upto_oob (fun i (s : mai * list X) => fst s = mai_of lo hi rm (Z.of_nat i) /\ length (snd s) = length L)
      body N (mai_of lo hi rm 0, v)) as [H1 H2].
  - auto.
  - intros i [m w] Hi (Em & El). simpl in Em, El. subst m.
    destruct (nth_error L i) as [inds|] eqn:EL; [|apply nth_error_None in EL; lia].
    destruct (Hbody i inds w EL El (HI i inds EL)) as [(v' & E & Hv')|E].
    + apply (in_nested_loops rm); [apply Hb|]. apply nth_error_In with i. exact EL.
    + left. eexists. split; [exact E|]. cbn [fst snd]. split; [|lia]. rewrite mai_next_of by lia. f_equal. lia.
    + right. exact E.
  - split.
    + destruct H1 as [([m w] & E & Em & El)|E]; [left|right; exact E]. cbn [fst snd] in Em, El. exists w. split; [|lia].
      rewrite E, Em. rewrite Z2Nat.id by lia. reflexivity.
    + intros (inds & Hin & Hf). apply H2. apply (in_nested_loops rm) in Hin; [|apply Hb]. apply In_nth_error in Hin as (i & Ei).
      exists i. split; [rewrite <- HL; apply nth_error_Some; fold L in Ei; congruence|].
      intros [m w] (Em & El). cbn [fst snd] in Em, El. subst m. apply Hf; auto.
Qed.

Definition wcells_of (dims b : list Z) (r : Z) (s : list Z) : list (list Z) := nested_loops false (wlo dims b r s) (whi dims b r s).

Lemma oob_bind {A B C E} (p : res A) (q : A -> res B) (k : B -> res C) (h : C -> res E) :
  (x <- p ;; q x) = Undef OobRead -> (y <- (x <- p ;; z <- q x ;; k z) ;; h y) = Undef OobRead.
Proof. destruct p as [a|u]; cbn [bind]; [|congruence]. intros ->. reflexivity. Qed.

Section Ranks.
  Context {D : Type} (ar : arith D) (dims : list Z) (n : Z) (b : list Z).
  Context (st : list (list Z * D)) (xmins xmaxs : list D).
  Hypothesis Hg : grid_ok dims.
  Hypothesis Hn : 1 <= n <= 2 ^ 30.
  Hypothesis Hb : is_decomp n dims b.
  Hypothesis Hoff : forall off w, In (off, w) st -> unit_offset (length dims) off.

  Notation blo := (beg_of dims b).
  Notation bhi := (end_of dims b).
  Notation nd := (length dims).
  Notation wlo := (wlo dims b).
  Notation whi := (whi dims b).
  Notation cells r := (nested_loops false (blo r) (bhi r)).
  Notation fok := (fok dims n b st xmins xmaxs).
  Notation rank_holds := (rank_holds dims n b st xmins xmaxs).
  Notation wfield := (wfield dims b).
  Notation missing := (missing dims b).
  Notation S0 := (sides_of st).

  Lemma accumulate_oob r f G off w :
    0 <= r < n -> fok r S0 f -> unit_offset nd off -> f_inData f = map G (cells r) ->
    let res := filter_accumulate ar f (mai_of (wlo (nb_of b r off) (opp off)) (whi (nb_of b r off) (opp off)) false 0)
      (if nonzero off then Some (wfield G (nb_of b r off) (opp off)) else None) off w in
    ((exists v, res = Ok (set_out (set_mit f (mai_of (blo r) (bhi r) false (prodZ (extents (blo r) (bhi r))))) v) /\ length v = length (cells r)) \/
     res = Undef OobRead) /\
    ((exists g, missing r off g) -> res = Undef OobRead).
  Proof using Hg Hn Hb.
    intros Hr Hf Hu Hin res. unfold res, filter_accumulate, get_mit. clear res.
    destruct (fo_mit _ _ _ _ _ _ _ _ _ Hf) as (km & ->). cbn [bind]. rewrite mai_begin_of, nterms_of.
    set (r' := nb_of b r off). set (sd := opp off).
    pose proof (box_good dims n b Hg Hn Hb) as HBG.
    pose proof (win_good dims n b Hg Hn Hb) as HWG.
    assert (Hr' : 0 <= r' < n) by (apply (nb_of_range n dims); auto; apply Hu).
    pose proof (fo_out _ _ _ _ _ _ _ _ _ Hf) as HO.
    assert (Hnz : forall g, in_box (blo r) (bhi r) g -> ~ in_box (blo r) (bhi r) (cwrap dims (shift g off)) -> nonzero off = true).
    { intros g Hgb Hout. destruct (nonzero off) eqn:E; auto. exfalso. apply Hout.
      assert (H0 : forall j, nth j off 0 = 0).
      { intros j. destruct (Z.eq_dec (nth j off 0) 0) as [H|H]; auto. exfalso.
        assert (nonzero off = true) by (apply nonzero_true; exists j; split; auto; rewrite (proj1 Hu); apply (nz_lt dims off j Hu H)). congruence. }
      replace (cwrap dims (shift g off)) with g; auto.
      pose proof (box_grid dims n b Hg Hn Hb r g Hgb) as Hgr. apply in_grid_nth in Hgr as (G1 & G2). destruct Hu as (Lo & _).
      apply (nth_ext' 0); [rewrite cwrap_length; [auto|rewrite shift_length; lia]|]. rewrite G1. intros j Hj. rewrite cwrap_nth, shift_nth by (rewrite ?shift_length; lia).
      rewrite H0, Z.add_0_r. specialize (G2 j Hj). pose proof (grid_dim_range dims j Hg Hj). rewrite u64_id by (unfold two31, two64 in *; lia).
      symmetry. apply Z.mod_small. lia. }
    (* reading from the layer *)
    assert (Hrd : forall g, in_box (blo r) (bhi r) g ->
       (0 <= flat dims b r off g < prodZ (wext dims b sd) -> exists x, (bi2 <- mai_computeBigIndex_int (mai_of (wlo r' sd) (whi r' sd) false 0) (cwrap dims (shift g off)) ;;
          rd (wfield G r' sd) (u64 bi2)) = Ok x) /\
       (~ (0 <= flat dims b r off g < prodZ (wext dims b sd)) -> (bi2 <- mai_computeBigIndex_int (mai_of (wlo r' sd) (whi r' sd) false 0) (cwrap dims (shift g off)) ;;
          rd (wfield G r' sd) (u64 bi2)) = Undef OobRead)).
    { intros g (G1 & _). rewrite (blo_length dims n b) in G1 by auto.
      assert (Hs : length (cwrap dims (shift g off)) = nd) by (apply cwrap_length; rewrite shift_length; [auto|rewrite (proj1 Hu); auto]).
      unfold mai_computeBigIndex_int. rewrite mai_computeBig_of by (auto; rewrite Hs; symmetry; apply vec_length). cbn [bind].
      rewrite (win_extents dims n b Hg Hn Hb). change (dot _ _) with (flat dims b r off g).
      pose proof (flat_bound dims n b Hg Hn Hb r off g Hu G1) as HF. rewrite i32_u64 by exact HF.
      assert (LW : vlen (wfield G r' sd) = prodZ (wext dims b sd)).
      { unfold vlen. rewrite (wfield_length dims n b Hg Hn Hb). pose proof (wext_range dims n b Hg Hn Hb sd). lia. }
      pose proof (wext_range dims n b Hg Hn Hb sd) as HR. unfold rd. split.
      - intros H. rewrite u64_id by (unfold two31, two64 in *; lia).
        destruct (nth_error (wcells_of dims b r' sd) (Z.to_nat (flat dims b r off g))) as [c|] eqn:E.
        2:{ apply nth_error_None in E. unfold wcells_of in E. rewrite (wcells_length dims n b Hg Hn Hb) in E. lia. }
        exists (G c). unfold vget. replace ((0 <=? _) && (_ <? _)) with true
          by (symmetry; apply andb_true_iff; split; [apply Z.leb_le; lia|apply Z.ltb_lt; lia]).
        unfold FilterRank.wfield. rewrite nth_error_map. unfold wcells_of in E. rewrite E. reflexivity.
      - intros H. rewrite vget_oob; [reflexivity|]. rewrite LW. intros HX. apply H.
        destruct (Z_le_gt_dec 0 (flat dims b r off g)) as [H0|H0].
        + rewrite u64_id in HX by (unfold two31, two64 in *; lia). lia.
        + exfalso. unfold u64 in HX. rewrite <- (Z.mod_add _ 1) in HX by (unfold two64; lia). rewrite Z.mod_small in HX by (unfold two31, two64 in *; lia).
          unfold two31, two64 in *; lia. }
    match goal with |- context [for_upto _ ?bd _] => set (body := bd) end.
    destruct (mai_fill_oob (blo r) (bhi r) false body (f_outData f)) as [H1 H2]; auto.
    - intros i g v Hi Hv HI Hbox. unfold body. rewrite HI. cbn [bind].
      assert (Hil : (i < length v)%nat) by (rewrite Hv; apply nth_error_Some; congruence).
      destruct (offsetIndices_ok dims n b st xmins xmaxs Hg Hn Hb r S0 f off g Hf Hu Hbox) as (inside & -> & Hins). cbn [bind].
      destruct inside.
      + left. destruct (mai_computeBig_in (blo r) (bhi r) false (Z.of_nat i) (cwrap dims (shift g off))) as (EB & HB); auto.
        { apply Hins; auto. }
        unfold mai_computeBigIndex_int. unfold mai_computeBigIndex in EB. rewrite EB. cbn [bind].
        rewrite (box_extents dims n b) in * by auto. pose proof (local_prod_range dims n b Hg Hn Hb).
        rewrite i32_id by lia. rewrite u64_id by (unfold two31, two64 in *; lia).
        rewrite Hin. rewrite <- (box_extents dims n b Hg Hn Hb r).
        rewrite vget_field by (auto; apply Hins; auto). cbn [bind].
        rewrite (vget_nat v i (a_zero ar)) by auto. cbn [bind]. rewrite vset_nat by auto. eexists. split; [reflexivity|]. apply upd_length.
      + rewrite (Hnz g Hbox) by (intros H; apply Hins in H; discriminate).
        destruct (Hrd g Hbox) as (R1 & R2).
        destruct (Z_le_dec 0 (flat dims b r off g)) as [D1|D1], (Z_lt_dec (flat dims b r off g) (prodZ (wext dims b sd))) as [D2|D2];
          [left|right; apply oob_bind, R2; lia|right; apply oob_bind, R2; lia|right; apply oob_bind, R2; lia].
        destruct (R1 (conj D1 D2)) as (x & E). revert E.
        destruct (mai_computeBigIndex_int _ _) as [bi2|u]; cbn [bind]; [|discriminate]. intros ->. cbn [bind].
        rewrite (vget_nat v i (a_zero ar)) by auto. cbn [bind]. rewrite vset_nat by auto. eexists. split; [reflexivity|]. apply upd_length.
    - split.
      + destruct H1 as [(v & E & Hv)|E]; rewrite E; cbn [bind]; [left|right; reflexivity]. exists v. split; [reflexivity|lia].
      + intros (g & Hbox & Hout & Hm). rewrite H2; [reflexivity|]. exists g. split; [exact Hbox|]. intros i v HI Hv. unfold body. rewrite HI. cbn [bind].
        destruct (offsetIndices_ok dims n b st xmins xmaxs Hg Hn Hb r S0 f off g Hf Hu Hbox) as (inside & -> & Hins). cbn [bind].
        destruct inside; [exfalso; apply Hout, Hins; reflexivity|].
        rewrite (Hnz g Hbox Hout). apply oob_bind. apply (Hrd g Hbox). exact Hm.
  Qed.

  Lemma branch_oob remote r f G off w :
    0 <= r < n -> remote_ok dims n b st remote G -> In (off, w) st -> rank_holds r G f ->
    ((exists f', filter_branch ar remote f (off, w) = Ok f' /\ rank_holds r G f') \/
     filter_branch ar remote f (off, w) = Undef OobRead) /\
    ((exists g, missing r off g) -> filter_branch ar remote f (off, w) = Undef OobRead).
  Proof using Hg Hn Hb Hoff.
    intros Hr Hrem Hst (Hf & Hin & Hp). pose proof (Hoff off w Hst) as Hu.
    unfold filter_branch. rewrite (side_eq dims) by (auto; apply Hf). cbn [bind].
    destruct (fo_dcmp _ _ _ _ _ _ _ _ _ Hf) as (k & Ek). rewrite Ek, (fo_rk _ _ _ _ _ _ _ _ _ Hf).
    rewrite cd_getNeighborRank_of; auto; [|apply Hu|].
    2:{ intros j Hj. rewrite (u64_rank n Hn) by auto. pose proof (coords_range n dims b r j Hb Hj). pose proof (unit_int dims off j Hu). lia. }
    cbn [bind]. rewrite (u64_rank n Hn) by auto.
    assert (Hr' : 0 <= nb_of b r off < n) by (apply (nb_of_range n dims); auto; apply Hu).
    assert (HinS : nonzero off = true -> In (opp off) S0).
    { intros Hnz. apply in_sides. exists off, w. auto. }
    rewrite (windowIter_eq dims n b st xmins xmaxs Hg Hn Hb r S0)
      by (auto using (set_dcmp_fok dims n b st xmins xmaxs), (opp_unit dims); rewrite nonzero_opp; auto). cbn [bind].
    set (f1 := set_dcmp (set_dcmp f (cube_of n dims b r)) (cube_of n dims b (nb_of b r off))).
    assert (Hf1 : fok r S0 f1) by (unfold f1; auto using (set_dcmp_fok dims n b st xmins xmaxs)).
    destruct (nonzero off) eqn:Hnz.
    - destruct (fo_w1 _ _ _ _ _ _ _ _ _ Hf1 (opp off) (HinS eq_refl)) as (ids & ->).
      destruct (fetch_ok dims n b st xmins xmaxs Hg Hn Hb remote r f1 (opp off) (nb_of b r off) G Hf1 (HinS eq_refl) Hr') as (src & dst & Es & L1 & ->).
      { apply Hrem; auto. }
      cbn [bind].
      set (f2 := set_win f1 (omap_set lexcmp (opp off) (src, wfield G (nb_of b r off) (opp off)) (f_winData f1)) (f_winIter f1)).
      assert (Hf2 : fok r S0 f2) by (unfold f2; apply set_wd_fok; auto; apply (wfield_length dims n b Hg Hn Hb)).
      pose proof (accumulate_oob r f2 G off w Hr Hf2 Hu Hin) as EA. cbv zeta in EA. rewrite Hnz in EA. destruct EA as [E1 E2].
      split; [|exact E2]. destruct E1 as [(v & E & Hv)|E]; [left|right; exact E]. eexists. split; [exact E|]. split; [|split].
      + apply set_out_fok; [apply set_mit_fok; auto|exact Hv].
      + exact Hin.
      + intros s Hs. simpl. destruct (list_eq_dec Z.eq_dec (opp off) s) as [<-|Hne].
        * rewrite lset_same. destruct (Hp _ Hs) as (d' & Ed). simpl in Es. rewrite Es in Ed. inversion Ed; subst. eauto.
        * rewrite lset_other by auto. apply Hp; auto.
    - replace (omap_find lexcmp (opp off) (f_winIds f1)) with (@None (Z * Z * Z)).
      2:{ symmetry. apply (fo_w0 _ _ _ _ _ _ _ _ _ Hf1). intros H. apply (sides_unit dims st Hoff) in H as [_ H]. rewrite nonzero_opp in H. congruence. }
      cbn [bind].
      pose proof (accumulate_oob r f1 G off w Hr Hf1 Hu Hin) as EA. cbv zeta in EA. rewrite Hnz in EA. destruct EA as [E1 E2].
      split; [|exact E2]. destruct E1 as [(v & E & Hv)|E]; [left|right; exact E]. eexists. split; [exact E|]. split; [|split].
      + apply set_out_fok; [apply set_mit_fok; auto|exact Hv].
      + exact Hin.
      + intros s Hs. simpl. apply Hp; auto.
  Qed.

  Lemma applyFilter_oob remote r f G :
    0 <= r < n -> remote_ok dims n b st remote G -> rank_holds r G f ->
    ((exists f', filter_applyFilter ar remote f = Ok f') \/ filter_applyFilter ar remote f = Undef OobRead) /\
    ((exists off w g, In (off, w) st /\ missing r off g) -> filter_applyFilter ar remote f = Undef OobRead).
  Proof using Hg Hn Hb Hoff.
    intros Hr Hrem HG. unfold filter_applyFilter.
    destruct (zeroOut_ok ar dims n b st xmins xmaxs Hg Hn Hb r f G HG) as (f0 & -> & H0 & _). cbn [bind].
    assert (Est : f_stencil f0 = st) by (destruct H0 as (Hf & _); apply Hf). rewrite Est.
    destruct (for_each_oob (rank_holds r G) (fun it f => filter_branch ar remote f it) st f0) as [H1 H2]; [exact H0| |].
    - intros [off w] f1 Hin Hf1. apply (branch_oob remote r f1 G off w Hr Hrem Hin Hf1).
    - split.
      + destruct H1 as [(f' & E & _)|E]; [left; eauto|right; exact E].
      + intros (off & w & g & Hin & Hm). apply H2. exists (off, w). split; [exact Hin|]. intros f1 Hf1.
        apply (branch_oob remote r f1 G off w Hr Hrem Hin Hf1). eauto.
  Qed.

  Lemma world_apply_oob G F w :
    wholds dims n b st xmins xmaxs G F w ->
    (exists off c, In (off, c) st /\ ~ sound_offset dims b off) -> world_apply ar w = Undef OobRead.
  Proof using Hg Hn Hb Hoff.
    intros HG (off & c & Hst & Hns).
    pose proof (world_remote_ok dims n b st xmins xmaxs Hg Hn Hb G F w HG) as Hrem. destruct HG as (Hl & Hw).
    destruct (unsound_missing dims n b Hg Hn Hb off (Hoff off c Hst) Hns) as (r & g & Hr & Hm). unfold world_apply. apply mapM_oob.
    - intros f Hin. apply In_nth_error in Hin as (i & Hi). destruct (Hw i f Hi) as (H1 & _).
      apply (applyFilter_oob (world_remote w) (Z.of_nat i) f G (rank_in n Hn w i f Hl Hi) Hrem H1).
    - destruct (nth_error w (Z.to_nat r)) as [f|] eqn:E; [|apply nth_error_None in E; lia].
      exists f. split; [apply (nth_error_In _ _ E)|]. destruct (Hw _ _ E) as (H1 & _). rewrite Z2Nat.id in H1 by lia.
      apply (applyFilter_oob (world_remote w) r f G Hr Hrem H1). exists off, c, g. auto.
  Qed.

  (** ** Programs *)
  Hypothesis Hmap : is_map st.

  Definition ufinal (ops : list (op D)) (GF : (list Z -> D) * (list Z -> D)) := fold_left (fun s o => unsigned_meaning ar dims xmins xmaxs st o s) ops GF.

  Lemma sound_dec off : unit_offset nd off -> {sound_offset dims b off} + {~ sound_offset dims b off}.
  Proof using Type.
    clear Hg Hn Hb Hoff Hmap. intros Hu.
    assert (H : forall j, {crosses b off j} + {~ crosses b off j}) by (intros j; apply cross_dec).
    destruct (ex_lt_dec (fun i => exists j, (j < nd)%nat /\ (crosses b off j /\ nth i off 0 <> 0 /\ i <> j /\ nth i dims 0 <> nth i b 0)) nd) as [E|N1].
    { intros i. destruct (ex_lt_dec (fun j => crosses b off j /\ nth i off 0 <> 0 /\ i <> j /\ nth i dims 0 <> nth i b 0) nd) as [E|E].
      - intros j. destruct (H j); [|right; tauto]. destruct (Z.eq_dec (nth i off 0) 0); [right; tauto|]. destruct (Nat.eq_dec i j); [right; tauto|].
        destruct (Z.eq_dec (nth i dims 0) (nth i b 0)); [right|left]; tauto.
      - left; exact E.
      - right. intros (j & Hj & X). apply (E j Hj X). }
    { right. intros (S1 & _). destruct E as (i & _ & j & _ & X1 & X2 & X3 & X4). apply X4. apply (S1 i j); auto. }
    destruct (ex_lt_dec (fun j => crosses b off j /\ nth j off 0 < 0 /\ ~ (nth j dims 0 | 2 ^ 64) /\
       ((2 ^ 64 - 1) mod nth j dims 0 >= nth j dims 0 / nth j b 0 \/ exists i, (i < nd)%nat /\ (crosses b off i /\ i <> j))) nd) as [E|N2].
    { intros j. destruct (H j); [|right; tauto]. destruct (Z_lt_dec (nth j off 0) 0); [|right; tauto].
      destruct (Znumtheory.Zdivide_dec (nth j dims 0) (2 ^ 64)); [right; tauto|].
      destruct (Z_ge_dec ((2 ^ 64 - 1) mod nth j dims 0) (nth j dims 0 / nth j b 0)); [left; tauto|].
      destruct (ex_lt_dec (fun i => crosses b off i /\ i <> j) nd) as [E|E].
      - intros i. destruct (H i), (Nat.eq_dec i j); [right|left|right|right]; tauto.
      - left; tauto.
      - right. intros (_ & _ & _ & [X|(i & Hi & X)]); [contradiction|]. apply (E i Hi X). }
    { right. intros (_ & S2). destruct E as (j & _ & C & Hneg & Hd & X). destruct (S2 j C Hneg) as [Y|(Y1 & Y2)]; [contradiction|].
      destruct X as [X|(i & _ & X1 & X2)]; [apply X; exact Y1|]. apply X2, Y2, X1. }
    left. split.
    - intros i j Cj Oi Hij. destruct (Z.eq_dec (nth i dims 0) (nth i b 0)) as [E|E]; auto. exfalso.
      apply (N1 i (nz_lt dims off i Hu Oi)). exists j. split; [apply (cross_lt dims b off j Hu Cj)|]. auto.
    - intros j Cj Hneg. destruct (Znumtheory.Zdivide_dec (nth j dims 0) (2 ^ 64)) as [E|E]; [left; auto|right]. split.
      + destruct (Z_ge_dec ((2 ^ 64 - 1) mod nth j dims 0) (nth j dims 0 / nth j b 0)) as [E'|E'];
          [|destruct (Z_lt_ge_dec ((2 ^ 64 - 1) mod nth j dims 0) (nth j dims 0 / nth j b 0)); [auto|contradiction]].
        exfalso. apply (N2 j (cross_lt dims b off j Hu Cj)). auto.
      + intros i Ci. destruct (Nat.eq_dec i j) as [E'|E']; auto. exfalso. apply (N2 j (cross_lt dims b off j Hu Cj)).
        split; auto. split; auto. split; auto. right. exists i. split; [apply (cross_lt dims b off i Hu Ci)|auto].
  Qed.

  Lemma sound_st_dec : sound_stencil dims b st \/ exists off c, In (off, c) st /\ ~ sound_offset dims b off.
  Proof using Hoff.
    clear Hmap. unfold sound_stencil. induction st as [|[off c] l IH].
    - left. intros ? ? [].
    - destruct (sound_dec off (Hoff off c (or_introl eq_refl))) as [H|H]; [|right; exists off, c; split; [left; auto|auto]].
      destruct IH as [H'|(o & c' & H1 & H2)].
      + intros o c' Hin. apply (Hoff o c'). right; auto.
      + left. intros o c' [E|Hin]; [inversion E; subst; auto|apply (H' o c' Hin)].
      + right. exists o, c'. split; [right; auto|auto].
  Qed.

  Lemma urun_op_ok o G F w :
    (o = Apply -> sound_stencil dims b st) ->
    (forall u, o = SetByPosition u -> length xmins = nd /\ length xmaxs = nd) ->
    wholds dims n b st xmins xmaxs G F w -> exists w', run_op ar o w = Ok w' /\
      wholds dims n b st xmins xmaxs (fst (unsigned_meaning ar dims xmins xmaxs st o (G, F))) (snd (unsigned_meaning ar dims xmins xmaxs st o (G, F))) w'.
  Proof using Hg Hn Hb Hoff.
    intros Hso Hx HG. pose proof (wholds_wfok _ _ _ _ _ _ _ _ _ HG) as HF.
    destruct o as [u|G'| | |i|i]; cbn [run_op unsigned_meaning meaning fst snd].
    - destruct (Hx u eq_refl) as (L0 & L1).
      apply (world_set_ok ar dims n b st xmins xmaxs Hg Hn Hb F u (centre ar dims xmins xmaxs) w HF).
      intros. apply position_ok; auto.
    - apply (world_setByIndices_ok ar dims n b st xmins xmaxs Hg Hn Hb F G' w HF).
    - apply (world_apply_ok ar dims n b st xmins xmaxs Hg Hn Hb Hoff G F w); auto.
      intros off c H. apply sound_reaches; auto. apply (Hoff _ _ H). apply (Hso eq_refl _ _ H).
    - destruct (world_copy_ok ar dims n b st xmins xmaxs Hg Hn Hb F w HF) as (w' & E & Hw' & _). eauto.
    - apply (reads_ok dims n b st xmins xmaxs Hn); auto. intros r f Hr Hf. destruct (localSum_ok ar dims n b st xmins xmaxs Hg Hn Hb r f i _ Hf eq_refl) as (k & ->). eauto.
    - apply (reads_ok dims n b st xmins xmaxs Hn); auto. intros r f Hr Hf. destruct (print_ok ar dims n b st xmins xmaxs Hg Hn Hb r f i _ Hf eq_refl) as (k & ->). eauto.
  Qed.

  Lemma urun_ok ops : forall G F w,
    (In Apply ops -> sound_stencil dims b st) ->
    (forall u, In (SetByPosition u) ops -> length xmins = nd /\ length xmaxs = nd) ->
    wholds dims n b st xmins xmaxs G F w -> exists w', run ar ops w = Ok w' /\
      wholds dims n b st xmins xmaxs (fst (ufinal ops (G, F))) (snd (ufinal ops (G, F))) w'.
  Proof using Hg Hn Hb Hoff.
    unfold run. induction ops as [|o ops IH]; intros G F w Hs Hx HG.
    - exists w. split; [reflexivity|exact HG].
    - destruct (urun_op_ok o G F w) as (w1 & E & H1); [intros ->; apply Hs; left; auto|intros u ->; apply (Hx u); left; auto|exact HG|].
      cbn [for_each]. rewrite E. cbn [bind].
      destruct (IH _ _ w1 (fun H => Hs (or_intror H)) (fun u H => Hx u (or_intror H)) H1) as (w2 & E2 & H2). exists w2. split; [exact E2|].
      unfold ufinal in *. cbn [fold_left]. destruct (unsigned_meaning ar dims xmins xmaxs st o (G, F)); exact H2.
  Qed.

  Lemma urun_oob ops : forall G F w,
    In Apply ops -> ~ sound_stencil dims b st ->
    (forall u, In (SetByPosition u) ops -> length xmins = nd /\ length xmaxs = nd) ->
    wholds dims n b st xmins xmaxs G F w -> run ar ops w = Undef OobRead.
  Proof using Hg Hn Hb Hoff.
    unfold run. induction ops as [|o ops IH]; intros G F w Hin Hs Hx HG; [destruct Hin|]. cbn [for_each].
    destruct sound_st_dec as [H|H]; [contradiction|].
    assert (Ho : o = Apply \/ o <> Apply) by (destruct o; [right|right|left|right|right|right]; congruence).
    destruct Ho as [->|Ho].
    - cbn [run_op]. rewrite (world_apply_oob G F w HG H). reflexivity.
    - destruct (urun_op_ok o G F w) as (w1 & E & H1); [contradiction|intros u ->; apply (Hx u); left; auto|exact HG|].
      rewrite E. cbn [bind]. apply (IH _ _ w1) with (4 := H1); auto.
      + destruct Hin as [E'|Hin]; [congruence|exact Hin].
      + intros u Hu. apply (Hx u). right; auto.
  Qed.
End Ranks.
