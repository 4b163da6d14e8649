(** * C84: the advected field as a random walk *)
From Coq Require Import List Reals Lra Lia RealField.
From Verif Require Import Cpp CppProof MaiModel MaiSpec Radix MaiProof CdModel CdSpec FilterModel FilterSpec FilterProof
  FilterSum RealArith LapSpec LapProof UpModel UpSpec UpProof UpExact UpProps UpMpiProps ConvSpec ConvProof WalkSpec WalkProps.
From Coq Require Import List.
Import ListNotations.
Local Open Scope R_scope.
Local Arguments prodZ : simpl never.
Local Arguments Z.of_nat : simpl never.

Definition rsum (l : list R) : R := fold_right Rplus 0 l.

Lemma rsum_app l m : rsum (l ++ m) = rsum l + rsum m.
Proof. unfold rsum. induction l as [|x l IH]; simpl; [ring|rewrite IH; ring]. Qed.
Lemma rsum_scal {A} (F : A -> R) c l : rsum (map (fun x => c * F x) l) = c * rsum (map F l).
Proof. unfold rsum. induction l as [|x l IH]; cbn [map fold_right]; [ring|rewrite IH; ring]. Qed.
Lemma rsum_flat_map {A B} (F : B -> R) (h : A -> list B) l : rsum (map F (flat_map h l)) = rsum (map (fun x => rsum (map F (h x))) l).
Proof. induction l as [|x l IH]; [reflexivity|]. cbn [flat_map map]. rewrite map_app, rsum_app, IH. reflexivity. Qed.

Lemma moves_nth nd word j : (j < nd)%nat -> nth j (moves nd word) 0%nat = count_occ Nat.eq_dec word (S j).
Proof.
  intros Hj. unfold moves. rewrite (nth_indep _ 0%nat (count_occ Nat.eq_dec word (S nd))) by (rewrite map_length, seq_length; exact Hj).
  rewrite (map_nth (fun j => count_occ Nat.eq_dec word (S j)) (seq 0 nd) nd j), seq_nth by exact Hj. reflexivity.
Qed.

(** ** Any field: the average over all walks *)
Lemma iter_walk dims v lengths dt k G g : pos_axes dims -> in_grid dims g ->
  upwind_iter arR k dims v lengths dt G g =
  rsum (map (fun word => probability dims v lengths dt word * G (steps_upwind arR dims v g (moves (length dims) word))) (words (length dims) k)).
Proof.
  intros Hp. revert g. induction k as [|k IH]; intros g Hg.
  - cbn [upwind_iter words map]. unfold rsum, probability. cbn [map fold_right]. rewrite su_stay; [ring|exact Hg|].
    intros j Hj. rewrite moves_nth by exact Hj. reflexivity.
  - cbn [upwind_iter words]. rewrite formula_convex. rewrite !sumax_sum, rsum_flat_map.
    set (nd := length dims) in *. change (fun j => Rabs (nth j v 0) * dt / (nth j lengths 0 / IZR (nth j dims 0%Z))) with (share dims v lengths dt).
    change (1 - sum_axes nd (share dims v lengths dt)) with (rest dims v lengths dt).
    cbn [seq]. rewrite map_cons. change (rsum (?x :: ?l)) with (x + rsum l). f_equal.
    + rewrite map_map, IH, <- rsum_scal by exact Hg. f_equal. apply map_ext. intros word.
      unfold probability at 2. cbn [map fold_right]. fold (probability dims v lengths dt word).
      replace (moves nd (0%nat :: word)) with (moves nd word); [ring|].
      unfold moves. apply map_ext. intros j. reflexivity.
    + rewrite <- seq_shift, map_map. change (sum_axes nd ?F) with (rsum (map F (seq 0 nd))). f_equal. apply map_ext_in. intros j Hj. apply in_seq in Hj.
      rewrite map_map, IH, <- rsum_scal by (apply neighbour_in; auto). f_equal. apply map_ext. intros word.
      unfold probability at 2. cbn [map fold_right]. fold (probability dims v lengths dt word).
      rewrite (su_step arR dims v Hp g (moves nd word) (moves nd (S j :: word)) j Hg ltac:(lia)); [unfold share; ring|].
      intros i Hi. rewrite !moves_nth by exact Hi. destruct (Nat.eqb_spec i j) as [->|Hne].
      * cbn [count_occ]. destruct (Nat.eq_dec (S j) (S j)); [reflexivity|congruence].
      * cbn [count_occ]. destruct (Nat.eq_dec (S j) (S i)); [congruence|reflexivity].
Qed.

Theorem C84_walk dims v lengths u G dt n :
  up_args dims v lengths -> short_axes dims -> up_object arR dims v lengths u -> holds u dims G ->
  exists u', up_advect arR (vlen dims) u n dt = Ok u' /\
    holds u' dims (fun g => rsum (map (fun word => probability dims v lengths dt word *
                                                 G (steps_upwind arR dims v g (moves (length dims) word)))
                                    (words (length dims) (Z.to_nat n)))).
Proof.
  intros Ha Hsh Hu HG. destruct (C42_advect arR _ _ _ _ _ dt n Ha Hsh Hu HG) as (u' & E & _ & Hh'). exists u'. split; [exact E|].
  unfold holds in *. rewrite Hh'. apply map_ext_in. intros g Hg. apply in_cells in Hg.
  apply iter_walk; [exact (proj1 (proj2 (proj2 (proj1 Ha))))|exact Hg].
Qed.
Print Assumptions C84_walk.

(** ** The corner field: the multinomial distribution, as long as nothing has gone round the grid *)
Lemma prodax_change nd F F' j x : (j < nd)%nat -> (forall i, (i < nd)%nat -> i <> j -> F i = F' i) -> F j = x * F' j ->
  prod_axes nd F = x * prod_axes nd F'.
Proof.
  intros Hj H Hx. unfold prod_axes.
  assert (H' : forall i, In i (seq 0 nd) -> i <> j -> F i = F' i) by (intros i Hi; apply in_seq in Hi; apply H; lia).
  assert (Hin : In j (seq 0 nd)) by (apply in_seq; lia). pose proof (seq_NoDup nd 0) as Hd.
  induction (seq 0 nd) as [|i l IH]; [destruct Hin|]. cbn [map fold_right]. inversion Hd as [|? ? Hn Hd']; subst.
  destruct Hin as [->|Hin].
  - rewrite Hx. replace (map F l) with (map F' l); [ring|].
    apply map_ext_in. intros i Hi. symmetry. apply H'; [right; exact Hi|intros ->; contradiction].
  - rewrite IH; [|intros k Hk Hne; apply H'; [right; exact Hk|exact Hne]|exact Hin|exact Hd'].
    rewrite (H' i) by (try (left; reflexivity); intros ->; contradiction). ring.
Qed.

Lemma prodax_pos nd F : (forall j, (j < nd)%nat -> 0 < F j) -> 0 < prod_axes nd F.
Proof.
  intros H. unfold prod_axes. assert (H' : forall i, In i (seq 0 nd) -> 0 < F i) by (intros i Hi; apply in_seq in Hi; apply H; lia).
  induction (seq 0 nd) as [|i l IH]; cbn [map fold_right]; [lra|]. apply Rmult_lt_0_compat; [apply H'; left; reflexivity|].
  apply IH. intros k Hk. apply H'. right. exact Hk.
Qed.

Lemma fact_pos n : 0 < INR (fact n).
Proof. apply lt_0_INR, lt_O_fact. Qed.

Lemma sum_upd_pred a j : (j < length a)%nat -> (0 < nth j a 0%nat)%nat -> S (list_sum (upd a j (pred (nth j a 0%nat)))) = list_sum a.
Proof.
  revert j; induction a as [|x a IH]; intros j Hj Hx; [simpl in Hj; lia|]. destruct j as [|j]; cbn [upd nth] in *.
  - change (list_sum (?y :: a)) with (y + list_sum a)%nat. lia.
  - change (list_sum (x :: ?l)) with (x + list_sum l)%nat. rewrite <- (IH j) by (simpl in Hj; lia). lia.
Qed.

Lemma list_sum_INR a : INR (list_sum a) = sum_axes (length a) (fun j => INR (nth j a 0%nat)).
Proof.
  unfold sum_axes. induction a as [|x a IH]; [reflexivity|]. change (list_sum (x :: a)) with (x + list_sum a)%nat.
  rewrite plus_INR, IH. cbn [length seq map fold_right nth]. f_equal. rewrite <- seq_shift, map_map. reflexivity.
Qed.

(** Pascal's rule. *)
Lemma multi_stay nd k a : INR (S k) * multinomial nd k a = INR (S k - list_sum a) * multinomial nd (S k) a.
Proof.
  unfold multinomial. set (P := prod_axes nd _). assert (HP : 0 < P) by (apply prodax_pos; intros; apply fact_pos).
  destruct (Nat.leb_spec (list_sum a) k) as [H|H]; destruct (Nat.leb_spec (list_sum a) (S k)) as [H'|H']; try lia.
  - replace (S k - list_sum a)%nat with (S (k - list_sum a)) by lia. rewrite !fact_simpl, !mult_INR.
    pose proof (fact_pos (k - list_sum a)). assert (0 < INR (S (k - list_sum a))) by (apply lt_0_INR; lia). field. lra.
  - replace (S k - list_sum a)%nat with 0%nat by lia. simpl INR. ring.
  - ring.
Qed.

Lemma multi_move nd k a j : length a = nd -> (j < nd)%nat -> (0 < nth j a 0%nat)%nat ->
  INR (S k) * multinomial nd k (upd a j (pred (nth j a 0%nat))) = INR (nth j a 0%nat) * multinomial nd (S k) a.
Proof.
  intros L Hj Hx. unfold multinomial. pose proof (sum_upd_pred a j ltac:(lia) Hx) as Es.
  set (b := upd a j (pred (nth j a 0%nat))) in *.
  assert (Ep : prod_axes nd (fun i => INR (fact (nth i a 0%nat))) = INR (nth j a 0%nat) * prod_axes nd (fun i => INR (fact (nth i b 0%nat)))).
  { apply (prodax_change nd _ _ j); [exact Hj| |].
    - intros i Hi Hne. unfold b. rewrite upd_nth by lia. apply Nat.eqb_neq in Hne. rewrite Hne. reflexivity.
    - unfold b. rewrite upd_nth by lia. rewrite Nat.eqb_refl. destruct (nth j a 0%nat) as [|m]; [lia|]. cbn [pred].
      rewrite fact_simpl, mult_INR. reflexivity. }
  rewrite Ep. set (P := prod_axes nd (fun i => INR (fact (nth i b 0%nat)))).
  assert (HP : 0 < P) by (apply prodax_pos; intros; apply fact_pos).
  assert (Hx' : 0 < INR (nth j a 0%nat)) by (apply lt_0_INR; exact Hx).
  destruct (Nat.leb_spec (list_sum b) k) as [H|H]; destruct (Nat.leb_spec (list_sum a) (S k)) as [H'|H']; try lia.
  - replace (S k - list_sum a)%nat with (k - list_sum b)%nat by lia. rewrite fact_simpl, mult_INR.
    pose proof (fact_pos (k - list_sum b)). field. lra.
  - ring.
Qed.

Lemma pascal nd k a : length a = nd ->
  multinomial nd (S k) a = multinomial nd k a +
    sum_axes nd (fun j => if (0 <? nth j a 0%nat)%nat then multinomial nd k (upd a j (pred (nth j a 0%nat))) else 0).
Proof.
  intros L. assert (HS : 0 < INR (S k)) by (apply lt_0_INR; lia).
  destruct (le_gt_dec (list_sum a) (S k)) as [Hle|Hgt].
  - apply Rmult_eq_reg_l with (INR (S k)); [|lra]. rewrite Rmult_plus_distr_l, multi_stay, <- sumax_scal.
    rewrite (sumax_ext nd _ (fun j => multinomial nd (S k) a * INR (nth j a 0%nat))).
    2: { intros j Hj. destruct (Nat.ltb_spec 0 (nth j a 0%nat)) as [Hx|Hx].
         - rewrite multi_move by auto. ring.
         - replace (nth j a 0%nat) with 0%nat by lia. simpl INR. ring. }
    rewrite sumax_scal, <- L, <- list_sum_INR. rewrite minus_INR by exact Hle. ring.
  - rewrite sumax_zero.
    + unfold multinomial. destruct (Nat.leb_spec (list_sum a) (S k)); [lia|]. destruct (Nat.leb_spec (list_sum a) k); [lia|]. ring.
    + intros j Hj. destruct (Nat.ltb_spec 0 (nth j a 0%nat)) as [Hx|Hx]; [|reflexivity].
      pose proof (sum_upd_pred a j ltac:(lia) Hx). unfold multinomial. destruct (Nat.leb_spec (list_sum (upd a j (pred (nth j a 0%nat)))) k); [lia|reflexivity].
Qed.

(** How many cells downwind of the corner cell [g] lies along each axis. *)
Definition downwind {D} (ar : arith D) (dims : list Z) (v : list D) (g : list Z) : list nat :=
  map (fun j => Z.to_nat ((- upwind_side ar (axis_velocity ar v j) * nth j g 0) mod nth j dims 0)%Z) (seq 0 (length dims)).

(** The multinomial distribution with the shares as probabilities. *)
Definition distribution (dims : list Z) (v lengths : list R) (dt : R) (k : nat) (a : list nat) : R :=
  multinomial (length dims) k a * prod_axes (length dims) (fun j => share dims v lengths dt j ^ nth j a 0%nat) *
  rest dims v lengths dt ^ (k - list_sum a).

Lemma downwind_nth {D} (ar : arith D) dims v g j : (j < length dims)%nat ->
  nth j (downwind ar dims v g) 0%nat = Z.to_nat ((- upwind_side ar (axis_velocity ar v j) * nth j g 0) mod nth j dims 0)%Z.
Proof.
  intros Hj. unfold downwind. set (F := fun j => Z.to_nat _). rewrite (nth_indep _ 0%nat (F (length dims))) by (rewrite map_length, seq_length; exact Hj).
  rewrite (map_nth F), seq_nth by exact Hj. reflexivity.
Qed.
Lemma downwind_length {D} (ar : arith D) dims v g : length (downwind ar dims v g) = length dims.
Proof. unfold downwind. rewrite map_length, seq_length. reflexivity. Qed.

Lemma large_sum a j : (j < length a)%nat -> (nth j a 0 <= list_sum a)%nat.
Proof.
  revert j; induction a as [|x a IH]; intros j Hj; [simpl in Hj; lia|]. change (list_sum (x :: a)) with (x + list_sum a)%nat.
  destruct j as [|j]; cbn [nth]; [lia|]. specialize (IH j ltac:(simpl in Hj; lia)). lia.
Qed.

Lemma iter_corner dims v lengths dt k g : pos_axes dims -> (forall j, (j < length dims)%nat -> (Z.of_nat k < nth j dims 0)%Z) ->
  in_grid dims g ->
  upwind_iter arR k dims v lengths dt (first_cell arR dims) g = distribution dims v lengths dt k (downwind arR dims v g).
Proof.
  intros Hp. revert g. induction k as [|k IH]; intros g Hk Hg.
  - cbn [upwind_iter]. unfold first_cell, distribution, multinomial. pose proof (proj1 (in_grid_nth dims g) Hg) as [L Hgn].
    set (a := downwind arR dims v g).
    assert (Hz : g = repeat 0%Z (length dims) <-> list_sum a = 0%nat).
    { split.
      - intros ->. assert (E : a = repeat 0%nat (length dims)).
        { apply (nth_ext _ _ 0%nat 0%nat); [unfold a; rewrite downwind_length, repeat_length; reflexivity|].
          intros j Hj. unfold a in *. rewrite downwind_length in Hj. rewrite downwind_nth by exact Hj. rewrite !nth_repeat, Z.mul_0_r.
          rewrite Z.mod_0_l; [reflexivity|]. specialize (Hp j Hj). lia. }
        rewrite E. clear. induction (length dims); [reflexivity|exact IHn].
      - intros Hs. apply (nth_ext' 0%Z); [rewrite repeat_length; exact L|]. intros j Hj. rewrite L in Hj. rewrite nth_repeat.
        pose proof (large_sum a j ltac:(unfold a; rewrite downwind_length; exact Hj)) as Hls. rewrite Hs in Hls.
        unfold a in Hls. rewrite downwind_nth in Hls by exact Hj. specialize (Hp j Hj). specialize (Hgn j Hj).
        set (n := nth j dims 0%Z) in *. set (o := nth j g 0%Z) in *.
        assert (Hm : ((- upwind_side arR (axis_velocity arR v j) * o) mod n = 0)%Z).
        { pose proof (Z.mod_pos_bound (- upwind_side arR (axis_velocity arR v j) * o) n Hp). lia. }
        unfold upwind_side in Hm. destruct (a_lt _ _ _).
        + replace (- (1) * o)%Z with (- o)%Z in Hm by ring. destruct (Z.eq_dec o 0) as [|Hne]; [auto|].
          rewrite <- (Z.mod_add _ 1) in Hm by lia. rewrite Z.mod_small in Hm by lia. lia.
        + replace (- (-1) * o)%Z with o in Hm by ring. rewrite Z.mod_small in Hm by lia. exact Hm. }
    destruct (list_eq_dec Z.eq_dec g (repeat 0%Z (length dims))) as [E|E].
    + apply Hz in E. rewrite E. cbn [Nat.leb Nat.sub fact]. cbn [arR a_ofZ].
      assert (Hall : forall j, (j < length dims)%nat -> nth j a 0%nat = 0%nat).
      { intros j Hj. pose proof (large_sum a j ltac:(unfold a; rewrite downwind_length; exact Hj)). lia. }
      assert (E1 : prod_axes (length dims) (fun j => INR (fact (nth j a 0%nat))) = 1).
      { unfold prod_axes. rewrite (map_ext_in _ (fun _ => 1)).
        - clear. induction (seq 0 (length dims)) as [|j l IH]; cbn [map fold_right]; [reflexivity|rewrite IH; ring].
        - intros j Hj. apply in_seq in Hj. rewrite Hall by lia. reflexivity. }
      assert (E2 : prod_axes (length dims) (fun j => share dims v lengths dt j ^ nth j a 0%nat) = 1).
      { unfold prod_axes. rewrite (map_ext_in _ (fun _ => 1)).
        - clear. induction (seq 0 (length dims)) as [|j l IH]; cbn [map fold_right]; [reflexivity|rewrite IH; ring].
        - intros j Hj. apply in_seq in Hj. rewrite Hall by lia. reflexivity. }
      rewrite E1, E2. simpl INR. simpl pow. field.
    + assert (Hs : list_sum a <> 0%nat) by (intros Q; apply E, Hz; exact Q). destruct (Nat.leb_spec (list_sum a) 0); [lia|].
      cbn [arR a_dec]. simpl. lra.
  - cbn [upwind_iter]. rewrite formula_convex, !sumax_sum. set (nd := length dims) in *.
    change (fun j => Rabs (nth j v 0) * dt / (nth j lengths 0 / IZR (nth j dims 0%Z))) with (share dims v lengths dt).
    change (1 - sum_axes nd (share dims v lengths dt)) with (rest dims v lengths dt).
    assert (Hk' : forall j, (j < nd)%nat -> (Z.of_nat k < nth j dims 0)%Z) by (intros j Hj; specialize (Hk j Hj); lia).
    rewrite IH by auto. set (a := downwind arR dims v g) in *. assert (La : length a = nd) by apply downwind_length.
    pose proof (proj1 (in_grid_nth dims g) Hg) as [L Hgn].
    (* the contribution of each neighbour *)
    assert (Hnb : forall j, (j < nd)%nat ->
      share dims v lengths dt j * upwind_iter arR k dims v lengths dt (first_cell arR dims)
        (neighbour dims g j (upwind_side arR (axis_velocity arR v j))) =
      (if (0 <? nth j a 0%nat)%nat then multinomial nd k (upd a j (pred (nth j a 0%nat))) else 0) *
      (prod_axes nd (fun i => share dims v lengths dt i ^ nth i a 0%nat) * rest dims v lengths dt ^ (S k - list_sum a))).
    { intros j Hj. rewrite IH by (auto; apply neighbour_in; auto). set (s := upwind_side arR (axis_velocity arR v j)).
      set (b := downwind arR dims v (neighbour dims g j s)). assert (Lb : length b = nd) by apply downwind_length.
      specialize (Hp j Hj) as Hnj. specialize (Hgn j Hj) as Hoj. specialize (Hk j Hj) as Hkj.
      set (n := nth j dims 0%Z) in *. set (o := nth j g 0%Z) in *.
      assert (Hs2 : (s * s = 1)%Z) by (unfold s, upwind_side; destruct (a_lt _ _ _); reflexivity).
      assert (Haj : Z.of_nat (nth j a 0%nat) = ((- s * o) mod n)%Z).
      { unfold a. rewrite downwind_nth by exact Hj. fold s n o. apply Z2Nat.id. apply Z.mod_pos_bound. exact Hnj. }
      assert (Hbj : Z.of_nat (nth j b 0%nat) = ((Z.of_nat (nth j a 0%nat) - 1) mod n)%Z).
      { unfold b. rewrite downwind_nth by exact Hj. fold s n. rewrite Z2Nat.id by (apply Z.mod_pos_bound; exact Hnj).
        unfold neighbour. rewrite wrap_unit by auto. rewrite upd_nth by (rewrite L; exact Hj). rewrite Nat.eqb_refl. fold o n.
        rewrite Zmult_mod_idemp_r. rewrite Haj, Zminus_mod_idemp_l. f_equal. nia. }
      assert (Hbi : forall i, (i < nd)%nat -> i <> j -> nth i b 0%nat = nth i a 0%nat).
      { intros i Hi Hne. unfold a, b. rewrite !downwind_nth by exact Hi. unfold neighbour. rewrite wrap_unit by auto.
        rewrite upd_nth by (rewrite L; exact Hj). apply Nat.eqb_neq in Hne. rewrite Hne. reflexivity. }
      unfold distribution. fold nd. destruct (Nat.ltb_spec 0 (nth j a 0%nat)) as [Hx|Hx].
      - assert (Haj' : (Z.of_nat (nth j a 0%nat) < n)%Z) by (rewrite Haj; apply Z.mod_pos_bound; exact Hnj).
        rewrite Z.mod_small in Hbj by lia.
        assert (Eb : b = upd a j (pred (nth j a 0%nat))).
        { apply (nth_ext _ _ 0%nat 0%nat); [rewrite upd_length; congruence|]. intros i Hi. rewrite Lb in Hi. rewrite upd_nth by (rewrite La; exact Hj).
          destruct (Nat.eqb_spec i j) as [->|Hne]; [lia|apply Hbi; auto]. }
        rewrite Eb at 1. pose proof (sum_upd_pred a j ltac:(lia) Hx) as Es. rewrite <- Eb in Es.
        replace (S k - list_sum a)%nat with (k - list_sum b)%nat by lia.
        rewrite (prodax_change nd (fun i => share dims v lengths dt i ^ nth i a 0%nat) (fun i => share dims v lengths dt i ^ nth i b 0%nat) j
          (share dims v lengths dt j) Hj).
        + ring.
        + intros i Hi Hne. rewrite Hbi by auto. reflexivity.
        + replace (nth j a 0%nat) with (S (nth j b 0%nat)) by lia. reflexivity.
      - assert (Hz : nth j a 0%nat = 0%nat) by lia. rewrite Hz in Hbj. change (Z.of_nat 0 - 1)%Z with (-1)%Z in Hbj.
        rewrite <- (Z.mod_add _ 1) in Hbj by lia. rewrite Z.mod_small in Hbj by lia.
        pose proof (large_sum b j ltac:(lia)). unfold multinomial. destruct (Nat.leb_spec (list_sum b) k); [lia|]. ring. }
    match goal with |- context [sum_axes nd ?F] => rewrite (sumax_ext nd F _ Hnb) end.
    set (Q := prod_axes nd (fun i => share dims v lengths dt i ^ nth i a 0%nat)) in *. set (q := rest dims v lengths dt) in *.
    rewrite (sumax_ext nd _ (fun j => (Q * q ^ (S k - list_sum a)) * (if (0 <? nth j a 0%nat)%nat then multinomial nd k (upd a j (pred (nth j a 0%nat))) else 0)))
      by (intros; ring).
    rewrite sumax_scal. unfold distribution. fold nd Q q. rewrite (pascal nd k a La).
    destruct (le_gt_dec (list_sum a) k) as [Hle|Hgt].
    + replace (S k - list_sum a)%nat with (S (k - list_sum a)) by lia. cbn [pow]. ring.
    + assert (E0 : multinomial nd k a = 0) by (unfold multinomial; destruct (Nat.leb_spec (list_sum a) k); [lia|reflexivity]).
      rewrite E0. ring.
Qed.

(** The constructor's field after fewer steps than there are cells along every axis. *)
Theorem C84_corner dims v lengths u dt n :
  up_args dims v lengths -> short_axes dims -> up_new arR (vlen dims) v lengths dims = Ok u ->
  (forall j, (j < length dims)%nat -> (Z.max 0 n < nth j dims 0)%Z) ->
  exists u', up_advect arR (vlen dims) u n dt = Ok u' /\
    holds u' dims (fun g => distribution dims v lengths dt (Z.to_nat n) (downwind arR dims v g)).
Proof.
  intros Ha Hsh Eu Hn. destruct (C42_constructor arR dims v lengths Ha) as (u1 & Eu1 & Hu & HG). rewrite Eu in Eu1. injection Eu1 as <-.
  destruct (C42_advect arR _ _ _ _ _ dt n Ha Hsh Hu HG) as (u' & E & _ & Hh'). exists u'. split; [exact E|].
  unfold holds in *. rewrite Hh'. apply map_ext_in. intros g Hg. apply in_cells in Hg.
  apply iter_corner; [exact (proj1 (proj2 (proj2 (proj1 Ha))))| |exact Hg]. intros j Hj. specialize (Hn j Hj). lia.
Qed.
Print Assumptions C84_corner.

(** The program upwind with fewer steps than cells along an axis: cell (i, j, k) holds
    steps! / (i! j! k! (steps - i - j - k)!) (1/10)^(i + j + k) (7/10)^(steps - i - j - k), and zero if i + j + k exceeds steps. *)
Theorem C84_driver n steps doVtk doStd : (1 <= n)%Z -> (n * n * n < 2 ^ 31)%Z -> (0 <= steps < n)%Z ->
  exists r G, up_body arR sqrt n steps doVtk doStd = Ok r /\ up_f (ur_up r) = map G (cells [n; n; n]) /\
    forall i j k : nat, (Z.of_nat i < n)%Z -> (Z.of_nat j < n)%Z -> (Z.of_nat k < n)%Z ->
      G [Z.of_nat i; Z.of_nat j; Z.of_nat k] =
      let m := Z.to_nat steps in
      if (i + j + k <=? m)%nat then
        INR (fact m) / (INR (fact i) * INR (fact j) * INR (fact k) * INR (fact (m - (i + j + k)))) *
        (1 / 10) ^ (i + j + k) * (7 / 10) ^ (m - (i + j + k))
      else 0.
Proof.
  intros H1 H2 Hs. destruct (C42_driver arR sqrt n steps doVtk doStd ltac:(lia) H2) as (r & dt & E & Edt & Ef & _). cbv zeta in *.
  rewrite dec10R in *. set (o3 := [1; 1; 1]) in *. set (dims := [n; n; n]) in *. eexists r, _. split; [exact E|]. split; [exact Ef|].
  intros i j k Hi Hj Hk. assert (Hdt : dt = 1 / 10 / IZR n) by (pose proof (up_dt_driver n ltac:(lia) ltac:(nia)) as Q; unfold o3, dims in Edt; congruence).
  assert (HnR : 1 <= IZR n) by (apply IZR_le; lia).
  assert (Hp : pos_axes dims) by (intros [|[|[|q]]] Hq; simpl in *; lia).
  rewrite iter_corner; [|exact Hp|intros [|[|[|q]]] Hq; simpl in *; lia|].
  2: { apply in_grid_nth; split; [reflexivity|]; intros [|[|[|q]]] Hq; simpl in *; lia. }
  assert (Ea : downwind arR dims o3 [Z.of_nat i; Z.of_nat j; Z.of_nat k] = [i; j; k]).
  { assert (Es : forall q, (q < 3)%nat -> upwind_side arR (axis_velocity arR o3 q) = (-1)%Z).
    { intros q Hq. assert (EE : axis_velocity arR o3 q = 1) by (destruct q as [|[|[|q]]]; try reflexivity; lia). rewrite EE.
      unfold upwind_side. cbn [arR a_lt a_dec]. replace (0 / powerRZ 10 1) with 0 by (simpl; lra). destruct (Rlt_dec 1 0); [lra|reflexivity]. }
    unfold downwind. cbn [length seq map dims nth]. rewrite !Es by lia. replace (- (-1))%Z with 1%Z by reflexivity. rewrite !Z.mul_1_l.
    rewrite !Z.mod_small by lia. rewrite !Nat2Z.id. reflexivity. }
  rewrite Ea. set (m := Z.to_nat steps).
  assert (Esh : forall q, (q < 3)%nat -> share dims o3 o3 dt q = 1 / 10).
  { intros q Hq. unfold share. assert (Eo : nth q o3 0 = 1) by (destruct q as [|[|[|q]]]; try reflexivity; lia).
    assert (En : nth q dims 0%Z = n) by (destruct q as [|[|[|q]]]; try reflexivity; lia). rewrite Eo, En, Rabs_R1, Hdt. field. lra. }
  assert (Er : rest dims o3 o3 dt = 7 / 10).
  { unfold rest, sum_axes. cbn [dims length seq map fold_right]. rewrite !Esh by lia. lra. }
  unfold distribution. rewrite Er. unfold multinomial, prod_axes. cbn [dims length seq map fold_right nth]. rewrite !Esh by lia.
  unfold list_sum. cbn [fold_right]. replace (i + (j + (k + 0)))%nat with (i + j + k)%nat by lia.
  cbv zeta. destruct (Nat.leb_spec (i + j + k) m) as [Hle|Hgt]; [|ring].
  rewrite !Rmult_1_r. rewrite !pow_add. replace (INR (fact i) * (INR (fact j) * INR (fact k))) with (INR (fact i) * INR (fact j) * INR (fact k)) by ring.
  ring.
Qed.
Print Assumptions C84_driver.

(** ** Examples *)
Example C84_hypotheses : up_args [4; 6]%Z [1; -2] [1; 3] /\ short_axes [4; 6]%Z /\
  (forall j, (j < 2)%nat -> (Z.max 0 3 < nth j [4; 6] 0)%Z).
Proof.
  split; [|split].
  - repeat split; try discriminate; try reflexivity. intros [|[|j]] Hj; simpl in *; lia.
  - intros [|[|j]] Hj; simpl in *; lia.
  - intros [|[|j]] Hj; simpl in *; lia.
Qed.
(** Two steps, one axis: stay-stay, stay-move, move-stay, move-move. *)
Example C84_words : words 1 2 = [[0; 0]; [0; 1]; [1; 0]; [1; 1]]%nat.
Proof. reflexivity. Qed.
Example C84_number : multinomial 2 4 [1; 2]%nat = 12.
Proof. unfold multinomial, prod_axes. simpl. field. Qed.
