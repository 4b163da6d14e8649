(** * C50: exactly which grids advect updates completely

    The bound of the two loops over the cells is (int) ntot.  The cells from that number on are never written, whatever
    the arithmetic; so one step is the upwind scheme on the whole grid exactly if the grid has fewer than 2^31 cells. *)
From Coq Require Import List Reals Lra Lia RealField Permutation.
From Verif Require Import Cpp CppProof MaiModel MaiSpec Radix MaiProof CdModel CdSpec FilterModel FilterSpec FilterProof
  FilterSum RealArith LapSpec LapProof UpModel UpSpec UpProof UpExact UpProps UpMpiProps ConvSpec ConvProof WalkSpec WalkProps WalkSumProps StabProps ParProof.
From Coq Require Import List ZArith.
Import ListNotations.
Local Open Scope Z_scope.
Local Arguments prodZ : simpl never.
Local Arguments Z.of_nat : simpl never.

(** ** The cells written *)
Section Frame.
  Context {D : Type} (ar : arith D).

  Lemma axis_frame u dt old i j st st' : up_axis ar u dt old i j st = Ok st' ->
    vlen (snd st') = vlen (snd st) /\ forall k, k <> i -> vget (snd st') k = vget (snd st) k.
  Proof.
    destruct st as [inds f]. unfold up_axis. intros E.
    repeat (apply bind_ok in E as (? & ? & E)).
    injection E as <-. cbn [snd].
    match goal with H : vset f i _ = Ok _ |- _ => apply vset_inv in H as (Hi & ->) end.
    split; [unfold vlen; rewrite upd_length; reflexivity|]. intros k Hk. rewrite vget_upd by exact Hi. destruct (Z.eqb_spec k i); [contradiction|reflexivity].
  Qed.

  Lemma for_keep {St} (P : St -> St -> Prop) (body : Z -> St -> res St) : (forall s, P s s) -> (forall a b c, P a b -> P b c -> P a c) ->
    forall n k s s', (forall i s s', (k <= i < k + n)%nat -> body (Z.of_nat i) s = Ok s' -> P s s') -> for_from k n body s = Ok s' -> P s s'.
  Proof.
    intros Hr Ht. induction n as [|n IH]; intros k s s' Hb E; cbn [for_from] in E; [injection E as <-; apply Hr|].
    apply bind_ok in E as (s1 & E1 & E2). apply (Ht _ s1); [apply (Hb k); [lia|exact E1]|]. apply (IH (S k)); [|exact E2]. intros i a b Hi. apply Hb. lia.
  Qed.

  Definition same_from (b : Z) (f f' : list D) : Prop := vlen f' = vlen f /\ forall k, b <= k -> vget f' k = vget f k.

  Lemma cell_frame N u dt old i f f' b : i < b -> up_cell ar N u dt old i f = Ok f' -> same_from b f f'.
  Proof.
    intros Hi E. unfold up_cell in E. apply bind_ok in E as (inds & _ & E). apply bind_ok in E as ((inds' & g) & E & E'). injection E' as <-.
    apply (for_keep (fun s s' => same_from b (snd s) (snd s')) (up_axis ar u dt old i)) in E; [exact E|..].
    - intros s. split; reflexivity.
    - intros x y z (H1 & H2) (H3 & H4). split; [congruence|]. intros k Hk. rewrite H4, H2 by exact Hk. reflexivity.
    - intros j s s' _ E2. apply axis_frame in E2 as (H1 & H2). split; [exact H1|]. intros k Hk. apply H2. lia.
  Qed.

  Lemma step_frame N u dt u' : up_step ar N u dt = Ok u' ->
    up_ntot u' = up_ntot u /\ same_from (Z.max 0 (i32 (up_ntot u))) (up_f u) (up_f u').
  Proof.
    intros E. unfold up_step in E. apply bind_ok in E as (old & _ & E). apply bind_ok in E as (f & E & E'). injection E' as <-.
    split; [reflexivity|]. cbn [up_setFields up_f].
    apply (for_keep (same_from (Z.max 0 (i32 (up_ntot u)))) (fun i f => up_cell ar N u dt old i f)) in E; [exact E|..].
    - intros s. split; reflexivity.
    - intros x y z (H1 & H2) (H3 & H4). split; [congruence|]. intros k Hk. rewrite H4, H2 by exact Hk. reflexivity.
    - intros i s s' Hi E2. eapply cell_frame; [|exact E2]. lia.
  Qed.
End Frame.

(** The cells from (int) ntot on keep their values, for any object, any number of steps, any arithmetic. *)
Theorem C50_untouched {D} (ar : arith D) N u u' n dt :
  up_advect ar N u n dt = Ok u' -> forall i, Z.max 0 (i32 (up_ntot u)) <= i -> vget (up_f u') i = vget (up_f u) i.
Proof.
  intros E. unfold up_advect, for_upto in E.
  apply (for_keep (fun u u' => up_ntot u' = up_ntot u /\ same_from (Z.max 0 (i32 (up_ntot u))) (up_f u) (up_f u')) (fun _ u => up_step ar N u dt)) in E.
  - apply E.
  - intros s. repeat split; reflexivity.
  - intros x y z (H1 & H2 & H3) (H4 & H5 & H6). rewrite H1 in *. repeat split; try congruence. intros k Hk. rewrite H6, H3 by exact Hk. reflexivity.
  - intros i s s' _ E2. apply step_frame in E2. exact E2.
Qed.
Print Assumptions C50_untouched.

(** Too large a grid: the last cell is never updated. *)
Lemma i32_max n : 2 ^ 31 <= n -> Z.max 0 (i32 n) <= n - 1.
Proof. intros H. unfold i32, two31, two32. change (2 ^ 31) with 2147483648 in *. pose proof (Z.mod_pos_bound (n + 2147483648) 4294967296 ltac:(lia)). lia. Qed.

Section Last.
  Variables (dims : list Z) (v lengths : list R) (dt : R).
  Hypothesis Hb : big_grid dims.
  Hypothesis Hnz : forall j, (j < length dims)%nat -> (nth j v 0 <> 0)%R /\ (0 < nth j lengths 0)%R.
  Hypothesis Hdt : (0 < dt)%R.

  Lemma wide_axis l : 1 < prodZ l -> exists j, (j < length l)%nat /\ nth j l 0 <> 1.
  Proof using Type.
    clear. induction l as [|d l IH]; intros H; [unfold prodZ in H; cbn in H; lia|]. rewrite prodZ_cons in H.
    destruct (Z.eq_dec d 1) as [->|Hd]; [|exists O; split; [simpl; lia|exact Hd]].
    destruct IH as (j & Hj & Hn); [lia|]. exists (S j). split; [simpl; lia|exact Hn].
  Qed.

  Lemma live_positive : 1 < prodZ dims -> (0 < live_sum dims v lengths dt)%R.
  Proof using Hb Hnz Hdt.
    intros H1. destruct Hb as (_ & _ & Hp & _).
    assert (Hw : forall j, (j < length dims)%nat -> (0 < share dims v lengths dt j)%R).
    { intros j Hj. unfold share. destruct (Hnz j Hj) as (A & B). specialize (Hp j Hj).
      apply Rdiv_lt_0_compat; [apply Rmult_lt_0_compat; [apply Rabs_pos_lt; exact A|exact Hdt]|].
      apply Rdiv_lt_0_compat; [exact B|apply IZR_lt; lia]. }
    destruct (wide_axis dims H1) as (j & Hj & Hne).
    assert (Hle : forall i, (i < length dims)%nat -> ((if Nat.eqb i j then share dims v lengths dt j else 0) <= live_share dims v lengths dt i)%R).
    { intros i Hi. unfold live_share. specialize (Hw i Hi). specialize (Hp i Hi). destruct (Nat.eqb_spec i j) as [Ei|]; [rewrite Ei in *; destruct (Z.leb_spec 2 (nth j dims 0)); [lra|lia]|]. destruct (Z.leb_spec 2 (nth i dims 0)); lra. }
    apply sumax_le in Hle. rewrite (sumax_one _ _ j Hj) in Hle; [|intros i Hi Hn; destruct (Nat.eqb_spec i j); [contradiction|reflexivity]].
    rewrite Nat.eqb_refl in Hle. specialize (Hw j Hj). unfold live_sum. change (sum_axes (length dims) (fun j => live_share dims v lengths dt j)) with (sum_axes (length dims) (live_share dims v lengths dt)) in Hle. lra.
  Qed.

  (** One in the cell [g], zero elsewhere: what the scheme leaves in [g]. *)
  Lemma spike g : in_grid dims g ->
    upwind_formula arR dims v lengths dt (fun h => if list_eq_dec Z.eq_dec h g then 1%R else 0%R) g = (1 - live_sum dims v lengths dt)%R.
  Proof using Hb.
    destruct Hb as (_ & _ & Hp & _). intros Hg. rewrite formula_live by (auto; exact Hp). destruct (list_eq_dec Z.eq_dec g g); [|congruence].
    rewrite sumax_zero; [ring|]. intros j Hj. unfold live_share. destruct (Z.leb_spec 2 (nth j dims 0%Z)) as [H2|]; [|ring].
    destruct (list_eq_dec Z.eq_dec _ _) as [E|]; [|ring]. exfalso.
    unfold neighbour in E. rewrite wrap_unit in E by auto. apply in_grid_nth in Hg as (L & Hg). specialize (Hg j Hj).
    apply (f_equal (fun l => nth j l 0%Z)) in E. rewrite upd_nth in E by (rewrite L; exact Hj). rewrite Nat.eqb_refl in E.
    set (x := nth j g 0) in *. set (n := nth j dims 0) in *. unfold upwind_side in E. destruct (a_lt _ _ _).
    - destruct (Z.eq_dec (x + 1) n) as [En|En]; [rewrite En, Z_mod_same_full in E; lia|rewrite Z.mod_small in E by lia; lia].
    - destruct (Z.eq_dec x 0) as [En|En]; [|rewrite Z.mod_small in E by lia; lia].
      rewrite <- (Z.mod_add _ 1), Z.mod_small in E by lia. lia.
  Qed.
End Last.

Lemma vget_cells {D} (G : list Z -> D) dims i : big_grid dims -> 0 <= i < prodZ dims -> vget (map G (cells dims)) i = Ok (G (digs true dims i)).
Proof.
  intros Hb Hi. unfold vget, vlen. rewrite map_length, (cells_length dims Hb), Z2Nat.id by lia.
  destruct (Z.leb_spec 0 i); [|lia]. destruct (Z.ltb_spec i (prodZ dims)); [|lia]. cbn [andb].
  rewrite (map_nth_error G (Z.to_nat i) (cells dims) (d := digs true dims i)); [reflexivity|]. rewrite (cell_at dims _ Hb) by lia. rewrite Z2Nat.id by lia. reflexivity.
Qed.

(** The exact condition, over the reals: one step is the upwind scheme for every field if and only if the grid has fewer than 2^31 cells. *)
Theorem C50_exactly dims (v lengths : list R) dt :
  big_grid dims -> length v = length dims -> length lengths = length dims -> short_axes dims ->
  (forall j, (j < length dims)%nat -> (nth j v 0 <> 0)%R /\ (0 < nth j lengths 0)%R) -> (0 < dt)%R ->
  ((forall u G, up_object arR dims v lengths u -> holds u dims G ->
      exists u', up_step arR (vlen dims) u dt = Ok u' /\ holds u' dims (upwind_formula arR dims v lengths dt G))
   <-> prodZ dims < 2 ^ 31).
Proof.
  intros Hb Hv Hl Hsh Hnz Hdt. split.
  - intros H. destruct (Z.lt_ge_cases (prodZ dims) (2 ^ 31)) as [|Hbig]; [assumption|exfalso].
    set (g := digs true dims (prodZ dims - 1)). set (G := fun h => if list_eq_dec Z.eq_dec h g then 1%R else 0%R).
    pose proof (up_new_eq arR dims v lengths Hb Hv Hl) as En.
    assert (L : vlen (map G (cells dims)) = prodZ dims) by (unfold vlen; rewrite map_length, (cells_length dims Hb); lia).
    match type of En with _ = Ok ?w => set (u0 := w) in * end.
    destruct (H (up_setFields u0 (map G (cells dims)) (map G (cells dims))) G) as (u' & E & Hh).
    { exists u0, (map G (cells dims)), (map G (cells dims)). auto. }
    { reflexivity. }
    apply step_frame in E as (_ & _ & E). unfold holds in Hh. rewrite Hh in E. cbn [up_setFields up_ntot up_f] in E.
    change (up_ntot u0) with (prodZ dims) in E. specialize (E (prodZ dims - 1) (i32_max _ Hbig)).
    rewrite !vget_cells in E by (auto; lia). injection E as E. change (digits dims (prodZ dims - 1)) with g in E.
    assert (Hg : in_grid dims g) by (apply digs_in_grid, big_allpos, Hb).
    pose proof (spike dims v lengths dt Hb g Hg) as Sp. fold G in Sp. rewrite Sp in E. unfold G in E. destruct (list_eq_dec Z.eq_dec g g); [|congruence].
    pose proof (live_positive dims v lengths dt Hb Hnz Hdt ltac:(lia)). lra.
  - intros Hs u G Hu Hh. destruct Hb as (H1 & H2 & H3 & H4).
    destruct (C42_one_step arR dims v lengths u G dt) as (u' & E & _ & Hh'); eauto. repeat split; auto.
Qed.
Print Assumptions C50_exactly.

(** The program itself, 1291 cells and more along each axis: in any arithmetic the last cell still holds its initial
    zero at the end, however many steps were asked for. *)
Theorem C50_driver_last_cell {D} (ar : arith D) dsqrt n steps doVtk doStd r :
  1291 <= n < 2 ^ 20 -> up_body ar dsqrt n steps doVtk doStd = Ok r ->
  vlen (up_f (ur_up r)) = n * n * n /\ vget (up_f (ur_up r)) (n * n * n - 1) = Ok (a_dec ar 0 1).
Proof.
  intros Hn E. unfold up_body in E. rewrite u64_id in E by (unfold two64; lia). apply bind_ok in E as (dt & _ & E).
  apply bind_ok in E as (u & En & E). apply bind_ok in E as (vtk0 & _ & E). apply bind_ok in E as (u' & Ea & E).
  apply bind_ok in E as (sd & _ & E). apply bind_ok in E as (vtk1 & _ & E). injection E as <-. cbn [ur_up].
  assert (Hb : big_grid (repeat n 3)).
  { split; [discriminate|]. split; [cbn; lia|]. split; [intros j Hj; cbn in Hj; destruct j as [|[|[|j]]]; cbn; lia|].
    cbn [repeat]. rewrite !prodZ_cons. change (prodZ []) with 1. nia. }
  pose proof (up_new_eq ar (repeat n 3) (repeat (a_dec ar 10 1) 3) (repeat (a_dec ar 10 1) 3) Hb eq_refl eq_refl) as En'.
  assert (Ep : prodZ (repeat n 3) = n * n * n) by (cbn [repeat]; rewrite !prodZ_cons; change (prodZ []) with 1; ring).
  assert (Hu : up_ntot u = n * n * n).
  { assert (Ex := eq_trans (eq_sym En) En'). injection Ex as ->. exact Ep. }
  clear En' Hb Ep. unfold up_new in En. apply bind_ok in En as (((ud & de) & nt) & _ & En). apply bind_ok in En as (dp & _ & En).
  destruct (2 ^ 60 <=? nt); [discriminate|]. apply bind_ok in En as (f & Ef & En). injection En as <-. cbn [up_ntot] in Hu. subst nt.
  apply vset_inv in Ef as (H0 & ->). change (Z.to_nat 0) with O in *.
  assert (Hbig : 2 ^ 31 <= n * n * n) by nia.
  assert (Hlen : vlen (up_f u') = n * n * n).
  { unfold up_advect, for_upto in Ea. apply (for_keep (fun u u' => up_ntot u' = up_ntot u /\ vlen (up_f u') = vlen (up_f u)) (fun _ u => up_step ar 3 u dt)) in Ea.
    - destruct Ea as (_ & ->). cbn [up_f]. unfold vlen. rewrite upd_length, repeat_length. lia.
    - intros s. split; reflexivity.
    - intros x y z (A1 & A2) (A3 & A4). split; congruence.
    - intros i s s' _ E2. apply step_frame in E2 as (A1 & A2 & _). split; assumption. }
  split; [exact Hlen|]. rewrite (C50_untouched ar 3 _ _ _ _ Ea) by (cbn [up_ntot]; apply i32_max; exact Hbig). cbn [up_f].
  change O with (Z.to_nat 0). rewrite vget_upd by exact H0. destruct (Z.eqb_spec (n * n * n - 1) 0); [lia|].
  unfold vget, vlen. rewrite repeat_length. destruct (Z.leb_spec 0 (n * n * n - 1)); [|lia]. destruct (Z.ltb_spec (n * n * n - 1) (Z.of_nat (Z.to_nat (n * n * n)))); [|lia]. cbn [andb].
  rewrite nth_error_repeat by lia. reflexivity.
Qed.
Print Assumptions C50_driver_last_cell.

(** ** Examples *)

(** The hypotheses of C50_exactly: 2048 cells along three axes is too much, 1290 is not. *)
Example C50_limit_example :
  (forall n, n = 1290 \/ n = 2048 -> big_grid [n; n; n] /\ short_axes [n; n; n]) /\
  prodZ [1290; 1290; 1290] < 2 ^ 31 /\ ~ prodZ [1291; 1291; 1291] < 2 ^ 31 /\
  (forall j, (j < 3)%nat -> (nth j [1; -1; 2] 0 <> 0)%R /\ (0 < nth j [1; 1; 3] 0)%R).
Proof.
  split; [|split; [reflexivity|split; [vm_compute; discriminate|]]].
  - intros n [->| ->]; (split; [split; [discriminate|]; split; [reflexivity|]; split; [|reflexivity]; intros [|[|[|j]]] Hj; cbn in *; lia|]; intros [|[|[|j]]] Hj; cbn in *; lia).
  - intros [|[|[|j]]] Hj; cbn [nth]; [split; lra..|lia].
Qed.

(** A grid of 2048^3 cells: the constructor succeeds, a step too, and changes nothing. *)
Example C50_untouched_example :
  exists u, up_new arR 3 [1%R; 1%R; 1%R] [1%R; 1%R; 1%R] [2048; 2048; 2048] = Ok u /\ i32 (up_ntot u) = 0 /\ up_advect arR 3 u 5 1%R = Ok u.
Proof.
  assert (Hb : big_grid [2048; 2048; 2048]) by (split; [discriminate|]; split; [reflexivity|]; split; [|reflexivity]; intros [|[|[|j]]] Hj; cbn in *; lia).
  eexists. split; [exact (up_new_eq arR [2048; 2048; 2048] [1%R; 1%R; 1%R] [1%R; 1%R; 1%R] Hb eq_refl eq_refl)|]. split; [reflexivity|].
  apply C50_truncated_loop. change (up_ntot _) with (prodZ [2048; 2048; 2048]). vm_compute. discriminate.
Qed.
