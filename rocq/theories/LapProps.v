(** * Properties C39, C40, C56 and the drivers laplacian and testStencil2d *)
From Coq Require Import Sorted Permutation Ring_theory Ring Reals Lra.
From Verif Require Import Cpp CppProof OMap MaiModel MaiSpec Radix MaiProof CdModel CdSpec CdProof CdProps CmdModel
  FilterModel FilterSpec FilterProof FilterRank FilterWorld FilterSum FilterProg FilterProps RealArith LapModel LapSpec LapProof.
From Coq Require Import List.
Local Open Scope Z_scope.
Local Arguments prodZ : simpl never.
Local Arguments Z.of_nat : simpl never.

(** ** Square grids *)

Lemma square_nd m nd : grid_ok (repeat m nd) -> (0 < nd <= 32)%nat /\ 0 < m < 2 ^ 31.
Proof.
  intros Hg. pose proof Hg as (H0 & H1 & H2 & H3). rewrite repeat_length in *.
  assert (0 < nd)%nat by (destruct nd; [contradiction H0; reflexivity|lia]).
  split; [lia|]. pose proof (grid_dim_range (repeat m nd) 0 Hg ltac:(rewrite repeat_length; lia)).
  specialize (H2 0%nat ltac:(lia)). destruct nd; [lia|]. cbn [repeat nth] in *. unfold two31 in *. lia.
Qed.

Lemma square_nth m nd j : (j < nd)%nat -> nth j (repeat m nd) 0 = m.
Proof. intros Hj. rewrite (nth_indep _ 0 m) by (rewrite repeat_length; auto). apply nth_repeat. Qed.

(** The field set by laplacian.cxx. *)
Definition lap_init {D} (ar : arith D) (dsin : D -> D) (m_pi : D) (m : Z) (nd : nat) (g : list Z) : D :=
  lap_func ar dsin m_pi (centre ar (repeat m nd) (repeat (a_dec ar 0 1) nd) (repeat (a_dec ar 10 1) nd) g).

Lemma run_rounds {D} (ar : arith D) k : forall w,
  for_upto (Z.of_nat k) (fun _ w => w <- world_apply ar w ;; world_copyOutToIn w) w = run ar (rounds k) w.
Proof.
  unfold for_upto. rewrite Nat2Z.id. generalize 0%nat. unfold run. induction k as [|k IH]; intros z w; [reflexivity|].
  cbn [for_from rounds for_each run_op]. destruct (world_apply ar w) as [w1|u]; cbn [bind]; [|reflexivity].
  destruct (world_copyOutToIn w1) as [w2|u]; cbn [bind]; [|reflexivity]. apply IH.
Qed.

Lemma final_rounds {D} (ar : arith D) dims st xmins xmaxs k : forall G F, final ar dims st xmins xmaxs (rounds k) (G, F) =
     (stencil_iter ar k dims st G, match k with O => F | _ => stencil_iter ar k dims st G end).
Proof.
  induction k as [|k IH]; intros G F; [reflexivity|]. unfold final in *. cbn [rounds fold_left meaning].
  rewrite IH. rewrite stencil_iter_comm. cbn [stencil_iter]. destruct k; reflexivity.
Qed.

Lemma lap_setting {D} (ar : arith D) sz m nd : grid_ok (repeat m nd) -> 1 <= sz <= 2 ^ 30 -> decomposable sz (repeat m nd) ->
  setting sz (repeat m nd) (repeat (a_dec ar 0 1) nd) (repeat (a_dec ar 10 1) nd) (insert_all (lap_entries ar nd) []).
Proof.
  intros Hg Hn Hd. split; auto. split; auto. split; auto. rewrite !repeat_length. split; auto. split; auto.
  pose proof (lap_axis ar (repeat m nd)) as H. rewrite repeat_length in H. exact H.
Qed.

Lemma lap_periodic {D} (ar : arith D) m nd : (m | 2 ^ 64) -> periodic_stencil (repeat m nd) (insert_all (lap_entries ar nd) []).
Proof. intros Hm off w _ j Hj _. rewrite repeat_length in Hj. rewrite square_nth by auto. exact Hm. Qed.

Lemma distributed_ext {D} dims (F F' : list Z -> D) p :
  (forall g, in_grid dims g -> F g = F' g) -> distributed dims F p -> distributed dims F' p.
Proof.
  intros HF (Ht & Hdata). split; [exact Ht|]. intros lo hi data Hi. rewrite (Hdata lo hi data Hi). apply map_ext_in.
  intros g Hgr. apply HF. destruct Ht as (Ht & _). apply (in_map fst) in Hi. destruct (Ht lo hi Hi) as (L1 & L2 & Hb). apply Hb.
  apply (in_nested_loops false); [congruence|exact Hgr].
Qed.

Section MulZero.
  Context {D : Type} (ar : arith D) (HR : exact_arith ar).
  Let HR' : ring_theory (a_zero ar) (a_one ar) (a_add ar) (a_mul ar) (a_sub ar) (a_neg ar) (@eq D) := HR.
  Add Ring Dring3 : HR'.
  Lemma mul_zero x : a_mul ar (a_zero ar) x = a_zero ar.
  Proof using HR HR'. ring. Qed.
  Lemma mul_one x : a_mul ar (a_one ar) x = x.
  Proof using HR HR'. ring. Qed.
End MulZero.

(** ** C39: what the benchmark computes, for any arithmetic *)
Theorem C39_driver_field :
  forall D (ar : arith D) dsin m_pi sz m nd k vtk,
    let dims := repeat m nd in let U := lap_init ar dsin m_pi m nd in
    grid_ok dims -> 1 <= sz <= 2 ^ 30 -> decomposable sz dims -> (m | 2 ^ 64) ->
    exists st r, lap_stencil ar (Z.of_nat nd) = Ok st /\
      lap_body ar dsin m_pi sz m (Z.of_nat nd) k vtk = Ok (Some r) /\
      distributed dims (stencil_iter ar k dims st U) (in_pieces (lr_world r)) /\
      distributed dims (match k with O => fun _ => a_zero ar | _ => stencil_iter ar k dims st U end) (out_pieces (lr_world r)) /\
      world_localSums ar (lr_world r) true = Ok (lr_in r) /\ world_localSums ar (lr_world r) false = Ok (lr_out r) /\
      ((0 < k)%nat -> lr_out r = lr_in r) /\
      (length (in_pieces (lr_world r)) = Z.to_nat sz /\
       lr_in r = map (fun p => fold_left (a_add ar) (snd p) (a_zero ar)) (in_pieces (lr_world r)) /\
       lr_out r = map (fun p => fold_left (a_add ar) (snd p) (a_zero ar)) (out_pieces (lr_world r))) /\
      lr_vtk r = (if vtk : bool then
         Some (map (match k with O => fun _ => a_zero ar | _ => stencil_iter ar k dims st U end) (col_major (repeat 0 nd) dims)) else None).
Proof.
  intros D ar dsin m_pi sz m nd k vtk dims U Hg Hn Hd Hm.
  set (st := insert_all (lap_entries ar nd) []). set (x0 := repeat (a_dec ar 0 1) nd). set (x1 := repeat (a_dec ar 10 1) nd).
  pose proof (lap_setting ar sz m nd Hg Hn Hd : setting sz dims x0 x1 st) as Hs.
  pose proof (lap_periodic ar m nd Hm : periodic_stencil dims st) as Hp.
  destruct (start_inv ar dims sz x0 x1 st Hs (SetByPosition (lap_func ar dsin m_pi)) (rounds k) Hp I) as (b & w0 & w & Hb & E0 & E & H).
  destruct Hs as (_ & _ & _ & L0 & L1 & Hst). destruct (axis_good dims b st Hst) as (Hmap & Hoff).
  unfold final in H. cbn [fold_left meaning] in H.
  pose proof (final_rounds ar dims st x0 x1 k U (fun _ => a_zero ar)) as EF. unfold final in EF.
  change (fun g : list Z => lap_func ar dsin m_pi (centre ar dims x0 x1 g)) with U in H. rewrite EF in H. clear EF. cbn [fst snd] in H.
  destruct (square_nd m nd Hg) as (Hnd & Hmr).
  set (F := match k with O => fun _ => a_zero ar | _ => stencil_iter ar k dims st U end).
  assert (EF : match k with O => fun _ => a_zero ar | S _ => stencil_iter ar k dims st U end = F) by reflexivity.
  rewrite EF in H. pose proof (wholds_wfok _ _ _ _ _ _ _ _ _ H) as Hw.
  pose proof (saveVTK_ok ar dims sz b st x0 x1 Hg Hn Hb _ w Hw) as EV.
  exists st, (mkLap w (if vtk then Some (map F (nested_loops false (repeat 0 (length dims)) dims)) else None)
      (map (fun f => fold_left (a_add ar) (f_inData f) (a_zero ar)) w) (map (fun f => fold_left (a_add ar) (f_outData f) (a_zero ar)) w)).
  split; [apply lap_stencil_eq|]. cbn [lr_world lr_in lr_out lr_vtk].
  pose proof (localSums_eq ar dims sz b st x0 x1 Hg Hn Hb F w true Hw) as Ei.
  pose proof (localSums_eq ar dims sz b st x0 x1 Hg Hn Hb F w false Hw) as Eo.
  split.
  - unfold lap_body. rewrite (u64_id (Z.of_nat nd)) by (unfold two64; lia). rewrite (u64_id m) by (unfold two64; lia).
    destruct (two31 <=? Z.of_nat nd) eqn:E1; [unfold two31 in *; lia|]. rewrite lap_stencil_eq. cbn [bind]. rewrite Nat2Z.id.
    fold st x0 x1 dims. rewrite E0. cbn [bind].
    destruct (new_inv ar dims sz x0 x1 st (lap_setting ar sz m nd Hg Hn Hd)) as (b' & w0' & Hb' & _ & E0' & Hw0 & _).
    rewrite E0 in E0'. inversion E0'; subst w0'. destruct Hw0 as (Lw & Hw0).
    destruct w0 as [|f w0]; [cbn [length] in Lw; lia|].
    change (vget (f :: w0) 0) with (Ok f). cbn [bind]. unfold filter_isDecompValid.
    rewrite (fo_valid _ _ _ _ _ _ _ _ _ (proj1 (Hw0 0%nat f eq_refl))). cbn [negb].
    unfold run in E. cbn [for_each run_op] in E. destruct (world_setInData ar (f :: w0) (lap_func ar dsin m_pi)) as [w1|u]; [|discriminate].
    cbn [bind] in E |- *. rewrite run_rounds. unfold run. rewrite E. cbn [bind].
    rewrite EV, Ei, Eo. destruct vtk; reflexivity.
  - split; [apply (in_ok dims sz b st x0 x1 Hg Hn Hb _ F); auto|]. split; [apply (out_ok dims sz b st x0 x1 Hg Hn Hb); auto|].
    split; [exact Ei|]. split; [exact Eo|].
    split; [|split; [unfold in_pieces, out_pieces; rewrite !map_map, map_length; split; [exact (proj1 Hw)|split; reflexivity]|unfold dims; rewrite repeat_length; reflexivity]].
    intros Hk. destruct (in_ok dims sz b st x0 x1 Hg Hn Hb _ F w H) as (_ & Hi). destruct (out_ok dims sz b st x0 x1 Hg Hn Hb F w Hw) as (_ & Ho).
    apply map_ext_in. intros f Hf. f_equal.
    rewrite (Ho (f_lo f) (f_hi f) (f_outData f)) by (apply (in_map (fun f => (f_lo f, f_hi f, f_outData f)) _ _ Hf)).
    rewrite (Hi (f_lo f) (f_hi f) (f_inData f)) by (apply (in_map (fun f => (f_lo f, f_hi f, f_inData f)) _ _ Hf)). unfold F. destruct k; [lia|reflexivity].
Qed.
Print Assumptions C39_driver_field.

(** The stencil assembled by the benchmark is the periodic Laplacian. *)
Theorem C39_stencil_is_laplacian :
  forall D (ar : arith D) m nd,
    grid_ok (repeat m nd) ->
    exists st, lap_stencil ar (Z.of_nat nd) = Ok st /\ axis_stencil (repeat m nd) st /\
      length st = (2 * nd + 1)%nat /\
      (exact_numbers ar -> sum_of ar (map snd st) = a_zero ar /\
        forall G g, in_grid (repeat m nd) g -> stencil_sum ar (repeat m nd) st G g = laplace ar (repeat m nd) G g).
Proof.
  intros D ar m nd Hg. exists (insert_all (lap_entries ar nd) []). split; [apply lap_stencil_eq|].
  pose proof (lap_axis ar (repeat m nd)) as H. rewrite repeat_length in H. split; [exact H|]. split.
  - destruct (lap_perm ar nd) as (P & _). rewrite (Permutation_length P). unfold lap_entries. cbn [length].
    assert (E : forall l, length (flat_map (lap_pair ar nd) l) = (2 * length l)%nat).
    { induction l as [|x l IH]; [reflexivity|]. cbn [flat_map lap_pair app length]. rewrite IH. lia. }
    rewrite E, seq_length. lia.
  - intros HE. split; [apply lap_weights; exact HE|]. intros G g Hgr.
    pose proof (lap_is_laplace ar HE (repeat m nd) G g Hgr) as E. rewrite repeat_length in E. exact E.
Qed.
Print Assumptions C39_stencil_is_laplacian.

(** Constants are mapped to zero. *)
Theorem C39_constants :
  forall D (ar : arith D) m nd st c g,
    exact_numbers ar -> grid_ok (repeat m nd) -> lap_stencil ar (Z.of_nat nd) = Ok st -> in_grid (repeat m nd) g ->
    stencil_sum ar (repeat m nd) st (fun _ => c) g = a_zero ar.
Proof.
  intros D ar m nd st c g HE Hg E Hgr. assert (EQst : st = insert_all (lap_entries ar nd) []) by (rewrite lap_stencil_eq in E; congruence). subst st. clear E.
  pose proof (stencil_const ar (en_ring ar HE) (repeat m nd) (insert_all (lap_entries ar nd) []) c g) as E. rewrite E by auto.
  rewrite (lap_weights ar HE). apply (mul_zero ar (en_ring ar HE)).
Qed.
Print Assumptions C39_constants.

(** Whatever the input field, the output check sum after applyFilter is zero. *)
Theorem C39_zero_check_sum :
  forall D (ar : arith D) sz m nd xmins xmaxs st w,
    exact_numbers ar -> setting sz (repeat m nd) xmins xmaxs st -> (m | 2 ^ 64) -> lap_stencil ar (Z.of_nat nd) = Ok st ->
    used ar sz (repeat m nd) xmins xmaxs st w ->
    exists w' sums, world_apply ar w = Ok w' /\ world_localSums ar w' false = Ok sums /\
      forall r, reduction (a_add ar) sums r -> r = a_zero ar.
Proof.
  intros D ar sz m nd xmins xmaxs st w HE Hs Hm Est Hu. assert (EQst : st = insert_all (lap_entries ar nd) []) by (rewrite lap_stencil_eq in Est; congruence). subst st. clear Est.
  pose proof (lap_periodic ar m nd Hm) as Hp.
  destruct (used_inv ar _ sz xmins xmaxs _ Hs w Hp Hu) as (b & G & F & Hb & H). pose proof Hs as (Hg & Hn & _ & L0 & L1 & Hst).
  destruct (axis_good _ b _ Hst) as (Hmap & Hoff).
  destruct (run_op_ok ar (repeat m nd) sz b _ xmins xmaxs Hg Hn Hb Hoff Hp Apply G F w) as (w' & E & H'); [discriminate|exact H|].
  cbn [meaning fst snd run_op] in E, H'.
  assert (Hu' : used ar sz (repeat m nd) xmins xmaxs (insert_all (lap_entries ar nd) []) w') by (apply (used_step ar (repeat m nd) sz xmins xmaxs _ Apply w); auto).
  destruct (C32_check_sum D ar sz (repeat m nd) xmins xmaxs _ w' (stencil_sum ar (repeat m nd) (insert_all (lap_entries ar nd) []) G)
     false (en_ring ar HE) Hs (or_intror (conj Hp Hu'))) as (so & Eo & _ & Ho).
  { apply (out_ok (repeat m nd) sz b (insert_all (lap_entries ar nd) []) xmins xmaxs Hg Hn Hb). apply (wholds_wfok _ _ _ _ _ _ _ _ _ H'). }
  exists w', so. split; [exact E|]. split; [exact Eo|]. intros r Hr. rewrite (Ho r Hr).
  pose proof (stencil_total ar (en_ring ar HE) (repeat m nd) (insert_all (lap_entries ar nd) []) G) as ET. unfold grid_cells in ET.
  rewrite ET; [|apply Hg|intros off c Hin; destruct (proj2 Hst off c Hin) as ((L & _) & _); exact L].
  rewrite (lap_weights ar HE). apply (mul_zero ar (en_ring ar HE)).
Qed.
Print Assumptions C39_zero_check_sum.

(** The two check sums printed by the benchmark are zero in exact arithmetic. *)
Theorem C39_driver_check_sums :
  forall D (ar : arith D) dsin m_pi sz m nd k vtk,
    exact_numbers ar -> grid_ok (repeat m nd) -> 1 <= sz <= 2 ^ 30 -> decomposable sz (repeat m nd) -> (m | 2 ^ 64) -> (0 < k)%nat ->
    exists r, lap_body ar dsin m_pi sz m (Z.of_nat nd) k vtk = Ok (Some r) /\
      length (lr_in r) = Z.to_nat sz /\ lr_out r = lr_in r /\
      forall x, reduction (a_add ar) (lr_in r) x \/ reduction (a_add ar) (lr_out r) x -> x = a_zero ar.
Proof.
  intros D ar dsin m_pi sz m nd k vtk HE Hg Hn Hd Hm Hk.
  destruct (C39_driver_field D ar dsin m_pi sz m nd k vtk Hg Hn Hd Hm) as (st & r & Est & E & Hin & Hout & Ei & Eo & _ & _ & _).
  exists r. split; [exact E|]. assert (EQst : st = insert_all (lap_entries ar nd) []) by (rewrite lap_stencil_eq in Est; congruence). subst st. clear Est.
  set (st := insert_all (lap_entries ar nd) []) in *. destruct k as [|k]; [lia|].
  set (F := stencil_iter ar (S k) (repeat m nd) st (lap_init ar dsin m_pi m nd)) in *.
  assert (Hst : axis_stencil (repeat m nd) st) by (apply (lap_setting ar sz m nd Hg Hn Hd)).
  assert (Esum : forall pieces, distributed (repeat m nd) F pieces -> forall x,
      sum_of ar (map F (grid_cells (repeat m nd))) = x -> x = a_zero ar).
  { intros _ _ x <-. unfold F. cbn [stencil_iter].
    rewrite (stencil_total ar (en_ring ar HE)); [|apply Hg|intros off c Hi; destruct (proj2 Hst off c Hi) as ((L & _) & _); exact L].
    unfold st. rewrite (lap_weights ar HE). apply (mul_zero ar (en_ring ar HE)). }
  (* the pieces are those of a filter in use *)
  destruct (start_inv ar (repeat m nd) sz _ _ st (lap_setting ar sz m nd Hg Hn Hd) (SetByPosition (lap_func ar dsin m_pi)) (rounds (S k)) (lap_periodic ar m nd Hm) I)
    as (b & w0 & w & Hb & E0 & Er & H).
  assert (Ew : lr_world r = w).
  { revert E. unfold lap_body. destruct (square_nd m nd Hg) as (Hnd & Hmr).
    rewrite (u64_id (Z.of_nat nd)) by (unfold two64; lia). rewrite (u64_id m) by (unfold two64; lia).
    destruct (two31 <=? Z.of_nat nd) eqn:E1; [discriminate|]. rewrite lap_stencil_eq. cbn [bind]. rewrite Nat2Z.id. fold st.
    rewrite E0. cbn [bind]. destruct (vget w0 0) as [f|]; cbn [bind]; [|discriminate]. destruct (negb (filter_isDecompValid f)); [discriminate|].
    unfold run in Er. cbn [for_each run_op] in Er. destruct (world_setInData ar w0 (lap_func ar dsin m_pi)) as [w1|u]; [|discriminate].
    cbn [bind] in Er |- *. rewrite run_rounds. unfold run. cbn [rounds for_each run_op]. cbn [rounds for_each run_op] in Er. rewrite Er. cbn [bind].
    destruct vtk; [destruct (world_saveVTK ar w); cbn [bind]; [|discriminate]|cbn [bind]];
      (destruct (world_localSums ar w true); cbn [bind]; [|discriminate]); (destruct (world_localSums ar w false); cbn [bind]; [|discriminate]);
      intros Er'; inversion Er'; subst r; reflexivity. }
  rewrite Ew in *. set (x0 := repeat (a_dec ar 0 1) nd) in *. set (x1 := repeat (a_dec ar 10 1) nd) in *.
  pose proof (lap_periodic ar m nd Hm : periodic_stencil (repeat m nd) st) as Hp.
  assert (Hu : used ar sz (repeat m nd) x0 x1 st w) by (exists (SetByPosition (lap_func ar dsin m_pi)), (rounds (S k)), w0; split; [exact I|auto]).
  pose proof (lap_setting ar sz m nd Hg Hn Hd) as Hs.
  destruct (C32_check_sum D ar sz (repeat m nd) x0 x1 st w F true (en_ring ar HE) Hs (or_intror (conj Hp Hu)) Hin) as (s1 & E1 & L1 & R1).
  destruct (C32_check_sum D ar sz (repeat m nd) x0 x1 st w F false (en_ring ar HE) Hs (or_intror (conj Hp Hu)) Hout) as (s2 & E2 & L2 & R2).
  rewrite Ei in E1. inversion E1; subst s1. rewrite Eo in E2. inversion E2; subst s2.
  split; [exact L1|]. split.
  - pose proof (wholds_wfok _ _ _ _ _ _ _ _ _ H) as Hw. rewrite (localSums_eq ar (repeat m nd) sz b st x0 x1 Hg Hn Hb _ w true Hw) in Ei.
    rewrite (localSums_eq ar (repeat m nd) sz b st x0 x1 Hg Hn Hb _ w false Hw) in Eo. inversion Ei as [Ei']. inversion Eo as [Eo'].
    apply map_ext_in. intros f Hf. f_equal. apply In_nth_error in Hf as (i & Hi).
    destruct Hin as (_ & Hin). destruct Hout as (_ & Hout). pose proof (nth_error_In _ _ Hi) as Hf.
    rewrite (Hout (f_lo f) (f_hi f) (f_outData f)) by (apply (in_map (fun f => (f_lo f, f_hi f, f_outData f)) _ _ Hf)).
    rewrite (Hin (f_lo f) (f_hi f) (f_inData f)) by (apply (in_map (fun f => (f_lo f, f_hi f, f_inData f)) _ _ Hf)). reflexivity.
  - intros x [Hx|Hx]; [apply (Esum _ Hin); rewrite (R1 x Hx); reflexivity|apply (Esum _ Hout); rewrite (R2 x Hx); reflexivity].
Qed.
Print Assumptions C39_driver_check_sums.

Lemma invalid_world {D} (ar : arith D) sz dims xmins xmaxs st :
  grid_ok dims -> 1 <= sz <= 2 ^ 30 -> ~ decomposable sz dims ->
  exists f w, world_new ar sz dims xmins xmaxs st = Ok (f :: w) /\ filter_isDecompValid f = false /\
    forall i, filter_print f i = Undef UninitRead.
Proof.
  intros Hg Hn Hnd.
  destruct (C05_build_iff_decomposition_exists cd_empty sz dims Hg ltac:(lia)) as (ok & c & E & H). destruct ok; [exfalso; apply Hnd, H; reflexivity|].
  assert (HE : exists F, forall rk, filter_new ar rk sz dims xmins xmaxs st = Ok (F rk) /\ filter_isDecompValid (F rk) = false /\
     forall i, filter_print (F rk) i = Undef UninitRead).
  { unfold filter_new. rewrite E. cbn [bind negb]. eexists. intros rk. split; [reflexivity|]. split; [reflexivity|]. intros; reflexivity. }
  destruct HE as (F & HF). unfold world_new. rewrite (tabulate_ok (fun i => F (Z.of_nat i))) by (intros i Hi; apply HF).
  destruct (Z.to_nat sz) eqn:En; [lia|]. cbn [seq map]. eexists. eexists. split; [reflexivity|]. split; apply HF.
Qed.

(** Without a decomposition the benchmark stops after the message; testStencil2d goes on and is undefined. *)
Theorem C39_driver_invalid :
  forall D (ar : arith D) dsin m_pi sz m nd k vtk,
    grid_ok (repeat m nd) -> 1 <= sz <= 2 ^ 30 -> ~ decomposable sz (repeat m nd) ->
    lap_body ar dsin m_pi sz m (Z.of_nat nd) k vtk = Ok None.
Proof.
  intros D ar dsin m_pi sz m nd k vtk Hg Hn Hd. destruct (square_nd m nd Hg) as (Hnd & Hmr). unfold lap_body.
  rewrite (u64_id (Z.of_nat nd)) by (unfold two64; lia). rewrite (u64_id m) by (unfold two64; lia).
  destruct (two31 <=? Z.of_nat nd) eqn:E1; [unfold two31 in *; lia|]. rewrite lap_stencil_eq. cbn [bind]. rewrite Nat2Z.id.
  destruct (invalid_world ar sz (repeat m nd) (repeat (a_dec ar 0 1) nd) (repeat (a_dec ar 10 1) nd) (insert_all (lap_entries ar nd) []) Hg Hn Hd)
    as (f & w & E & Hv & _). rewrite E. cbn [bind]. change (vget (f :: w) 0) with (Ok f). cbn [bind]. rewrite Hv. reflexivity.
Qed.
Print Assumptions C39_driver_invalid.

Theorem C38_testStencil2d_undefined :
  forall D (ar : arith D) sz m vtk,
    grid_ok [m; m] -> 1 <= sz <= 2 ^ 30 -> ~ decomposable sz [m; m] ->
    st2_body ar sz m vtk = Undef UninitRead.
Proof.
  intros D ar sz m vtk Hg Hn Hd. destruct (square_nd m 2 Hg) as (Hnd & Hmr). unfold st2_body. rewrite (u64_id m) by (unfold two64; lia).
  destruct (invalid_world ar sz [m; m] [a_dec ar 0 1; a_dec ar 0 1] [a_dec ar 10 1; a_dec ar 10 1] (st2_stencil ar) Hg Hn Hd) as (f & w & E & Hv & Hp).
  rewrite E. cbn [bind]. change (vget (f :: w) 0) with (Ok f). cbn [bind]. rewrite Hv. cbn [bind mapM]. rewrite Hp. reflexivity.
Qed.
Print Assumptions C38_testStencil2d_undefined.

(** ** C57: what testStencil2d prints and saves *)

(** Its input: one in the cells of the first row and of the first column. *)
Definition edge_field {D} (ar : arith D) (g : list Z) : D := if existsb (Z.eqb 0) g then a_dec ar 10 1 else a_dec ar 0 1.

Lemma st2_func_eq {D} (ar : arith D) m g : 0 < m < 2 ^ 31 -> in_grid [m; m] g -> st2_func ar g = edge_field ar g.
Proof.
  intros Hm Hgr. apply in_grid_nth in Hgr as [L H]. destruct g as [|x [|y [|z g]]]; try discriminate L.
  pose proof (H 0%nat ltac:(simpl; lia)) as Hx. pose proof (H 1%nat ltac:(simpl; lia)) as Hy. cbn [nth] in Hx, Hy.
  unfold st2_func, edge_field. cbn [fold_left existsb]. rewrite (u64_id (1 * x)) by (unfold two64; lia).
  rewrite u64_id by (unfold two64; nia). rewrite orb_false_r.
  destruct (Z.eqb_spec 0 x), (Z.eqb_spec 0 y); cbn [orb]; destruct (Z.eqb_spec (1 * x * y) 0); try reflexivity; nia.
Qed.

Lemma st2_setting {D} (ar : arith D) sz m : grid_ok [m; m] -> 1 <= sz <= 2 ^ 30 -> decomposable sz [m; m] ->
  setting sz [m; m] [a_dec ar 0 1; a_dec ar 0 1] [a_dec ar 10 1; a_dec ar 10 1] (st2_stencil ar).
Proof.
  intros Hg Hn Hd. split; auto. split; auto. split; auto. split; [reflexivity|]. split; [reflexivity|]. split.
  - unfold st2_stencil. cbn. repeat constructor.
  - intros off w [E|[E|[E|[]]]]; inversion E; subst; (split; [split; [reflexivity|]; intros [|[|j]] Hj; simpl in *; lia|]);
      intros [|[|i]] [|[|j]]; simpl; try lia; try (destruct i; lia); try (destruct j; lia).
Qed.

Theorem C57_testStencil2d :
  forall D (ar : arith D) sz m vtk,
    grid_ok [m; m] -> 1 <= sz <= 2 ^ 30 -> decomposable sz [m; m] -> (m | 2 ^ 64) ->
    let F g := a_add ar (a_add ar (a_add ar (a_zero ar)
        (a_mul ar (a_neg ar (a_dec ar 10 1)) (edge_field ar (wrap [m; m] (shift g [0; -1])))))
        (a_mul ar (a_dec ar 0 1) (edge_field ar (wrap [m; m] (shift g [0; 0])))))
        (a_mul ar (a_dec ar 10 1) (edge_field ar (wrap [m; m] (shift g [1; 0])))) in
    exists pieces, distributed [m; m] F pieces /\ length pieces = Z.to_nat sz /\
      st2_body ar sz m vtk = Ok (map (fun p => combine (col_major (fst (fst p)) (snd (fst p))) (snd p)) pieces,
        if vtk : bool then Some (map F (col_major [0; 0] [m; m])) else None).
Proof.
  intros D ar sz m vtk Hg Hn Hd Hm F. destruct (square_nd m 2 Hg) as (_ & Hmr).
  pose proof (st2_setting ar sz m Hg Hn Hd) as Hs. set (x0 := [a_dec ar 0 1; a_dec ar 0 1]) in *. set (x1 := [a_dec ar 10 1; a_dec ar 10 1]) in *.
  assert (Hp : periodic_stencil [m; m] (st2_stencil ar)).
  { intros off w _ [|[|j]] Hj _; try exact Hm. simpl in Hj. lia. }
  destruct (start_inv ar [m; m] sz x0 x1 _ Hs (SetByIndices (st2_func ar)) [Apply] Hp I) as (b & w0 & w & Hb & E0 & E & H).
  destruct Hs as (_ & _ & _ & L0 & L1 & Hst). destruct (axis_good [m; m] b _ Hst) as (Hmap & Hoff).
  unfold final in H. cbn [fold_left meaning fst snd] in H.
  assert (HF : forall g, in_grid [m; m] g -> stencil_sum ar [m; m] (st2_stencil ar) (st2_func ar) g = F g).
  { intros g Hgr. rewrite (stencil_sum_ext ar [m; m] _ (st2_func ar) (edge_field ar)).
    - unfold stencil_sum, F. reflexivity.
    - apply Hg.
    - intros off c Hin. destruct (proj2 Hst off c Hin) as ((L & _) & _). exact L.
    - intros g' Hg'. apply (st2_func_eq ar m); auto.
    - exact Hgr. }
  apply (wholds_ext [m; m] sz b _ x0 x1 Hg Hn Hb _ (st2_func ar) _ F) in H; auto.
  pose proof (wholds_wfok _ _ _ _ _ _ _ _ _ H) as Hw.
  exists (out_pieces w). split; [apply (out_ok [m; m] sz b (st2_stencil ar) x0 x1 Hg Hn Hb); auto|].
  split; [unfold out_pieces; rewrite map_length; exact (proj1 Hw)|].
  unfold st2_body. rewrite (u64_id m) by (unfold two64; lia). fold x0 x1. rewrite E0. cbn [bind].
  destruct (new_inv ar [m; m] sz x0 x1 _ (st2_setting ar sz m Hg Hn Hd)) as (b' & w0' & Hb' & _ & E0' & Hw0 & _).
  rewrite E0 in E0'. inversion E0'; subst w0'. destruct Hw0 as (Lw & Hw0).
  destruct w0 as [|f w0]; [cbn [length] in Lw; lia|].
  change (vget (f :: w0) 0) with (Ok f). cbn [bind]. unfold filter_isDecompValid.
  rewrite (fo_valid _ _ _ _ _ _ _ _ _ (proj1 (Hw0 0%nat f eq_refl))).
  unfold run in E. cbn [for_each run_op] in E. destruct (world_setInDataByIndices (f :: w0) (st2_func ar)) as [w1|u]; [|discriminate].
  cbn [bind] in E |- *. destruct (world_apply ar w1) as [w2|u]; [|discriminate]. cbn [bind] in E |- *. inversion E; subst w2.
  assert (EL : mapM (fun f0 => ' (l, _) <- filter_print f0 false;; Ok l) w =
     Ok (map (fun p => combine (col_major (fst (fst p)) (snd (fst p))) (snd p)) (out_pieces w))).
  { unfold out_pieces. rewrite map_map. cbn [fst snd]. apply mapM_ok. intros f' Hf. apply In_nth_error in Hf as (i & Hi).
    destruct (proj2 Hw i f' Hi) as (Hf' & _).
    destruct (print_ok ar [m; m] sz b (st2_stencil ar) x0 x1 Hg Hn Hb (Z.of_nat i) f' false _ Hf' eq_refl) as (k & ->).
    rewrite (fo_lo _ _ _ _ _ _ _ _ _ Hf'), (fo_hi _ _ _ _ _ _ _ _ _ Hf'). reflexivity. }
  rewrite EL. cbn [bind]. rewrite (saveVTK_ok ar [m; m] sz b (st2_stencil ar) x0 x1 Hg Hn Hb F w Hw). destruct vtk; reflexivity.
Qed.
Print Assumptions C57_testStencil2d.

(** ** C40: cell positions *)
Local Open Scope R_scope.

Theorem C40_cell_centres :
  forall sz dims xmins xmaxs st w f g,
    setting sz dims xmins xmaxs st -> alive arR sz dims xmins xmaxs st w -> In f w -> in_grid dims g ->
    exists p, filter_getPosition arR f g = Ok p /\ length p = length dims /\
      forall j, (j < length dims)%nat ->
        let x0 := nth j xmins 0 in let x1 := nth j xmaxs 0 in let n := IZR (nth j dims 0%Z) in let k := IZR (nth j g 0%Z) in
        (* the middle of cell k of n equal cells *)
        nth j p 0 = ((x0 + k * ((x1 - x0) / n)) + (x0 + (k + 1) * ((x1 - x0) / n))) / 2 /\
        (x0 < x1 -> x0 < nth j p 0 < x1).
Proof.
  intros sz dims xmins xmaxs st w f g Hs Ha Hf Hgr.
  destruct (alive_inv arR dims sz xmins xmaxs st Hs w Ha) as (b & F & Hb & H). destruct Hs as (Hg & Hn & _ & L0 & L1 & _).
  apply In_nth_error in Hf as (i & Hi). destruct (proj2 H i f Hi) as (Hf & _).
  exists (centre arR dims xmins xmaxs g).
  split; [apply position_ok; auto; apply Hf|]. apply in_grid_nth in Hgr as [L Hr].
  assert (Lc : length (centre arR dims xmins xmaxs g) = length dims).
  { unfold centre. rewrite map_length, !combine_length. lia. }
  split; [exact Lc|]. intros j Hj x0 x1 n k.
  assert (E : nth j (centre arR dims xmins xmaxs g) 0 = x0 + (k + 1 / 2) * ((x1 - x0) / n)).
  { unfold centre.
    match goal with |- context [map ?h ?l] => set (hh := h); set (ll := l) end.
    assert (Ll : length ll = length dims) by (unfold ll; rewrite !combine_length; lia).
    rewrite (nth_indep _ 0 (hh (0%Z, 0, 0, 0%Z))) by (rewrite map_length; lia). rewrite map_nth.
    unfold ll. rewrite !combine_nth by (rewrite ?combine_length; lia). unfold hh. cbn [arR a_add a_mul a_ofZ a_dec a_div a_sub].
    replace (IZR 5 / powerRZ 10 1) with (1 / 2) by (simpl; lra). reflexivity. }
  rewrite E. pose proof (Hr j Hj) as Hk.
  assert (Hn0 : 0 < n) by (apply (IZR_lt 0); lia).
  split; [lra|]. intros Hx.
  assert (Hk0 : 0 <= k) by (apply (IZR_le 0); lia).
  assert (Hk1 : k <= n - 1) by (unfold k, n; rewrite <- (minus_IZR _ 1); apply IZR_le; lia).
  assert (Hd : 0 < (x1 - x0) / n) by (apply Rdiv_lt_0_compat; lra).
  assert (Hd' : n * ((x1 - x0) / n) = x1 - x0) by (field; lra).
  split; nra.
Qed.
Print Assumptions C40_cell_centres.

(** Consequences: equal spacing, and symmetry about the middle of the domain. *)
Theorem C40_spacing_and_symmetry :
  forall sz dims xmins xmaxs st w f g g' p p' j,
    setting sz dims xmins xmaxs st -> alive arR sz dims xmins xmaxs st w -> In f w -> in_grid dims g -> in_grid dims g' ->
    filter_getPosition arR f g = Ok p -> filter_getPosition arR f g' = Ok p' -> (j < length dims)%nat ->
    nth j p' 0 - nth j p 0 = IZR (nth j g' 0%Z - nth j g 0%Z) * ((nth j xmaxs 0 - nth j xmins 0) / IZR (nth j dims 0%Z)) /\
    ((nth j g 0 + nth j g' 0 = nth j dims 0 - 1)%Z -> nth j p 0 + nth j p' 0 = nth j xmins 0 + nth j xmaxs 0).
Proof.
  intros sz dims xmins xmaxs st w f g g' p p' j Hs Ha Hf Hgr Hgr' Ep Ep' Hj.
  destruct (C40_cell_centres sz dims xmins xmaxs st w f g Hs Ha Hf Hgr) as (q & Eq & _ & H).
  rewrite Ep in Eq. inversion Eq; subst q. destruct (H j Hj) as (E & _). clear H Eq.
  destruct (C40_cell_centres sz dims xmins xmaxs st w f g' Hs Ha Hf Hgr') as (q & Eq & _ & H).
  rewrite Ep' in Eq. inversion Eq; subst q. destruct (H j Hj) as (E' & _). clear H Eq.
  cbv zeta in E, E'. apply in_grid_nth in Hgr as [_ Hr]. specialize (Hr j Hj).
  assert (Hn0 : 0 < IZR (nth j dims 0%Z)) by (apply (IZR_lt 0); lia).
  split.
  - rewrite E, E', minus_IZR. lra.
  - intros Hk. rewrite E, E'. assert (Hk' : IZR (nth j g' 0%Z) = IZR (nth j dims 0%Z) - 1 - IZR (nth j g 0%Z)).
    { rewrite <- (minus_IZR _ 1), <- minus_IZR. f_equal. lia. }
    rewrite Hk'. field. lra.
Qed.
Print Assumptions C40_spacing_and_symmetry.

Example C40_example : centre arR [4%Z; 2%Z] [0; 1] [1; 3] [1%Z; 0%Z] = [3 / 8; 3 / 2].
Proof.
  unfold centre. cbn [combine map arR a_add a_mul a_ofZ a_dec a_div a_sub]. f_equal; [simpl; lra|]. f_equal. simpl; lra.
Qed.
Local Close Scope R_scope.

(** ** C56: the initial field is an eigenfunction *)
Local Open Scope R_scope.

Definition prodR (l : list R) : R := fold_right Rmult 1 l.

Lemma prodR_upd l : forall j, (j < length l)%nat -> exists c, nth j l 1 * c = prodR l /\ forall x, prodR (upd l j x) = x * c.
Proof.
  induction l as [|a l IH]; intros j Hj; [simpl in Hj; lia|]. destruct j as [|j].
  - exists (prodR l). split; reflexivity.
  - destruct (IH j ltac:(simpl in Hj; lia)) as (c & E1 & E2). exists (a * c). split.
    + cbn [nth prodR fold_right]. change (fold_right Rmult 1 l) with (prodR l). rewrite <- E1. ring.
    + intros x. cbn [upd prodR fold_right]. change (fold_right Rmult 1 (upd l j x)) with (prodR (upd l j x)). rewrite E2. ring.
Qed.

(** The textbook form of the field set by laplacian.cxx: the product of sin(2 pi (k + 1/2) / m). *)
Definition sines (m : Z) (g : list Z) : R := prodR (map (fun k => sin (2 * PI * ((IZR k + 1 / 2) / IZR m))) g).

Lemma lap_init_sines m nd g : in_grid (repeat m nd) g -> lap_init arR sin PI m nd g = sines m g.
Proof.
  intros Hgr. apply in_grid_nth in Hgr as [L _]. rewrite repeat_length in L. unfold lap_init, sines, lap_func.
  assert (Ec : centre arR (repeat m nd) (repeat (a_dec arR 0 1) nd) (repeat (a_dec arR 10 1) nd) g = map (fun k => (IZR k + 1 / 2) / IZR m) g).
  { unfold centre. revert g L. induction nd as [|nd IH]; intros [|k g] L; try discriminate L; [reflexivity|].
    cbn [repeat combine map]. f_equal; [|apply IH; simpl in L; lia].
    cbn [arR a_add a_mul a_ofZ a_dec a_div a_sub]. simpl powerRZ. unfold Rdiv. rewrite !Rmult_1_r. 
    replace (0 * / 10) with 0 by ring. replace (10 * / 10 - 0) with 1 by field. replace (5 * / 10) with (1 * / 2) by field. ring. }
  rewrite Ec. cbn [arR a_mul a_dec a_ofZ].
  assert (H : forall l a, fold_left (fun res x => res * sin (20 / powerRZ 10 1 * PI * x)) l a = a * prodR (map (fun x => sin (2 * PI * x)) l)).
  { induction l as [|x l IH]; intros a; [simpl; ring|]. cbn [fold_left map]. rewrite IH.
    replace (20 / powerRZ 10 1) with 2 by (simpl; field). unfold prodR. cbn [fold_right]. ring. }
  rewrite H, map_map. ring.
Qed.

Lemma sin_wrap m x : (0 < m)%Z -> sin (2 * PI * ((IZR (x mod m) + 1 / 2) / IZR m)) = sin (2 * PI * ((IZR x + 1 / 2) / IZR m)).
Proof.
  intros Hm. assert (Hm' : 0 < IZR m) by (apply (IZR_lt 0); lia).
  rewrite (Z.div_mod x m) at 2 by lia. rewrite plus_IZR, mult_IZR.
  set (a := 2 * PI * ((IZR (x mod m) + 1 / 2) / IZR m)).
  replace (2 * PI * ((IZR m * IZR (x / m) + IZR (x mod m) + 1 / 2) / IZR m)) with (a + 2 * IZR (x / m) * PI) by (unfold a; field; lra).
  clearbody a. generalize (x / m)%Z. intros q. destruct (Z_le_dec 0 q) as [Hq|Hq].
  - rewrite <- (Z2Nat.id q) by lia. rewrite <- INR_IZR_INZ. symmetry. apply sin_period.
  - rewrite <- (sin_period (a + 2 * IZR q * PI) (Z.to_nat (- q))). rewrite INR_IZR_INZ, Z2Nat.id by lia. rewrite opp_IZR. f_equal. ring.
Qed.

(** The eigenvalue. *)
Definition lap_lambda (m : Z) (nd : nat) : R := INR nd * (2 * cos (2 * PI / IZR m) - 2).

Lemma laplace_sines m nd g : (0 < m)%Z -> in_grid (repeat m nd) g -> laplace arR (repeat m nd) (sines m) g = lap_lambda m nd * sines m g.
Proof.
  intros Hm Hgr. unfold laplace. cbv zeta. rewrite repeat_length.
  rewrite (map_ext_in _ (fun _ => (2 * cos (2 * PI / IZR m) - 2) * sines m g)).
  - pose proof (sum_const arR arR_exact nat (seq 0 nd) ((2 * cos (2 * PI / IZR m) - 2) * sines m g)) as E.
    rewrite E, seq_length. cbn [arR a_mul a_ofZ]. rewrite <- INR_IZR_INZ. unfold lap_lambda. ring.
  - intros j Hj. apply in_seq in Hj. cbn [arR a_add a_sub].
    pose proof (wrap_unit (repeat m nd) g j 1 Hgr ltac:(rewrite repeat_length; lia)) as E1.
    pose proof (wrap_unit (repeat m nd) g j (-1) Hgr ltac:(rewrite repeat_length; lia)) as E2. rewrite repeat_length in E1, E2.
    rewrite E1, E2. clear E1 E2. rewrite square_nth by lia. apply in_grid_nth in Hgr as [L _]. rewrite repeat_length in L.
    unfold sines. set (s := fun k => sin (2 * PI * ((IZR k + 1 / 2) / IZR m))).
    assert (Eu : forall x, map s (upd g j x) = upd (map s g) j (s x)).
    { intros x. assert (Hj' : (j < length g)%nat) by lia. revert Hj'. clear. revert j. induction g as [|a g IH]; intros j Hj; [simpl in Hj; lia|].
      destruct j as [|j]; [reflexivity|]. cbn [upd map]. f_equal. apply IH. simpl in Hj. lia. }
    rewrite !Eu. destruct (prodR_upd (map s g) j) as (c & Ec & EU); [rewrite map_length; lia|]. rewrite !EU.
    assert (En : nth j (map s g) 1 = s (nth j g 0%Z)) by (rewrite (nth_indep _ 1 (s 0%Z)) by (rewrite map_length; lia); apply map_nth).
    rewrite En in Ec. rewrite <- Ec.
    assert (Hm' : 0 < IZR m) by (apply (IZR_lt 0); lia).
    assert (Ep : s ((nth j g 0 + 1) mod m)%Z = sin (2 * PI * ((IZR (nth j g 0%Z) + 1 / 2) / IZR m) + 2 * PI / IZR m)).
    { unfold s. rewrite sin_wrap by auto. rewrite plus_IZR. f_equal. field. lra. }
    assert (Em : s ((nth j g 0 + -1) mod m)%Z = sin (2 * PI * ((IZR (nth j g 0%Z) + 1 / 2) / IZR m) - 2 * PI / IZR m)).
    { unfold s. rewrite sin_wrap by auto. rewrite plus_IZR. f_equal. field. lra. }
    rewrite Ep, Em, sin_plus, sin_minus. unfold s. ring.
Qed.

Lemma lap_iter m nd k st g : (0 < m)%Z -> grid_ok (repeat m nd) -> lap_stencil arR (Z.of_nat nd) = Ok st -> in_grid (repeat m nd) g ->
  stencil_iter arR k (repeat m nd) st (lap_init arR sin PI m nd) g = lap_lambda m nd ^ k * sines m g.
Proof.
  intros Hm Hg Est. assert (EQst : st = insert_all (lap_entries arR nd) []) by (rewrite lap_stencil_eq in Est; congruence). subst st. clear Est.
  revert g. induction k as [|k IH]; intros g Hgr.
  - cbn [stencil_iter pow]. rewrite lap_init_sines by auto. ring.
  - cbn [stencil_iter]. rewrite (stencil_sum_ext arR (repeat m nd) _ _ (fun g => lap_lambda m nd ^ k * sines m g)); auto.
    + pose proof (lap_is_laplace arR arR_exact (repeat m nd) (fun g => lap_lambda m nd ^ k * sines m g) g Hgr) as E.
      rewrite repeat_length in E. rewrite E.
      assert (EL : laplace arR (repeat m nd) (fun g => lap_lambda m nd ^ k * sines m g) g = lap_lambda m nd ^ k * laplace arR (repeat m nd) (sines m) g).
      { unfold laplace. cbv zeta. pose proof (@sum_scale R arR (en_ring arR arR_exact) nat) as SS. cbn [arR a_mul] in SS |- *. rewrite <- SS.
        f_equal. apply map_ext. intros j. cbn [arR a_add a_sub a_mul]. ring. }
      rewrite EL, laplace_sines by auto. cbn [pow]. ring.
    + apply Hg.
    + intros off c Hin. pose proof (lap_axis arR (repeat m nd)) as Hst. rewrite repeat_length in Hst.
      destruct (proj2 Hst off c Hin) as ((L & _) & _). exact L.
Qed.

(** Over the real numbers, with the true sine and pi, k rounds of the benchmark multiply the initial field by
    the k-th power of the eigenvalue 2 nd (cos (2 pi / m) - 1). *)
Theorem C56_eigenfunction :
  forall sz m nd k vtk,
    let dims := repeat m nd in
    grid_ok dims -> (1 <= sz <= 2 ^ 30)%Z -> decomposable sz dims -> (m | 2 ^ 64)%Z ->
    exists r, lap_body arR sin PI sz m (Z.of_nat nd) k vtk = Ok (Some r) /\
      distributed dims (fun g => (INR nd * (2 * cos (2 * PI / IZR m) - 2)) ^ k *
        prodR (map (fun x => sin (2 * PI * ((IZR x + 1 / 2) / IZR m))) g)) (in_pieces (lr_world r)) /\
      (vtk = true -> (0 < k)%nat -> lr_vtk r = Some (map (fun g => (INR nd * (2 * cos (2 * PI / IZR m) - 2)) ^ k *
        prodR (map (fun x => sin (2 * PI * ((IZR x + 1 / 2) / IZR m))) g)) (col_major (repeat 0%Z nd) dims))).
Proof.
  intros sz m nd k vtk dims Hg Hn Hd Hm. destruct (square_nd m nd Hg) as (Hnd & Hmr).
  destruct (C39_driver_field R arR sin PI sz m nd k vtk Hg Hn Hd Hm) as (st & r & Est & E & Hin & _ & _ & _ & _ & _ & Ev).
  exists r. split; [exact E|].
  assert (HF : forall g, in_grid dims g -> stencil_iter arR k dims st (lap_init arR sin PI m nd) g =
     (INR nd * (2 * cos (2 * PI / IZR m) - 2)) ^ k * prodR (map (fun x => sin (2 * PI * ((IZR x + 1 / 2) / IZR m))) g)).
  { intros g Hgr. apply lap_iter; auto. lia. }
  split.
  - apply (distributed_ext dims _ _ _ HF Hin).
  - intros -> Hk. rewrite Ev. destruct k as [|k]; [lia|]. f_equal. apply map_ext_in. intros g Hgr. apply HF.
    unfold in_grid. apply (in_nested_loops false) in Hgr; [|unfold dims; rewrite !repeat_length; reflexivity].
    unfold dims. rewrite repeat_length. exact Hgr.
Qed.
Print Assumptions C56_eigenfunction.
Local Close Scope R_scope.

(** ** Examples *)
Example arZ_exact_numbers : exact_numbers arZ.
Proof.
  constructor; cbn [arZ a_ofZ a_zero a_one a_add a_mul a_neg a_dec]; auto; [exact arZ_exact|].
  intros x. change (10 ^ 1) with 10. apply Z.div_mul. discriminate.
Qed.

(** A grid of 4 x 4 on two processes meets the hypotheses of the theorems on the driver. *)
Example C39_hypotheses : grid_ok (repeat 4 2) /\ 1 <= 2 <= 2 ^ 30 /\ decomposable 2 (repeat 4 2) /\ (4 | 2 ^ 64).
Proof.
  split; [|split; [lia|split]].
  - split; [discriminate|]. split; [simpl; lia|]. split; [|reflexivity]. intros [|[|j]] Hj; simpl in *; lia.
  - exists [2; 1]. split; [reflexivity|]. split; [|reflexivity]. intros [|[|j]] Hj; simpl in *; try lia; (split; [lia|]); [exists 2|exists 4]; lia.
  - exists (2 ^ 62). reflexivity.
Qed.

(** One round from the command line, with integers as data and the square in place of the sine (and 1 in
    place of pi). *)
Example C39_example :
  (r <- lap_main arZ (fun x => x * x) 1 (fun _ => 0) 2 ["laplacian"%string; "-numCells"%string; "4"%string; "-vtk"%string] ;;
   Ok (match r with Some r => (length (lr_world r), lr_in r, lr_out r, option_map (@length Z) (lr_vtk r)) | None => (O, [], [], None) end)) =
  Ok (2%nat, [0; 0], [0; 0], Some 16%nat).
Proof. vm_compute. reflexivity. Qed.

Example C39_example_stencil : lap_stencil arZ 2 = Ok [([-1; 0], 1); ([0; -1], 1); ([0; 0], -4); ([0; 1], 1); ([1; 0], 1)].
Proof. vm_compute. reflexivity. Qed.

Example C57_example : st2_body arZ 2 4 true =
  Ok ([[([0; 0], 0); ([1; 0], 1); ([2; 0], 1); ([3; 0], 1); ([0; 1], -1); ([1; 1], -1); ([2; 1], -1); ([3; 1], 0)];
       [([0; 2], -1); ([1; 2], 0); ([2; 2], 0); ([3; 2], 1); ([0; 3], -1); ([1; 3], 0); ([2; 3], 0); ([3; 3], 1)]],
      Some [0; 1; 1; 1; -1; -1; -1; 0; -1; 0; 0; 1; -1; 0; 0; 1]).
Proof. vm_compute. reflexivity. Qed.

Example C38_testStencil2d_example : grid_ok [8; 8] /\ ~ decomposable 3 [8; 8] /\ st2_body arZ 3 8 false = Undef UninitRead.
Proof.
  assert (Hg : grid_ok [8; 8]) by (split; [discriminate|]; split; [simpl; lia|]; split; [|reflexivity]; intros [|[|j]] Hj; simpl in *; lia).
  split; [exact Hg|]. split; [|vm_compute; reflexivity]. intros (d & Hd).
  destruct (C05_build_iff_decomposition_exists cd_empty 3 [8; 8] Hg ltac:(lia)) as (ok & c & E & H).
  rewrite (proj2 H (ex_intro _ d Hd)) in E. vm_compute in E. discriminate.
Qed.
