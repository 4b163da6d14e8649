(** * Property C35, displacements of two or more cells

    C71 says exactly when applyFilter works for displacements of at most one cell.  Here the displacements are longer:
    as soon as one of them has two or more cells along one axis, and a process owns at least two cells along that axis,
    no program that calls applyFilter runs through, whatever the grid, the number of processes (one included), the rest
    of the stencil and the calls made before. *)
From Coq Require Import Sorted Permutation.
From Verif Require Import Cpp CppProof OMap MaiModel MaiSpec Radix MaiProof CdModel CdSpec CdProof FilterModel FilterSpec
  FilterProof FilterRank FilterWorld FilterProg FilterProps WrapSpec WrapProof WrapProps MpiSchedModel MpiSchedFilter LeakProps ReachProof.
From Coq Require Import List.
Import ListNotations.
Local Open Scope Z_scope.
Local Arguments prodZ : simpl never.
Local Arguments Z.of_nat : simpl never.

(** ** Vocabulary *)

(** Displacements that do not go further than once round the grid. *)
Definition within (dims off : list Z) : Prop :=
  length off = length dims /\ forall i, (i < length dims)%nat -> Z.abs (nth i off 0) <= Z.min (nth i dims 0) (2 ^ 30).

(** ** C35 *)
Theorem C35_two_or_more_cells :
  forall D (ar : arith D) sz dims xmins xmaxs st c off v j ops w0 w,
    grid_ok dims -> 1 <= sz <= 2 ^ 30 -> cd_build cd_empty sz dims = Ok (true, c) ->
    is_map st -> (forall o u, In (o, u) st -> within dims o) ->
    In (off, v) st -> (j < length dims)%nat -> (forall i, i <> j -> nth i off 0 = 0) -> 2 <= Z.abs (nth j off 0) ->
    2 * nth j (cd_getDecomp c) 0 <= nth j dims 0 ->
    In Apply ops -> world_new ar sz dims xmins xmaxs st = Ok w0 -> FilterProg.run ar ops w0 <> Ok w.
Proof.
  intros D ar sz dims x0 x1 st c off v j ops w0 w Hg Hn E Hmap Hw Hin Hj Ha Ho HL HA E0.
  destruct (cd_build_true cd_empty sz dims c Hg ltac:(unfold two31; lia) E) as (b & Hb & ->). change (cd_getDecomp (cube_of sz dims b 0)) with b in HL.
  destruct (axB dims sz b Hg Hn Hb j Hj) as (A1 & A2 & A3 & A4 & A5).
  assert (HL2 : 2 <= nth j (local_dims dims b) 0) by nia.
  destruct (out_of_reach ar dims sz b st x0 x1 Hg Hn Hb off v j Hmap Hw Hj Hin (conj (proj1 (Hw _ _ Hin)) Ha) Ho HL2)
    as (o1 & v1 & s & G & r & I1 & EF & HG & HP & Hbad).
  apply (run_bad ar dims sz b st x0 x1 Hg Hn Hb s G r o1 v1 ops Hbad I1 HA).
  apply (new_static ar dims sz b st x0 x1 Hg Hn Hb s G r w0); auto.
  - intros o u H. apply (proj1 (Hw o u H)).
  - apply Hbad.
Qed.
Print Assumptions C35_two_or_more_cells.

(** For stencils along the axes, and at least two cells per process along each axis: applyFilter works exactly if all
    the displacements are of one cell and the stencil is sound. *)
Theorem C35_axis_stencils :
  forall D (ar : arith D) sz dims xmins xmaxs st c G,
    grid_ok dims -> 1 <= sz <= 2 ^ 30 -> cd_build cd_empty sz dims = Ok (true, c) ->
    is_map st -> (forall o u, In (o, u) st -> within dims o /\ axis_offset o) ->
    (forall j, (j < length dims)%nat -> 2 * nth j (cd_getDecomp c) 0 <= nth j dims 0) ->
    ((exists w0 w, world_new ar sz dims xmins xmaxs st = Ok w0 /\ FilterProg.run ar [SetByIndices G; Apply] w0 = Ok w) <->
     unit_stencil dims st /\ sound_stencil dims (cd_getDecomp c) st).
Proof.
  intros D ar sz dims x0 x1 st c G Hg Hn E Hmap Hw HL. split.
  - intros (w0 & w & E0 & E1).
    assert (HU : unit_stencil dims st).
    { split; [exact Hmap|]. intros o u Hin. destruct (Hw o u Hin) as ((L & _) & Hax). split; [exact L|]. intros j Hj.
      destruct (Z_le_gt_dec (Z.abs (nth j o 0)) 1) as [H|H]; [lia|]. exfalso.
      apply (C35_two_or_more_cells D ar sz dims x0 x1 st c o u j [SetByIndices G; Apply] w0 w); auto; try lia.
      - intros o' u' H'. apply (Hw o' u' H').
      - intros i Hi. destruct (Z.eq_dec (nth i o 0) 0) as [X|X]; [exact X|]. exfalso. apply Hi. apply Hax; [exact X|lia].
      - right. left. reflexivity. }
    split; [exact HU|]. destruct (C71_apply D ar sz dims x0 x1 st c G Hg Hn E HU) as (w0' & w1 & E0' & E1' & _ & Hno).
    rewrite E0 in E0'. inversion E0'; subst w0'. unfold FilterProg.run in E1. cbn [for_each run_op] in E1. rewrite E1' in E1. cbn [bind] in E1.
    destruct (cd_build_true cd_empty sz dims c Hg ltac:(unfold two31; lia) E) as (b & Hb & ->).
    destruct (sound_st_dec dims b st (proj2 HU)) as [H|(o & u & Hin & H)]; [exact H|]. exfalso. rewrite Hno in E1; [discriminate|].
    intros X. apply H, (X o u Hin).
  - intros (HU & HS). destruct (C71_apply D ar sz dims x0 x1 st c G Hg Hn E HU) as (w0 & w1 & E0 & E1 & Hok & _).
    destruct (Hok HS) as (w2 & E2 & _). exists w0, w2. split; [exact E0|]. unfold FilterProg.run. cbn [for_each run_op]. rewrite E1. cbn [bind]. rewrite E2. reflexivity.
Qed.
Print Assumptions C35_axis_stencils.

(** ** Examples *)

(** The hypotheses of C35_two_or_more_cells, on a 2-d grid with a mixed stencil. *)
Definition two_left : list (list Z * Z) := [([-2; 0], 5); ([-1; 0], 7); ([0; 0], 1); ([0; 1], 2)].
Example ex_two_left :
  exists c, cd_build cd_empty 4 [8; 8] = Ok (true, c) /\ cd_getDecomp c = [2; 2] /\ grid_ok [8; 8] /\ is_map two_left /\
    (forall o u, In (o, u) two_left -> within [8; 8] o) /\ (exists w0, world_new arZ 4 [8; 8] [0; 0] [1; 1] two_left = Ok w0) /\
    go 4 [8; 8] two_left = Undef OobRead.
Proof.
  eexists. split; [vm_compute; reflexivity|]. split; [reflexivity|]. split.
  { split; [discriminate|]. split; [cbn; lia|]. split; [|vm_compute; reflexivity]. intros [|[|i]] Hi; cbn in *; lia. }
  split; [repeat constructor; reflexivity|]. split.
  { intros o u H. repeat (destruct H as [H|H]; [inversion H; subst; split; [reflexivity|]; intros [|[|i]] Hi; cbn in *; lia|]). destruct H. }
  split; [eexists; vm_compute; reflexivity|vm_compute; reflexivity].
Qed.

(** One cell per process: a displacement of two cells can work. *)
Example ex_one_cell_each : go 4 [4] [([1], 1); ([2], 100)] = Ok [[201]; [302]; [3]; [100]].
Proof. vm_compute. reflexivity. Qed.
Example ex_two_cells_each : exists u, go 4 [8] [([1], 1); ([2], 100)] = Undef u.
Proof. eexists. vm_compute. reflexivity. Qed.

(** Both sides of C35_axis_stencils. *)
Example ex_axis_good : exists out, go 4 [8; 8] [([-1; 0], 1); ([0; 1], 2)] = Ok out.
Proof. eexists. vm_compute. reflexivity. Qed.
