(** * Neighbours in any direction: what getNeighborRank returns, and for which directions it is a valid rank (C10) *)
From Coq Require Import List ZArith Bool Lia.
From Verif Require Import Cpp CppProof MaiModel MaiSpec Radix MaiProof CdModel CdSpec CdProof FilterModel FilterSpec FilterProof WrapProof ReachProof.
From Coq Require Import List.
Import ListNotations.
Local Open Scope Z_scope.
Local Arguments prodZ : simpl never.
Local Arguments Z.of_nat : simpl never.

Lemma i32_of_u64 z : i32 (u64 z) = i32 z.
Proof.
  unfold i32, u64. rewrite <- (Zplus_mod_idemp_l (z mod two64)). rewrite <- (Znumtheory.Zmod_div_mod two32 two64 z); [|reflexivity|reflexivity|exists two32; reflexivity].
  rewrite Zplus_mod_idemp_l. reflexivity.
Qed.
Lemma dot_upd a : forall v j x, (j < length v)%nat -> length a = length v -> dot a (upd v j x) = dot a v + nth j a 0 * (x - nth j v 0).
Proof.
  induction a as [|y a IH]; intros [|z v] j x Hj L; simpl in Hj, L; try lia. destruct j as [|j]; cbn [upd dot nth]; [ring|]. rewrite IH by lia. ring.
Qed.
Lemma prod_strides_le b j : allpos b -> (j < length b)%nat -> 0 < nth j (strides b) 0 /\ nth j (strides b) 0 * nth j b 0 <= prodZ b.
Proof.
  revert j. induction b as [|x b IH]; intros j Hp Hj; [simpl in Hj; lia|]. inversion Hp as [|? ? Hx Hp']; subst. rewrite prodZ_cons. pose proof (prodZ_pos b Hp') as P.
  destruct j as [|j]; cbn [strides nth]; [nia|]. destruct (IH j Hp' ltac:(simpl in Hj; lia)). nia.
Qed.

Section Nb.
  Context (dims : list Z) (n : Z) (b : list Z).
  Hypothesis Hg : grid_ok dims.
  Hypothesis Hn : 1 <= n <= 2 ^ 30.
  Hypothesis Hb : is_decomp n dims b.
  Notation nd := (length dims).

  (** The position after one move, axis by axis, in 32-bit integers *)
  Definition moved (pos dir : list Z) : list Z := vec nd (fun i => step1 (i32 (nth i pos 0 + nth i dir 0)) (nth i b 0)).

  Lemma nbrank_any k rk off : length off = nd ->
    cd_getNeighborRank (cube_of n dims b k) rk off = Ok (i32 (dot (strides b) (moved (coords b (u64 rk)) off)), cube_of n dims b (u64 rk)).
  Proof using Hg Hn Hb.
    intros O1. pose proof (n31 dims n b Hg Hn Hb) as Hn'. destruct (decomp_box n dims b Hg Hn' Hb) as [Hbox Hext].
    assert (Hl : length b = nd) by apply Hb. pose proof (coords_digit dims n b Hb (u64 rk)) as Hc.
    unfold cd_getNeighborRank. rewrite cd_moveTo_of by auto. cbn [bind].
    change (c_ndims (cube_of n dims b k)) with (vlen dims). change (c_decomp (cube_of n dims b k)) with b.
    set (c := coords b (u64 rk)) in *.
    rewrite (tab_eq (moved c off)).
    - cbn [bind]. unfold cube_of at 1. cbn [c_mit]. unfold mai_computeBigIndex_int.
      rewrite mai_computeBig_of; [|exact Hbox|rewrite repeat_length; apply vec_length].
      cbn [bind]. rewrite Hext, vsub_zeros by apply vec_length. cbn [strd]. rewrite i32_of_u64.
      rewrite (i32_id (i32 _)) by apply i32_range. reflexivity.
    - unfold vlen. unfold moved. rewrite vec_length. reflexivity.
    - intros j Hj. unfold moved in Hj. rewrite vec_length in Hj. destruct Hc as (C1 & C2).
      rewrite (vget_nat c j 0) by lia. cbn [bind]. rewrite (vget_nat off j 0) by lia. cbn [bind]. rewrite u64_add_r.
      rewrite (vget_nat b j 0) by lia. cbn [bind]. f_equal. unfold moved. rewrite vec_nth by exact Hj.
      destruct (axB dims n b Hg Hn Hb j Hj) as (A1 & A2 & _).
      rewrite <- (step_once (i32 (nth j c 0 + nth j off 0)) (nth j b 0)) by (first [lia|apply i32_range]).
      cbv zeta. rewrite !i32_of_u64. rewrite (i32_id (i32 _)) by apply i32_range. reflexivity.
  Qed.
End Nb.

(** The decomposition, the position of a process in it and the rank that belongs to a position: as in C07 and C09, the
    rank is the number with digits [pos] in the mixed base given by the numbers of processes. *)
Section Any.
  Variables (c c' : cube) (nprocs : Z) (dims : list Z).
  Hypotheses (Hg : grid_ok dims) (Hn : 1 <= nprocs <= 2 ^ 30) (Hbuild : cd_build c nprocs dims = Ok (true, c')).
  Notation B := (cd_getDecomp c').

  Lemma built : exists b, is_decomp nprocs dims b /\ c' = cube_of nprocs dims b 0 /\ B = b.
  Proof using Hg Hn Hbuild.
    destruct (cd_build_true c nprocs dims c' Hg ltac:(change (2 ^ 30) with 1073741824 in Hn; unfold two31; lia) Hbuild) as (b & Hb & E). exists b. rewrite E. auto.
  Qed.

  (** One period is added to what is negative and subtracted from what is too large, once, in 32-bit integers. *)
  Definition once (x n : Z) : Z := if x <? 0 then x + n else if n <=? x then x - n else x.

  (** The result for every direction whatsoever. *)
  Theorem C10_exact : forall pos dir, digit_vec B pos -> length dir = length dims ->
    exists c'', cd_getNeighborRank c' (dot (strides B) pos) dir =
      Ok (i32 (dot (strides B) (map (fun j => once (i32 (nth j pos 0 + nth j dir 0)) (nth j B 0)) (seq 0 (length dims)))), c'').
  Proof using Hg Hn Hbuild.
    intros pos dir Hp Hd. destruct built as (b & Hb & Ec & EB). rewrite EB in *. pose proof (flat_range b pos Hp) as R. pose proof Hb as (Lb & _ & Pb). rewrite Pb in R.
    change (2 ^ 30) with 1073741824 in Hn. eexists. rewrite Ec, (nbrank_any dims nprocs b Hg Hn Hb _ _ dir Hd). rewrite u64_id by (unfold two64; lia). unfold coords. rewrite digits_flat by exact Hp. reflexivity.
  Qed.

  (** Along one axis by [d] processes, the product of [d] and the number of processes being below 2^30. *)
  Notation along j d := (upd (repeat 0 (length dims)) j d).

  Lemma along_eq pos j d : digit_vec B pos -> (j < length dims)%nat -> Z.abs d * nprocs < 2 ^ 30 ->
    exists c'', cd_getNeighborRank c' (dot (strides B) pos) (along j d) = Ok (dot (strides B) (upd pos j (once (nth j pos 0 + d) (nth j B 0))), c'') /\
      0 < nth j (strides B) 0 /\ nth j (strides B) 0 * nth j B 0 <= nprocs /\ 0 < nth j B 0.
  Proof using Hg Hn Hbuild.
    intros Hp Hj Hd. destruct (C10_exact pos (along j d) Hp ltac:(rewrite upd_length, repeat_length; reflexivity)) as (c'' & E). exists c''.
    destruct built as (b & Hb & Ec & EB). rewrite EB in *. pose proof Hb as (Lb & HB & Pb). pose proof (decomp_allpos _ _ _ Hb) as Ap. destruct (prod_strides_le b j Ap ltac:(lia)) as (S0 & S1). rewrite Pb in S1.
    destruct Hp as (Lp & Hp). destruct (HB j Hj) as (Bj & _). split; [|auto]. rewrite E. f_equal. f_equal.
    change (2 ^ 30) with 1073741824 in *. pose proof (Hp j ltac:(lia)) as Hpj.
    assert (Em : map (fun i => once (i32 (nth i pos 0 + nth i (along j d) 0)) (nth i b 0)) (seq 0 (length dims)) = upd pos j (once (nth j pos 0 + d) (nth j b 0))).
    { apply (nth_ext _ _ 0 0); [rewrite map_length, seq_length, upd_length; lia|]. intros i Hi. rewrite map_length, seq_length in Hi.
      match goal with |- nth _ (map ?f (seq 0 ?m)) 0 = _ => change (map f (seq 0 m)) with (vec m f) end. rewrite vec_nth by exact Hi. pose proof (Hp i ltac:(lia)) as Hpi. pose proof (prod_strides_le b i Ap ltac:(lia)) as (Q0 & Q1). rewrite Pb in Q1.
      rewrite !upd_nth by (rewrite ?repeat_length; lia). destruct (Nat.eqb_spec i j) as [->|Ne].
      - rewrite i32_id; [reflexivity|]. unfold two31. nia.
      - rewrite nth_repeat, Z.add_0_r. rewrite i32_id by (unfold two31; nia). unfold once. destruct (Z.ltb_spec (nth i pos 0) 0); [lia|]. destruct (Z.leb_spec (nth i b 0) (nth i pos 0)); lia. }
    rewrite Em. apply i32_id. rewrite dot_upd by (rewrite ?strides_length; lia). pose proof (flat_range b pos (conj Lp Hp)) as R. rewrite Pb in R.
    set (S := nth j (strides b) 0) in *. set (Bb := nth j b 0) in *. assert (O : Z.abs (once (nth j pos 0 + d) Bb - nth j pos 0) <= Z.max Bb (Z.abs d)).
    { unfold once. destruct (Z.ltb_spec (nth j pos 0 + d) 0); [lia|]. destruct (Z.leb_spec Bb (nth j pos 0 + d)); lia. }
    assert (S <= nprocs) by nia. assert (S * Z.max Bb (Z.abs d) <= 1073741824).
    { destruct (Z.max_spec Bb (Z.abs d)) as [[_ ->]|[_ ->]]; nia. }
    assert (- 1073741824 <= S * (once (nth j pos 0 + d) Bb - nth j pos 0) <= 1073741824) by nia. unfold two31. lia.
  Qed.

  (** A given process gets the periodic neighbour exactly when the displaced position is less than one period outside. *)
  Theorem C10_neighbour_iff : forall pos j d, digit_vec B pos -> (j < length dims)%nat -> Z.abs d * nprocs < 2 ^ 30 ->
    ((exists c'', cd_getNeighborRank c' (dot (strides B) pos) (along j d) = Ok (dot (strides B) (upd pos j ((nth j pos 0 + d) mod nth j B 0)), c'')) <->
     - nth j B 0 <= nth j pos 0 + d < 2 * nth j B 0).
  Proof using Hg Hn Hbuild.
    intros pos j d Hp Hj Hd. destruct (along_eq pos j d Hp Hj Hd) as (c'' & E & S0 & _ & B0). destruct Hp as (Lp & Hp). pose proof built as (b & (Lb & _) & _ & EB). rewrite EB in *.
    assert (EQ : (dot (strides b) (upd pos j (once (nth j pos 0 + d) (nth j b 0))) = dot (strides b) (upd pos j ((nth j pos 0 + d) mod nth j b 0))) <-> - nth j b 0 <= nth j pos 0 + d < 2 * nth j b 0).
    { rewrite !dot_upd by (rewrite ?strides_length; lia). set (x := nth j pos 0 + d) in *. set (m := nth j b 0) in *. pose proof (Z.mod_pos_bound x m B0) as Bm.
      assert (O : once x m = x mod m <-> - m <= x < 2 * m).
      { unfold once. split.
        - intros Q. destruct (Z.ltb_spec x 0); [lia|]. destruct (Z.leb_spec m x); lia.
        - intros Q. destruct (Z.ltb_spec x 0); [apply Z.mod_unique with (-1); lia|]. destruct (Z.leb_spec m x); [apply Z.mod_unique with 1; lia|symmetry; apply Z.mod_small; lia]. }
      rewrite <- O. split; intros Q; [|rewrite Q; reflexivity]. nia. }
    rewrite <- EQ. split.
    - intros (c2 & E2). rewrite E in E2. injection E2 as Q _. exact Q.
    - intros Q. exists c''. rewrite E, Q. reflexivity.
  Qed.

  (** All processes get a valid rank exactly when the direction is not longer than the number of processes along the axis. *)
  Theorem C10_valid_iff : forall j d, (j < length dims)%nat -> Z.abs d * nprocs < 2 ^ 30 ->
    ((forall rk, 0 <= rk < nprocs -> exists nb c'', cd_getNeighborRank c' rk (along j d) = Ok (nb, c'') /\ 0 <= nb < nprocs) <-> - nth j B 0 <= d <= nth j B 0).
  Proof using Hg Hn Hbuild.
    intros j d Hj Hd. pose proof built as (b & Hb & _ & EB). pose proof Hb as (Lb & HB & Pb). pose proof (decomp_allpos _ _ _ Hb) as Ap. split.
    - intros H. assert (H' : forall pos, digit_vec B pos -> 0 <= dot (strides B) (upd pos j (once (nth j pos 0 + d) (nth j B 0))) < nprocs).
      { intros pos Hp. destruct (along_eq pos j d Hp Hj Hd) as (c1 & E & _). rewrite EB in *. pose proof (flat_range b pos Hp) as R. rewrite Pb in R.
        destruct (H _ R) as (nb & c2 & E2 & V). rewrite E in E2. injection E2 as <- _. exact V. }
      rewrite EB in *. destruct (HB j Hj) as (B0 & _). destruct (prod_strides_le b j Ap ltac:(lia)) as (S0 & _). split.
      + (* the first process *)
        assert (Z0 : digit_vec b (repeat 0 (length b))) by (split; [apply repeat_length|]; intros i Hi; rewrite nth_repeat; rewrite Lb in Hi; destruct (HB i Hi); lia).
        specialize (H' _ Z0). rewrite dot_upd in H' by (rewrite ?strides_length, repeat_length; lia). rewrite nth_repeat in H'. rewrite (dot_zero _ (repeat 0 (length b))) in H' by (intros; apply nth_repeat).
        apply Z.nlt_ge. intros C. unfold once in H'. destruct (Z.ltb_spec (0 + d) 0); [nia|lia].
      + (* the last process *)
        assert (Z1 : digit_vec b (map Z.pred b)).
        { split; [apply map_length|]. intros i Hi. rewrite (nth_indep _ 0 (Z.pred 0)) by (rewrite map_length; exact Hi). rewrite map_nth. rewrite Lb in Hi. destruct (HB i Hi). lia. }
        specialize (H' _ Z1). rewrite dot_upd in H' by (rewrite ?strides_length, map_length; lia). assert (EP : nth j (map Z.pred b) 0 = Z.pred (nth j b 0)) by (rewrite (nth_indep _ 0 (Z.pred 0)) by (rewrite map_length; lia); apply map_nth). rewrite !EP in H'.
        rewrite dot_strides_top, Pb in H' by exact Ap. apply Z.nlt_ge. intros C. unfold once in H'. destruct (Z.ltb_spec (Z.pred (nth j b 0) + d) 0); [lia|]. destruct (Z.leb_spec (nth j b 0) (Z.pred (nth j b 0) + d)); [nia|lia].
    - intros HD rk Hrk. rewrite EB in HD. pose proof (digits_digit_vec b rk Ap) as Hp. assert (Er : dot (strides b) (digits b rk) = rk).
      { pose proof (dot_digs true b rk Ap) as Q. cbn [strd digs] in Q. rewrite Pb in Q. rewrite Z.mod_small in Q by lia. exact Q. }
      pose proof Hp as (Lp & Hp'). pose proof (Hp' j ltac:(lia)) as Hpj. destruct (HB j Hj) as (B0 & _).
      pose proof (C10_neighbour_iff (digits b rk) j d ltac:(rewrite EB; exact Hp) Hj Hd) as I. rewrite EB, Er in I. destruct (proj2 I ltac:(lia)) as (c2 & E2).
      eexists _, c2. split; [exact E2|]. rewrite <- Pb. apply flat_range. split; [rewrite upd_length; exact Lp|]. intros i Hi. rewrite upd_nth by lia.
      destruct (Nat.eqb_spec i j) as [->|Ne]; [apply Z.mod_pos_bound, B0|apply Hp'; exact Hi].
  Qed.
End Any.
Print Assumptions C10_exact.
Print Assumptions C10_neighbour_iff.
Print Assumptions C10_valid_iff.

(** ** Examples *)

(** 6 processes on a 12 x 8 grid are 3 x 2; three steps along the first axis are too many for none of them, four for the last ones. *)
Example C10_iff_example :
  (exists c', cd_build cd_empty 6 [12; 8] = Ok (true, c') /\ cd_getDecomp c' = [3; 2] /\ digit_vec [3; 2] [2; 1] /\ dot (strides [3; 2]) [2; 1] = 5 /\ Z.abs 4 * 6 < 2 ^ 30 /\
    upd (repeat 0 2) 0 4 = [4; 0] /\ (r <- cd_getNeighborRank c' 5 [4; 0] ;; Ok (fst r)) = Ok 7 /\ (r <- cd_getNeighborRank c' 0 [4; 0] ;; Ok (fst r)) = Ok 2 /\
    (r <- cd_getNeighborRank c' 5 [3; 0] ;; Ok (fst r)) = Ok 5).
Proof.
  eexists. split; [vm_compute; reflexivity|]. split; [reflexivity|]. split; [split; [reflexivity|intros [|[|j]] Hj; cbn in *; lia]|]. split; [reflexivity|]. split; [reflexivity|]. split; [reflexivity|].
  split; [vm_compute; reflexivity|]. split; vm_compute; reflexivity.
Qed.
(** With two axes at a time the lengths do not decide: 3 and -4 are both longer than 2, and all four ranks are valid
    (none of them is the periodic neighbour of the process, which would be 2, 3, 0, 1). *)
Example C10_two_axes :
  (exists c', cd_build cd_empty 4 [4; 4] = Ok (true, c') /\ cd_getDecomp c' = [2; 2] /\
    map (fun rk => r <- cd_getNeighborRank c' rk [3; -4] ;; Ok (fst r)) [0; 1; 2; 3] = [Ok 0; Ok 1; Ok 2; Ok 3]).
Proof. eexists. split; [vm_compute; reflexivity|]. split; [reflexivity|]. vm_compute. reflexivity. Qed.
(** Without the bound on the length: 2^30 steps along the first axis come back to a valid rank by overflow. *)
Example C10_overflow :
  (exists c', cd_build cd_empty 8 [4; 8] = Ok (true, c') /\ cd_getDecomp c' = [2; 4] /\
    (r <- cd_getNeighborRank c' 0 [2 ^ 30 + 2; 0] ;; Ok (fst r)) = Ok 0).
Proof. eexists. split; [vm_compute; reflexivity|]. split; [reflexivity|]. vm_compute. reflexivity. Qed.
