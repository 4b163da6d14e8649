(** * Properties C05-C16: CubeDecomp *)
From Coq Require Import Floats.SpecFloat Sorted.
From Verif Require Import Cpp CppProof MaiModel MaiSpec Radix MaiProof CdModel CdSpec CdProof Ieee CdOpt.
Local Open Scope Z_scope.

(** A non-trivial grid used in the examples: 12 x 8 cells over 6 processes. *)
Definition ex_dims := [12; 8].
Example ex_grid_ok : grid_ok ex_dims.
Proof.
  split; [discriminate|]. split; [simpl; lia|]. split; [|reflexivity].
  intros [|[|j]] Hj; simpl in *; lia.
Qed.

(** ** C05 *)
Theorem C05_build_iff_decomposition_exists :
  forall c nprocs dims,
    grid_ok dims -> 1 <= nprocs < 2 ^ 31 ->
    exists ok c', cd_build c nprocs dims = Ok (ok, c') /\
      (ok = true <-> exists d, is_decomp nprocs dims d).
Proof.
  intros c n dims Hg Hn. rewrite cd_build_eq by assumption.
  destruct (decomps n dims) as [|v0 t] eqn:E.
  - exists false. eexists. split; [reflexivity|]. split; [discriminate|]. intros (d & Hd).
    apply (in_decomps n dims d Hg) in Hd. rewrite E in Hd. destruct Hd.
  - exists true. eexists. split; [reflexivity|]. split; [|reflexivity]. intros _. exists v0.
    apply (in_decomps n dims v0 Hg). rewrite E. left; reflexivity.
Qed.
Print Assumptions C05_build_iff_decomposition_exists.

Example C05_example :
  (r <- cd_build cd_empty 6 ex_dims ;; Ok (fst r, c_decomp (snd r))) = Ok (true, [3; 2]) /\
  (r <- cd_build cd_empty 5 ex_dims ;; Ok (fst r, c_decomp (snd r))) = Ok (false, []).
Proof. split; vm_compute; reflexivity. Qed.

(** ** C06 *)
Theorem C06_decomposition_valid :
  forall c nprocs dims c',
    grid_ok dims -> 1 <= nprocs < 2 ^ 31 ->
    cd_build c nprocs dims = Ok (true, c') ->
    is_decomp nprocs dims (cd_getDecomp c').
Proof.
  intros c n dims c' Hg Hn H. destruct (cd_build_true c n dims c' Hg Hn H) as (b & Hb & ->). exact Hb.
Qed.
Print Assumptions C06_decomposition_valid.

(** Without the bound on the number of cells the claim is false: std::accumulate starts from an int, so
    a product that is congruent to the number of processes modulo 2^32 is accepted. *)
Theorem C06_unbounded_refuted :
  exists nprocs dims c',
    1 <= nprocs /\ dims <> [] /\ (forall j, (j < length dims)%nat -> 0 < nth j dims 0) /\
    cd_build cd_empty nprocs dims = Ok (true, c') /\
    ~ is_decomp nprocs dims (cd_getDecomp c').
Proof.
  exists 4, [1321; 2501; 1300].
  destruct (cd_build cd_empty 4 [1321; 2501; 1300]) as [[[|] c']|u] eqn:E; vm_compute in E; try discriminate.
  exists c'. split; [lia|]. split; [discriminate|]. split.
  { intros [|[|[|j]]] Hj; simpl in *; lia. }
  split; [reflexivity|]. inversion E. intros (_ & _ & H). vm_compute in H. discriminate.
Qed.
Print Assumptions C06_unbounded_refuted.

(** ** C07: the boxes tile the grid. *)
Definition box_of_rank (c : cube) (rk : Z) (lo hi : list Z) : Prop :=
  exists c1 c2, cd_getBegIndices c rk = Ok (lo, c1) /\ cd_getEndIndices c rk = Ok (hi, c2).

Lemma box_of_rank_of nprocs dims b k rk lo hi :
  grid_ok dims -> nprocs < two31 -> is_decomp nprocs dims b -> 0 <= rk < nprocs ->
  (box_of_rank (cube_of nprocs dims b k) rk lo hi <-> lo = beg_of dims b rk /\ hi = end_of dims b rk).
Proof.
  intros Hg Hn Hd Hrk. unfold box_of_rank.
  rewrite cd_getBegIndices_of, cd_getEndIndices_of by assumption.
  rewrite (u64_id rk) by (unfold two31, two64 in *; lia).
  split.
  - intros (c1 & c2 & E1 & E2). inversion E1; inversion E2; auto.
  - intros [-> ->]. eexists; eexists; split; reflexivity.
Qed.

Theorem C07_tiling :
  forall c nprocs dims c',
    grid_ok dims -> 1 <= nprocs < 2 ^ 31 ->
    cd_build c nprocs dims = Ok (true, c') ->
    (* every rank has a box, contained in the grid *)
    (forall rk, 0 <= rk < nprocs -> exists lo hi, box_of_rank c' rk lo hi /\
       forall g, in_box lo hi g -> in_box (repeat 0 (length dims)) dims g) /\
    (* every cell is in the box of exactly one rank *)
    (forall g, in_box (repeat 0 (length dims)) dims g ->
       exists rk, 0 <= rk < nprocs /\
         (exists lo hi, box_of_rank c' rk lo hi /\ in_box lo hi g) /\
         (forall rk' lo hi, 0 <= rk' < nprocs -> box_of_rank c' rk' lo hi -> in_box lo hi g -> rk' = rk)).
Proof.
  intros c n dims c' Hg Hn H. destruct (cd_build_true c n dims c' Hg Hn H) as (b & Hb & ->).
  assert (Hn' : n < two31) by apply Hn. split.
  - intros rk Hrk. exists (beg_of dims b rk), (end_of dims b rk).
    split; [apply box_of_rank_of; auto|].
    intros g (G1 & G2 & G3). rewrite (beg_of_length n) in G1 by exact Hb.
    split; [rewrite repeat_length; exact G1|]. split; [exact G1|].
    intros j Hj. specialize (G3 j Hj). pose proof (box_in_grid n dims b rk j Hg Hb ltac:(lia)).
    rewrite nth_repeat0. lia.
  - intros g G. pose proof (owner_range n dims b g Hg Hb G) as HO. exists (owner dims b g).
    split; [exact HO|]. split.
    + exists (beg_of dims b (owner dims b g)), (end_of dims b (owner dims b g)).
      split; [apply box_of_rank_of; auto|]. apply (owner_iff n); auto.
    + intros rk' lo hi Hrk' Hbox Hin. apply box_of_rank_of in Hbox as [-> ->]; auto.
      apply (owner_iff n) in Hin; auto.
Qed.
Print Assumptions C07_tiling.

(** ** C08: all boxes have the same shape and the same, non-zero, number of cells. *)
Theorem C08_load_balance :
  forall c nprocs dims c',
    grid_ok dims -> 1 <= nprocs < 2 ^ 31 ->
    cd_build c nprocs dims = Ok (true, c') ->
    forall rk lo hi, 0 <= rk < nprocs -> box_of_rank c' rk lo hi ->
      (forall j, (j < length dims)%nat ->
         nth j hi 0 - nth j lo 0 = nth j dims 0 / nth j (cd_getDecomp c') 0 /\ nth j lo 0 < nth j hi 0) /\
      prodZ (extents lo hi) * nprocs = prodZ dims /\
      Z.of_nat (length (nested_loops true lo hi)) * nprocs = prodZ dims.
Proof.
  intros c n dims c' Hg Hn H rk lo hi Hrk Hbox.
  destruct (cd_build_true c n dims c' Hg Hn H) as (b & Hb & ->).
  apply box_of_rank_of in Hbox as [-> ->]; auto; [|apply Hn].
  assert (Hl : length b = length dims) by apply Hb.
  assert (Hext : extents (beg_of dims b rk) (end_of dims b rk) = local_dims dims b).
  { apply (nth_ext' 0).
    - rewrite extents_length; rewrite (beg_of_length n), ?(end_of_length n) by exact Hb; auto.
      symmetry. apply local_dims_length, Hl.
    - intros j Hj. rewrite extents_length in Hj; rewrite (beg_of_length n), ?(end_of_length n) in * by exact Hb; auto.
      rewrite extents_nth; rewrite ?(beg_of_length n), ?(end_of_length n) by exact Hb; auto.
      rewrite (beg_of_nth n), (end_of_nth n) by auto. ring. }
  split; [|split].
  - intros j Hj. pose proof (box_in_grid n dims b rk j Hg Hb Hj). split; [|lia].
    rewrite (beg_of_nth n), (end_of_nth n) by auto. unfold cd_getDecomp, cube_of; cbn [c_decomp].
    rewrite <- local_dims_nth by auto. ring.
  - rewrite Hext. apply local_dims_prod, Hb.
  - rewrite nested_loops_length.
    + rewrite Hext. apply local_dims_prod, Hb.
    + rewrite (beg_of_length n), (end_of_length n) by exact Hb. reflexivity.
    + intros j Hj. rewrite (beg_of_length n) in Hj by exact Hb.
      pose proof (box_in_grid n dims b rk j Hg Hb Hj). lia.
Qed.
Print Assumptions C08_load_balance.

Example C07_C08_example :
  (r <- cd_build cd_empty 6 ex_dims ;;
   b <- cd_getBegIndices (snd r) 5 ;; e <- cd_getEndIndices (snd r) 5 ;; Ok (fst b, fst e))
  = Ok ([8; 4], [12; 8]).
Proof. vm_compute. reflexivity. Qed.

(** ** C09: the periodic neighbour.  The box of the neighbour is the box of [rk] displaced by [dir] box
    lengths, wrapped around the grid; by C07 this determines the rank. *)
Theorem C09_periodic_neighbour :
  forall c nprocs dims c' rk dir,
    grid_ok dims -> 1 <= nprocs <= 2 ^ 30 ->
    cd_build c nprocs dims = Ok (true, c') ->
    0 <= rk < nprocs -> length dir = length dims ->
    (forall j, (j < length dims)%nat ->
       - nth j (cd_getDecomp c') 0 <= nth j dir 0 <= nth j (cd_getDecomp c') 0) ->
    exists nb c'', cd_getNeighborRank c' rk dir = Ok (nb, c'') /\ 0 <= nb < nprocs /\
      exists lo hi lo' hi', box_of_rank c' rk lo hi /\ box_of_rank c' nb lo' hi' /\
        forall j, (j < length dims)%nat ->
          nth j lo' 0 = (nth j lo 0 + nth j dir 0 * (nth j hi 0 - nth j lo 0)) mod nth j dims 0.
Proof.
  intros c n dims c' rk dir Hg Hn H Hrk Hdir Hsafe.
  change (2 ^ 30) with 1073741824 in Hn.
  assert (Hn1 : 1 <= n < two31) by (unfold two31; lia).
  destruct (cd_build_true c n dims c' Hg Hn1 H) as (b & Hb & ->).
  unfold cd_getDecomp, cube_of in Hsafe; cbn [c_decomp] in Hsafe.
  assert (E64 : u64 rk = rk) by (apply u64_id; unfold two64, two31 in *; lia).
  exists (nb_of b rk dir). eexists. split.
  { rewrite cd_getNeighborRank_of; try assumption.
    - rewrite E64. reflexivity.
    - intros j Hj. specialize (Hsafe j Hj). pose proof (coords_range n dims b (u64 rk) j Hb Hj). lia. }
  pose proof (nb_of_range n dims b rk dir Hb Hdir) as Hnb. split; [exact Hnb|].
  exists (beg_of dims b rk), (end_of dims b rk), (beg_of dims b (nb_of b rk dir)), (end_of dims b (nb_of b rk dir)).
  split; [apply box_of_rank_of; auto; lia|]. split; [apply box_of_rank_of; auto; lia|].
  intros j Hj. rewrite !(beg_of_nth n), (end_of_nth n) by assumption.
  rewrite (coords_nb n dims) by assumption. rewrite (nb_coords_nth n dims) by assumption.
  pose proof (local_dims_mul n dims b j Hb Hj) as E. set (l := nth j (local_dims dims b) 0) in *.
  set (x := nth j (coords b rk) 0). set (d := nth j dir 0). set (m := nth j b 0) in *.
  replace (x * l + d * ((x + 1) * l - x * l)) with ((x + d) * l) by ring.
  rewrite <- E. replace (l * m) with (m * l) by ring.
  pose proof (proj1 (allpos_nth _) (local_dims_pos n dims b Hg Hb) j
                ltac:(rewrite local_dims_length by apply Hb; exact Hj)) as Hlpos. fold l in Hlpos.
  assert (0 < m) by (apply Hb; exact Hj).
  rewrite Zmult_mod_distr_r. reflexivity.
Qed.
Print Assumptions C09_periodic_neighbour.

Example C09_example :
  (r <- cd_build cd_empty 6 ex_dims ;; q <- cd_getNeighborRank (snd r) 0 [-1; 1] ;; Ok (fst q)) = Ok 5.
Proof. vm_compute. reflexivity. Qed.

(** ** C10: the header promises a valid rank for every direction.  True for the directions of C09 (and,
    more precisely, whenever the displaced position is less than one period outside the process grid),
    false in general. *)
Theorem C10_valid_rank_partial :
  forall c nprocs dims c' rk dir,
    grid_ok dims -> 1 <= nprocs <= 2 ^ 30 ->
    cd_build c nprocs dims = Ok (true, c') ->
    0 <= rk < nprocs -> length dir = length dims ->
    (forall j, (j < length dims)%nat ->
       - nth j (cd_getDecomp c') 0 <= nth j dir 0 <= nth j (cd_getDecomp c') 0) ->
    exists nb c'', cd_getNeighborRank c' rk dir = Ok (nb, c'') /\ 0 <= nb < nprocs.
Proof.
  intros c n dims c' rk dir Hg Hn H Hrk Hdir Hsafe.
  destruct (C09_periodic_neighbour c n dims c' rk dir Hg Hn H Hrk Hdir Hsafe) as (nb & c'' & E & R & _).
  exists nb, c''. split; assumption.
Qed.
Print Assumptions C10_valid_rank_partial.

Theorem C10_valid_rank_refuted :
  exists c' nprocs dims rk dir nb c'',
    grid_ok dims /\ 1 <= nprocs <= 2 ^ 30 /\ cd_build cd_empty nprocs dims = Ok (true, c') /\
    0 <= rk < nprocs /\ length dir = length dims /\
    cd_getNeighborRank c' rk dir = Ok (nb, c'') /\ ~ (0 <= nb < nprocs).
Proof.
  destruct (cd_build cd_empty 2 [4]) as [[[|] c']|u] eqn:E; vm_compute in E; try discriminate.
  exists c', 2, [4], 0, [5].
  destruct (cd_getNeighborRank c' 0 [5]) as [[nb c'']|u] eqn:E2; inversion E; subst c'; vm_compute in E2; [|discriminate].
  exists nb, c''. inversion E2; subst nb.
  split. { split; [discriminate|]. split; [simpl; lia|]. split; [|reflexivity]. intros [|j] Hj; simpl in *; lia. }
  split; [split; [discriminate|vm_compute; discriminate]|]. split; [reflexivity|].
  split; [split; [discriminate|reflexivity]|]. split; [reflexivity|]. split; [reflexivity|].
  intros [_ H]. vm_compute in H. discriminate.
Qed.
Print Assumptions C10_valid_rank_refuted.

(** ** C11: symmetry. *)
Theorem C11_neighbour_symmetric :
  forall c nprocs dims c' rk dir,
    grid_ok dims -> 1 <= nprocs <= 2 ^ 30 ->
    cd_build c nprocs dims = Ok (true, c') ->
    0 <= rk < nprocs -> length dir = length dims ->
    (forall j, (j < length dims)%nat ->
       - nth j (cd_getDecomp c') 0 <= nth j dir 0 <= nth j (cd_getDecomp c') 0) ->
    exists nb c1 c2, cd_getNeighborRank c' rk dir = Ok (nb, c1) /\
      cd_getNeighborRank c1 nb (map Z.opp dir) = Ok (rk, c2).
Proof.
  intros c n dims c' rk dir Hg Hn H Hrk Hdir Hsafe.
  change (2 ^ 30) with 1073741824 in Hn.
  assert (Hn1 : 1 <= n < two31) by (unfold two31; lia).
  destruct (cd_build_true c n dims c' Hg Hn1 H) as (b & Hb & ->).
  unfold cd_getDecomp, cube_of in Hsafe; cbn [c_decomp] in Hsafe.
  assert (E64 : u64 rk = rk) by (apply u64_id; unfold two64, two31 in *; lia).
  pose proof (nb_of_range n dims b rk dir Hb Hdir) as Hnb.
  assert (E64' : u64 (nb_of b rk dir) = nb_of b rk dir) by (apply u64_id; unfold two64, two31 in *; lia).
  assert (Hop : forall j, nth j (map Z.opp dir) 0 = - nth j dir 0).
  { intros j. change 0 with (Z.opp 0) at 1. apply map_nth. }
  exists (nb_of b rk dir). eexists. eexists. split.
  { rewrite cd_getNeighborRank_of; try assumption.
    - rewrite E64. reflexivity.
    - intros j Hj. specialize (Hsafe j Hj). pose proof (coords_range n dims b (u64 rk) j Hb Hj). lia. }
  rewrite cd_getNeighborRank_of; try assumption.
  - rewrite E64'. f_equal. f_equal.
    assert (Hdir' : length (map Z.opp dir) = length dims) by (rewrite map_length; exact Hdir).
    apply (coords_inj n dims b); [exact Hb|apply nb_of_range with (dims := dims); assumption|exact Hrk|].
    rewrite (coords_nb n dims) by assumption.
    apply (nth_ext' 0).
    + rewrite (proj1 (nb_coords_digit_vec n dims b (nb_of b rk dir) (map Z.opp dir) Hb Hdir')).
      unfold coords. rewrite digits_length. reflexivity.
    + intros j Hj.
      rewrite (proj1 (nb_coords_digit_vec n dims b (nb_of b rk dir) (map Z.opp dir) Hb Hdir')) in Hj.
      assert (Hj' : (j < length dims)%nat) by (destruct Hb as (<- & _); exact Hj).
      rewrite (nb_coords_nth n dims) by assumption. rewrite Hop.
      rewrite (coords_nb n dims) by assumption. rewrite (nb_coords_nth n dims) by assumption.
      pose proof (coords_range n dims b rk j Hb Hj') as R.
      rewrite Zplus_mod_idemp_l. replace (nth j (coords b rk) 0 + nth j dir 0 + - nth j dir 0) with (nth j (coords b rk) 0) by ring.
      apply Z.mod_small. exact R.
  - rewrite map_length. exact Hdir.
  - intros j Hj. specialize (Hsafe j Hj). rewrite Hop.
    pose proof (coords_range n dims b (u64 (nb_of b rk dir)) j Hb Hj). lia.
Qed.
Print Assumptions C11_neighbour_symmetric.

(** For a fixed direction no two ranks have the same neighbour. *)
Theorem C11_neighbour_injective :
  forall c nprocs dims c' rk rk' dir nb c1 c2,
    grid_ok dims -> 1 <= nprocs <= 2 ^ 30 ->
    cd_build c nprocs dims = Ok (true, c') ->
    0 <= rk < nprocs -> 0 <= rk' < nprocs -> length dir = length dims ->
    (forall j, (j < length dims)%nat ->
       - nth j (cd_getDecomp c') 0 <= nth j dir 0 <= nth j (cd_getDecomp c') 0) ->
    cd_getNeighborRank c' rk dir = Ok (nb, c1) -> cd_getNeighborRank c' rk' dir = Ok (nb, c2) -> rk = rk'.
Proof.
  intros c n dims c' rk rk' dir nb c1 c2 Hg Hn H Hrk Hrk' Hdir Hsafe N1 N2.
  assert (Hn1 : 1 <= n < two31) by (change (2 ^ 30) with 1073741824 in Hn; unfold two31; lia).
  destruct (cd_build_true c n dims c' Hg Hn1 H) as (b & Hb & ->).
  unfold cd_getDecomp, cube_of in Hsafe; cbn [c_decomp] in Hsafe.
  assert (S1 : forall r, forall j, (j < length dims)%nat ->
     - nth j b 0 <= nth j (coords b (u64 r)) 0 + nth j dir 0 < 2 * nth j b 0).
  { intros r j Hj. specialize (Hsafe j Hj). pose proof (coords_range n dims b (u64 r) j Hb Hj). lia. }
  rewrite cd_getNeighborRank_of in N1, N2 by (try assumption; apply S1).
  rewrite u64_id in N1 by (unfold two64, two31 in *; lia).
  rewrite u64_id in N2 by (unfold two64, two31 in *; lia).
  assert (E1 : nb_of b rk dir = nb_of b rk' dir) by congruence.
  assert (EC : nb_coords b rk dir = nb_coords b rk' dir).
  { rewrite <- (coords_nb n dims b rk dir Hb Hdir), <- (coords_nb n dims b rk' dir Hb Hdir), E1. reflexivity. }
  apply (coords_inj n dims b); auto.
  apply (nth_ext' 0).
  - rewrite !(coords_length n dims) by exact Hb. reflexivity.
  - intros j Hj. rewrite (coords_length n dims) in Hj by exact Hb.
    pose proof (f_equal (fun l => nth j l 0) EC) as E. cbv beta in E.
    rewrite !(nb_coords_nth n dims) in E by assumption.
    pose proof (coords_range n dims b rk j Hb Hj) as R. pose proof (coords_range n dims b rk' j Hb Hj) as R'.
    set (x := nth j (coords b rk) 0) in *. set (y := nth j (coords b rk') 0) in *.
    set (d := nth j dir 0) in *. set (m := nth j b 0) in *.
    rewrite <- (Z.mod_small x m R), <- (Z.mod_small y m R').
    replace x with ((x + d) - d) by ring. replace y with ((y + d) - d) by ring.
    rewrite <- (Zminus_mod_idemp_l (x + d)), <- (Zminus_mod_idemp_l (y + d)), E. reflexivity.
Qed.
Print Assumptions C11_neighbour_injective.

(** ** C12: histories of queries. *)
Inductive query : Type :=
| QBeg (rk : Z) | QEnd (rk : Z) | QNeighbour (rk : Z) (dir : list Z) | QDecomp.

Definition ask (c : cube) (q : query) : res ((list Z + Z) * cube) :=
  match q with
  | QBeg rk => ' (v, c') <- cd_getBegIndices c rk ;; Ok (inl v, c')
  | QEnd rk => ' (v, c') <- cd_getEndIndices c rk ;; Ok (inl v, c')
  | QNeighbour rk dir => ' (n, c') <- cd_getNeighborRank c rk dir ;; Ok (inr n, c')
  | QDecomp => Ok (inl (cd_getDecomp c), c)
  end.

Definition answer (c : cube) (q : query) : res (list Z + Z) := r <- ask c q ;; Ok (fst r).

Lemma cd_getNeighborRank_hist nprocs dims b k k' rk dir :
  cd_getNeighborRank (cube_of nprocs dims b k) rk dir = cd_getNeighborRank (cube_of nprocs dims b k') rk dir.
Proof. reflexivity. Qed.

Theorem C12_history_independent :
  forall c nprocs dims c' hist c'' q,
    grid_ok dims -> 1 <= nprocs < 2 ^ 31 ->
    cd_build c nprocs dims = Ok (true, c') ->
    for_each hist (fun q c => r <- ask c q ;; Ok (snd r)) c' = Ok c'' ->
    answer c'' q = answer c' q.
Proof.
  intros c n dims c' hist c'' q Hg Hn H Hh.
  destruct (cd_build_true c n dims c' Hg Hn H) as (b & Hb & ->).
  assert (S : forall k q c2, (r <- ask (cube_of n dims b k) q ;; Ok (snd r)) = Ok c2 -> exists k2, c2 = cube_of n dims b k2).
  { clear Hh. intros k [rk|rk|rk dir|] c2 E; cbn [ask] in E.
    - rewrite cd_getBegIndices_of in E by (try assumption; apply Hn). inversion E. eauto.
    - rewrite cd_getEndIndices_of in E by (try assumption; apply Hn). inversion E. eauto.
    - unfold cd_getNeighborRank in E. rewrite cd_moveTo_of in E by (try assumption; apply Hn). cbn [bind] in E.
      destruct (tabulate _ _) in E; cbn [bind] in E; [|discriminate].
      unfold cube_of at 1 in E. cbn [c_mit] in E.
      destruct (mai_computeBigIndex_int _ _) in E; cbn [bind] in E; [|discriminate]. inversion E. exists (u64 rk). reflexivity.
    - inversion E. eauto. }
  assert (G : exists k, c'' = cube_of n dims b k).
  { revert Hh. generalize 0. induction hist as [|h hist IH]; intros k Hh; cbn [for_each] in Hh.
    - inversion Hh. eauto.
    - apply bind_ok in Hh as (c1 & E1 & Hh). apply S in E1 as (k1 & ->). apply (IH k1 Hh). }
  destruct G as (k & ->). destruct q as [rk|rk|rk dir|]; reflexivity.
Qed.
Print Assumptions C12_history_independent.

Example C12_example :
  (r <- cd_build cd_empty 6 ex_dims ;;
   c <- for_each [QEnd 3; QNeighbour 2 [1; 0]; QDecomp; QBeg 4] (fun q c => r <- ask c q ;; Ok (snd r)) (snd r) ;;
   answer c (QBeg 5)) = Ok (inl [8; 4]).
Proof. vm_compute. reflexivity. Qed.

(** ** C13: optimality. *)
Theorem C13_optimal_refuted :
  exists nprocs dims c' d,
    grid_ok dims /\ 1 <= nprocs < 2 ^ 31 /\ cd_build cd_empty nprocs dims = Ok (true, c') /\
    is_decomp nprocs dims d /\
    ~ ratio_le (local_dims dims (cd_getDecomp c')) (local_dims dims d).
Proof.
  destruct (cd_build cd_empty 2 [8; 2]) as [[[|] c']|u] eqn:E; vm_compute in E; try discriminate.
  exists 2, [8; 2], c', [2; 1].
  split. { split; [discriminate|]. split; [simpl; lia|]. split; [|reflexivity]. intros [|[|j]] Hj; simpl in *; lia. }
  split; [split; [discriminate|reflexivity]|]. split; [rewrite <- E; vm_compute; reflexivity|]. split.
  { split; [reflexivity|]. split; [|reflexivity].
    intros [|[|j]] Hj; simpl in *; (split; [lia|]); [exists 4; reflexivity|exists 2; reflexivity|lia]. }
  inversion E. unfold ratio_le. vm_compute. intros H. apply H. reflexivity.
Qed.
Print Assumptions C13_optimal_refuted.

(** What does hold: at most one valid decomposition (the first one enumerated) can beat the answer. *)
Theorem C13_optimal_but_one_partial :
  forall c nprocs dims c',
    grid_ok dims -> 1 <= nprocs < 2 ^ 31 ->
    cd_build c nprocs dims = Ok (true, c') ->
    exists d0, is_decomp nprocs dims d0 /\
      forall d, is_decomp nprocs dims d -> d <> d0 ->
        ratio_le (local_dims dims (cd_getDecomp c')) (local_dims dims d).
Proof.
  intros c n dims c' Hg Hn H. rewrite cd_build_eq in H by assumption.
  assert (HV : forall d, In d (decomps n dims) <-> is_decomp n dims d) by (intros; apply in_decomps; exact Hg).
  destruct (decomps n dims) as [|v0 t] eqn:E; [discriminate|]. inversion H; subst c'.
  unfold cd_getDecomp, cube_of; cbn [c_decomp].
  exists v0. split; [apply HV; left; reflexivity|]. intros d Hd Hne.
  assert (Hin : In d t) by (apply HV in Hd as [Hd|Hd]; [congruence|exact Hd]).
  assert (Ht : t <> []) by (destruct t; [destruct Hin|discriminate]).
  destruct (best_of_tail n dims v0 t Hg ltac:(lia) (fun d => proj1 (HV d)) Ht) as [Hb Hmin].
  specialize (Hmin d Hin). unfold ratio_le.
  rewrite (same_volume n dims d (best_of dims (v0 :: t))) by (try assumption; solve [lia | apply HV; right; assumption]).
  apply Z.mul_le_mono_nonneg_r; [|exact Hmin].
  assert (Hd' : is_decomp n dims (best_of dims (v0 :: t))) by (apply HV; right; exact Hb).
  destruct (local_facts n dims _ Hg (proj1 Hn) Hd') as [_ [P _]]. apply Z.lt_le_incl, P.
Qed.
Print Assumptions C13_optimal_but_one_partial.

(** ** C14: all extents equal. *)
Theorem C14_cubic_optimal :
  forall c nprocs n m c' d,
    grid_ok (repeat n m) -> 1 <= nprocs < 2 ^ 31 ->
    cd_build c nprocs (repeat n m) = Ok (true, c') ->
    is_decomp nprocs (repeat n m) d ->
    ratio_le (local_dims (repeat n m) (cd_getDecomp c')) (local_dims (repeat n m) d).
Proof.
  intros c p n m c' d Hg Hn H Hd. pose proof (cubic_optimal p n m d Hg ltac:(lia) Hd) as Hmin. cbv zeta in Hmin.
  rewrite cd_build_eq in H by assumption.
  assert (HV : forall d, In d (decomps p (repeat n m)) <-> is_decomp p (repeat n m) d) by (intros; apply in_decomps; exact Hg).
  destruct (decomps p (repeat n m)) as [|v0 t] eqn:E; [discriminate|]. rewrite <- E in *. inversion H; subst c'.
  assert (Hb : is_decomp p (repeat n m) (best_of (repeat n m) (decomps p (repeat n m)))).
  { apply HV, best_of_in. rewrite E. discriminate. }
  unfold cd_getDecomp, cube_of; cbn [c_decomp]. unfold ratio_le.
  rewrite (same_volume p (repeat n m) d (best_of (repeat n m) (decomps p (repeat n m)))) by (try assumption; lia).
  apply Z.mul_le_mono_nonneg_r; [|exact Hmin].
  destruct (local_facts p _ _ Hg (proj1 Hn) Hb) as [_ [P _]]. apply Z.lt_le_incl, P.
Qed.
Print Assumptions C14_cubic_optimal.

Example C14_example :
  (r <- cd_build cd_empty 12 (repeat 12 3) ;; Ok (c_decomp (snd r))) = Ok [3; 2; 2] /\
  half_surface (local_dims (repeat 12 3) [3; 2; 2]) = 84 /\
  half_surface (local_dims (repeat 12 3) [12; 1; 1]) = 168.
Proof. repeat split; vm_compute; reflexivity. Qed.

(** ** C15: candidate counts are the divisors. *)
Theorem C15_divisors :
  forall n, 1 <= n < 2 ^ 64 ->
    (forall d, In d (cd_getPrimeFactors n) <-> 0 < d /\ (d | n)) /\
    StronglySorted Z.le (cd_getPrimeFactors n) /\
    (2 <= n -> NoDup (cd_getPrimeFactors n)).
Proof.
  intros n Hn. change (2 ^ 64) with two64 in Hn. split; [|split].
  - intros d. apply in_getPrimeFactors. lia.
  - apply getPrimeFactors_sorted_le. lia.
  - intros H2. pose proof (getPrimeFactors_sorted n ltac:(lia)) as H.
    induction H as [|x l H IH Hx]; constructor; auto.
    intros Hin. rewrite Forall_forall in Hx. specialize (Hx x Hin). lia.
Qed.
Print Assumptions C15_divisors.

Example C15_example : cd_getPrimeFactors 60 = [1; 2; 3; 4; 5; 6; 10; 12; 15; 20; 30; 60].
Proof. reflexivity. Qed.

(** ** C16: an object whose build failed. *)
Theorem C16_failed_build_unusable :
  forall nprocs dims c',
    cd_build cd_empty nprocs dims = Ok (false, c') ->
    cd_getDecomp c' = [] /\
    forall rk dir,
      cd_getBegIndices c' rk = Undef UninitRead /\
      cd_getEndIndices c' rk = Undef UninitRead /\
      cd_getNeighborRank c' rk dir = Undef UninitRead.
Proof.
  intros n dims c' H. unfold cd_build in H. apply bind_ok in H as ([omit d] & Ed & H).
  destruct (vlen d =? 0) eqn:E0.
  - inversion H; subst c'. unfold cd_getDecomp; cbn [c_decomp].
    assert (d = []) as -> by (destruct d; [reflexivity|apply Z.eqb_eq in E0; unfold vlen in E0; simpl in E0; lia]).
    split; [reflexivity|]. intros rk dir. repeat split.
  - apply bind_ok in H as (l & _ & H). discriminate.
Qed.
Print Assumptions C16_failed_build_unusable.

(** The two-argument constructor produces such an object silently. *)
Theorem C16_constructor_hides_failure :
  forall nprocs dims,
    grid_ok dims -> 1 <= nprocs < 2 ^ 31 -> (forall d, ~ is_decomp nprocs dims d) ->
    exists c, cd_new nprocs dims = Ok c /\ cd_getDecomp c = [] /\
      forall rk, cd_getBegIndices c rk = Undef UninitRead.
Proof.
  intros n dims Hg Hn Hno. unfold cd_new. rewrite cd_build_eq by assumption.
  destruct (decomps n dims) as [|v0 t] eqn:E.
  - cbn [bind]. eexists. split; [reflexivity|]. split; [reflexivity|]. intros rk. reflexivity.
  - exfalso. apply (Hno v0). apply (in_decomps n dims v0 Hg). rewrite E. left; reflexivity.
Qed.
Print Assumptions C16_constructor_hides_failure.

Example C16_example :
  (c <- cd_new 7 [8; 8] ;; Ok (cd_getDecomp c, cd_getBegIndices c 0)) = Ok ([], Undef UninitRead).
Proof. vm_compute. reflexivity. Qed.

(** After a failed re-build the answers of the previous build are still given out. *)
Example C16_stale_answers :
  (r <- cd_build cd_empty 2 [4] ;; r' <- cd_build (snd r) 3 [4] ;;
   b <- cd_getBegIndices (snd r') 1 ;; Ok (fst r', fst b)) = Ok (false, [2]).
Proof. vm_compute. reflexivity. Qed.
