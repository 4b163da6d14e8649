(** * Property C53: the files written by writeVTK *)
From Coq Require Import Reals Lra QArith.
From Verif Require Import Cpp CppProof MaiModel MaiSpec Radix MaiProof CdModel CdSpec CdProof FilterModel FilterSpec FilterProof FilterProg FilterProps RealArith
  AccProof UpProof UpProps VtkModel VtkSpec.
From Coq Require Import List.
Import ListNotations.
Local Open Scope Z_scope.
Local Arguments prodZ : simpl never.
Local Arguments Z.of_nat : simpl never.

(** What writeVTK is given: at most three axes, none empty, fewer than 2^64 nodes. *)
Definition vtk_args {D} (dims : list Z) (xmins xmaxs : list D) : Prop :=
  (length dims <= 3)%nat /\ length xmins = length dims /\ length xmaxs = length dims /\
  (forall j, (j < length dims)%nat -> 0 < nth j dims 0) /\ prodZ (file_dims dims) < 2 ^ 64.

Lemma prod3 a b c : prodZ [a; b; c] = a * b * c.
Proof. rewrite !prodZ_cons. change (prodZ []) with 1. ring. Qed.

Lemma good3 a b c : 0 < a -> 0 < b -> 0 < c -> a * b * c < 2 ^ 64 -> good_box [0; 0; 0] [a; b; c].
Proof.
  intros Ha Hb Hc H. split; [|split].
  - split; [reflexivity|]. split; [discriminate|]. split; [simpl; lia|]. assert (0 < a * b) by nia.
    intros [|[|[|j]]] Hj; cbn [nth length] in *; try lia; nia.
  - intros [|[|[|j]]] Hj; cbn [nth length] in *; lia.
  - unfold extents. cbn [combine map fst snd]. rewrite !Z.sub_0_r, prod3. exact H.
Qed.

Lemma extents3 a b c : extents [0; 0; 0] [a; b; c] = [a; b; c].
Proof. unfold extents. cbn [combine map fst snd]. rewrite !Z.sub_0_r. reflexivity. Qed.

Lemma append_loop {A B} (h : A -> res B) (k : A -> B) l : forall acc, (forall a, In a l -> h a = Ok (k a)) ->
  for_each l (fun a acc => b <- h a ;; Ok (acc ++ [b])) acc = Ok (acc ++ map k l).
Proof.
  induction l as [|x l IH]; intros acc H; cbn [for_each map]; [rewrite app_nil_r; reflexivity|].
  rewrite H by (left; reflexivity). cbn [bind]. rewrite IH by (intros a Ha; apply H; right; exact Ha). rewrite <- app_assoc. reflexivity.
Qed.

Lemma values_loop {D} (field : list D) n : forall k (it : mai), (k + n <= length field)%nat ->
  exists it', for_from k n (fun i '(fit, values) => v <- vget field i ;; Ok (mai_next fit, values ++ [v])) (it, firstn k field) = Ok (it', firstn (k + n) field).
Proof.
  induction n as [|n IH]; intros k it Hk; [rewrite Nat.add_0_r; eexists; reflexivity|].
  cbn [for_from]. destruct field as [|d field']; [simpl in Hk; lia|]. set (f := d :: field') in *.
  rewrite (vget_nat f k d) by lia. cbn [bind]. rewrite <- firstn_S_nth by lia.
  replace (k + S n)%nat with (S k + n)%nat by lia. apply IH. lia.
Qed.

Section Write.
  Context {D : Type} (ar : arith D).

  Lemma vtk_coord_eq (xLo xHi : list D) cellDims inds j : (j < 3)%nat -> length xLo = 3%nat -> length xHi = 3%nat -> length cellDims = 3%nat -> length inds = 3%nat ->
    vtk_coord ar xLo xHi cellDims inds (Z.of_nat j) = Ok (node ar (nth j xLo (a_zero ar)) (nth j xHi (a_zero ar)) (nth j cellDims 0) (nth j inds 0)).
  Proof.
    intros Hj L1 L2 L3 L4. unfold vtk_coord. rewrite (vget_nat xLo j (a_zero ar)) by lia. cbn [bind]. rewrite (vget_nat xHi j (a_zero ar)) by lia. cbn [bind].
    rewrite (vget_nat inds j 0) by lia. cbn [bind]. rewrite (vget_nat cellDims j 0) by lia. reflexivity.
  Qed.

  (** The file, from the padded arguments. *)
  Lemma write_eq (xLo xHi : list D) (cellDims nodeDims : list Z) (field : list D) : length xLo = 3%nat -> length xHi = 3%nat ->
    (exists nx ny nz, cellDims = [nx; ny; nz] /\ nodeDims = [nx + 1; ny + 1; nz + 1] /\ 0 < nx /\ 0 < ny /\ 0 < nz /\ (nx + 1) * (ny + 1) * (nz + 1) < 2 ^ 64) ->
    (pit <- mai_build [0; 0; 0] nodeDims false ;;
    ' (_, points) <- for_upto (mai_getNumberOfTerms pit) (fun _ '(pit, points) =>
        inds <- mai_getIndices pit ;;
        x <- vtk_coord ar xLo xHi cellDims inds 0 ;;
        y <- vtk_coord ar xLo xHi cellDims inds 1 ;;
        z <- vtk_coord ar xLo xHi cellDims inds 2 ;;
        Ok (mai_next pit, points ++ [[x; y; z]])) (pit, []) ;;
    fit <- mai_build [0; 0; 0] cellDims false ;;
    ' (_, values) <- for_upto (mai_getNumberOfTerms fit) (fun i '(fit, values) =>
        v <- vget field i ;; Ok (mai_next fit, values ++ [v])) (fit, []) ;;
    Ok (points, values)) =
    if vlen field <? prodZ cellDims then Undef OobRead else
    Ok (map (fun g => map (fun j => node ar (nth j xLo (a_zero ar)) (nth j xHi (a_zero ar)) (nth j cellDims 0) (nth j g 0)) [0; 1; 2]%nat)
            (col_major [0; 0; 0] nodeDims), firstn (Z.to_nat (prodZ cellDims)) field).
  Proof.
    intros L1 L2 (nx & ny & nz & -> & -> & Hx & Hy & Hz & Hp).
    assert (G1 : good_box [0; 0; 0] [nx + 1; ny + 1; nz + 1]) by (apply good3; lia).
    assert (G2 : good_box [0; 0; 0] [nx; ny; nz]) by (apply good3; try lia; nia).
    rewrite (mai_build_good _ _ false G1). cbn [bind]. unfold mai_getNumberOfTerms at 1. cbn [mai_of m_ntot].
    change (mkMai [0; 0; 0] [nx + 1; ny + 1; nz + 1] (extents [0; 0; 0] [nx + 1; ny + 1; nz + 1]) (strd false (extents [0; 0; 0] [nx + 1; ny + 1; nz + 1])) false
      (prodZ (extents [0; 0; 0] [nx + 1; ny + 1; nz + 1])) (vlen [0; 0; 0]) 0) with (mai_of [0; 0; 0] [nx + 1; ny + 1; nz + 1] false 0).
    rewrite (mai_loop (fun inds points => p <- (x <- vtk_coord ar xLo xHi [nx; ny; nz] inds 0 ;; y <- vtk_coord ar xLo xHi [nx; ny; nz] inds 1 ;;
       z <- vtk_coord ar xLo xHi [nx; ny; nz] inds 2 ;; Ok [x; y; z]) ;; Ok (points ++ [p])) _ _ _ false [] G1).
    2:{ intros k it s. unfold mai_loop_body. destruct (mai_getIndices it) as [inds|]; cbn [bind]; [|reflexivity].
        destruct (vtk_coord _ _ _ _ _ 0) as [x|]; cbn [bind]; [|reflexivity]. destruct (vtk_coord _ _ _ _ _ 1) as [y|]; cbn [bind]; [|reflexivity].
        destruct (vtk_coord _ _ _ _ _ 2) as [z|]; cbn [bind]; reflexivity. }
    rewrite (append_loop _ (fun g => map (fun j => node ar (nth j xLo (a_zero ar)) (nth j xHi (a_zero ar)) (nth j [nx; ny; nz] 0) (nth j g 0)) [0; 1; 2]%nat)).
    2:{ intros g Hg. apply in_nested_loops in Hg; [|reflexivity]. destruct Hg as (Lg & _). cbn [length] in Lg.
        change 0 with (Z.of_nat 0) at 1. change 1 with (Z.of_nat 1) at 1. change 2 with (Z.of_nat 2) at 1.
        rewrite !vtk_coord_eq by (auto; lia). reflexivity. }
    cbn [bind]. rewrite app_nil_l. rewrite (mai_build_good _ _ false G2). cbn [bind].
    unfold mai_getNumberOfTerms. cbn [mai_of m_ntot]. rewrite extents3. set (N := prodZ [nx; ny; nz]).
    assert (HN : 0 < N) by (unfold N; rewrite prod3; nia).
    match goal with |- context [for_upto N ?bd ?s] => set (body := bd); set (s0 := s) end.
    assert (HL : forall n, (n <= length field)%nat -> exists it, for_from 0 n body s0 = Ok (it, firstn n field))
      by (intros n Hn; exact (values_loop field n 0 _ Hn)).
    destruct (vlen field <? N) eqn:E.
    - unfold vlen in *. unfold for_upto. replace (Z.to_nat N) with (length field + S (Z.to_nat N - length field - 1))%nat by lia.
      rewrite for_from_app. destruct (HL (length field) (le_n _)) as (it & ->). cbn [bind for_from]. unfold body at 1.
      replace (vget field (Z.of_nat (0 + length field))) with (@Undef D OobRead); [reflexivity|].
      unfold vget, vlen. rewrite Nat.add_0_l. destruct (Z.leb_spec 0 (Z.of_nat (length field))); [|lia].
      destruct (Z.ltb_spec (Z.of_nat (length field)) (Z.of_nat (length field))); [lia|]. reflexivity.
    - unfold vlen in *. unfold for_upto. destruct (HL (Z.to_nat N) ltac:(lia)) as (it & ->). cbn [bind].
      reflexivity.
  Qed.
End Write.

Lemma setAxis_in {D} (ar : arith D) dims (xmins xmaxs : list D) j xLo xHi nd cd : (j < length dims)%nat ->
  length xmins = length dims -> length xmaxs = length dims -> (length dims <= 3)%nat -> length xLo = 3%nat -> length xHi = 3%nat -> length nd = 3%nat -> length cd = 3%nat ->
  vtk_setAxis dims xmins xmaxs (Z.of_nat j) (xLo, xHi, nd, cd) =
  Ok (nth j dims 0, u64 (nth j dims 0 + 1), (upd xLo j (nth j xmins (a_zero ar)), upd xHi j (nth j xmaxs (a_zero ar)), upd nd j (u64 (nth j dims 0 + 1)), upd cd j (nth j dims 0))).
Proof.
  intros Hj H1 H2 Hl L1 L2 L3 L4. unfold vtk_setAxis, vlen. destruct (Z.ltb_spec (Z.of_nat j) (Z.of_nat (length dims))); [|lia].
  rewrite (vget_nat dims j 0) by lia. cbn [bind]. rewrite (vget_nat xmins j (a_zero ar)) by lia. cbn [bind]. rewrite vset_nat by lia. cbn [bind].
  rewrite (vget_nat xmaxs j (a_zero ar)) by lia. cbn [bind]. rewrite vset_nat by lia. cbn [bind]. rewrite vset_nat by lia. cbn [bind].
  rewrite vset_nat by lia. reflexivity.
Qed.
Lemma setAxis_out {D} dims (xmins xmaxs : list D) j s : (length dims <= j)%nat -> vtk_setAxis dims xmins xmaxs (Z.of_nat j) s = Ok (1, 2, s).
Proof.
  intros Hj. unfold vtk_setAxis, vlen. destruct s as [[[? ?] ?] ?]. destruct (Z.ltb_spec (Z.of_nat j) (Z.of_nat (length dims))); [lia|]. reflexivity.
Qed.

Lemma settings {D} (ar : arith D) dims (xmins xmaxs : list D) : vtk_args dims xmins xmaxs ->
  exists nx ny nz s1 s2,
    vtk_setAxis dims xmins xmaxs 0 (repeat (a_dec ar 0 1) 3, repeat (a_dec ar 10 1) 3, [2; 2; 2], [1; 1; 1]) = Ok (nx, u64 (nx + 1), s1) /\
    vtk_setAxis dims xmins xmaxs 1 s1 = Ok (ny, u64 (ny + 1), s2) /\
    vtk_setAxis dims xmins xmaxs 2 s2 = Ok (nz, u64 (nz + 1),
      (pad3 (a_dec ar 0 1) xmins, pad3 (a_dec ar 10 1) xmaxs, [u64 (nx + 1); u64 (ny + 1); u64 (nz + 1)], pad3 1 dims)) /\
    pad3 1 dims = [nx; ny; nz].
Proof.
  intros (Hl & L0 & L1 & _). exists (nth 0 dims 1), (nth 1 dims 1), (nth 2 dims 1).
  pose proof (setAxis_in ar dims xmins xmaxs) as HI. pose proof (setAxis_out dims xmins xmaxs) as HO. cbn [repeat].
  change (vtk_setAxis dims xmins xmaxs 0) with (vtk_setAxis dims xmins xmaxs (Z.of_nat 0)).
  change (vtk_setAxis dims xmins xmaxs 1) with (vtk_setAxis dims xmins xmaxs (Z.of_nat 1)).
  change (vtk_setAxis dims xmins xmaxs 2) with (vtk_setAxis dims xmins xmaxs (Z.of_nat 2)).
  destruct dims as [|a [|b [|c [|? ?]]]]; try (simpl in Hl; lia);
    (destruct xmins as [|x0 [|x1 [|x2 [|? ?]]]]; try discriminate L0); (destruct xmaxs as [|y0 [|y1 [|y2 [|? ?]]]]; try discriminate L1); cbn [length] in *;
    eexists _, _; (split; [first [rewrite HO by lia; reflexivity|rewrite HI by (auto; lia); reflexivity]|]); cbn [upd nth];
    (split; [first [rewrite HO by lia; reflexivity|rewrite HI by (auto; lia); reflexivity]|]); cbn [upd nth];
    (split; [first [rewrite HO by lia; reflexivity|rewrite HI by (auto; lia); reflexivity]|]); reflexivity.
Qed.

Lemma write_whole {D} (ar : arith D) dims (xmins xmaxs field : list D) : vtk_args dims xmins xmaxs ->
  writeVTK ar dims xmins xmaxs field =
  if vlen field <? prodZ dims then Undef OobRead else
  Ok (Some (mkVtk (file_dims dims) (prodZ (file_dims dims)) (map (grid_point ar dims xmins xmaxs) (col_major [0; 0; 0] (file_dims dims)))
    (prodZ dims) (firstn (Z.to_nat (prodZ dims)) field))).
Proof.
  intros (Hl & L0 & L1 & Hpos & Hp).
  assert (Ec : prodZ (pad3 1 dims) = prodZ dims).
  { destruct dims as [|a [|b [|c [|? ?]]]]; try (simpl in Hl; lia); unfold pad3; cbn [nth]; rewrite ?prodZ_cons; change (prodZ []) with 1; ring. }
  assert (HG : exists nx ny nz, pad3 1 dims = [nx; ny; nz] /\ file_dims dims = [nx + 1; ny + 1; nz + 1] /\ 0 < nx /\ 0 < ny /\ 0 < nz /\ (nx + 1) * (ny + 1) * (nz + 1) < 2 ^ 64).
  { exists (nth 0 dims 1), (nth 1 dims 1), (nth 2 dims 1). split; [reflexivity|]. split; [reflexivity|].
    assert (HH : forall j, 0 < nth j dims 1).
    { intros j. destruct (Nat.lt_ge_cases j (length dims)) as [H|H]; [rewrite (nth_indep _ 1 0) by exact H; apply Hpos, H|rewrite nth_overflow by exact H; lia]. }
    split; [apply HH|]. split; [apply HH|]. split; [apply HH|]. unfold file_dims, pad3 in Hp. cbn [map] in Hp. rewrite prod3 in Hp. exact Hp. }
  pose proof (write_eq ar (pad3 (a_dec ar 0 1) xmins) (pad3 (a_dec ar 10 1) xmaxs) (pad3 1 dims) (file_dims dims) field eq_refl eq_refl HG) as W.
  change (map (fun g => map (fun j => node ar _ _ _ _) [0; 1; 2]%nat) (col_major [0; 0; 0] (file_dims dims)))
    with (map (grid_point ar dims xmins xmaxs) (col_major [0; 0; 0] (file_dims dims))) in W.
  rewrite Ec in W.
  assert (K : forall (b : bool) (rest : res (list (list D) * list D)),
     rest = (if b then Undef OobRead else Ok (map (grid_point ar dims xmins xmaxs) (col_major [0; 0; 0] (file_dims dims)), firstn (Z.to_nat (prodZ dims)) field)) ->
     (p <- rest ;; Ok (Some (mkVtk (file_dims dims) (prodZ (file_dims dims)) (fst p) (prodZ dims) (snd p)))) =
     if b then Undef OobRead else
  Ok (Some (mkVtk (file_dims dims) (prodZ (file_dims dims)) (map (grid_point ar dims xmins xmaxs) (col_major [0; 0; 0] (file_dims dims)))
    (prodZ dims) (firstn (Z.to_nat (prodZ dims)) field)))).
  { intros b rest ->. destruct b; reflexivity. }
  rewrite <- (K _ _ W). clear K W.
  assert (HF : forall nx ny nz, pad3 1 dims = [nx; ny; nz] -> file_dims dims = [u64 (nx + 1); u64 (ny + 1); u64 (nz + 1)] /\
     u64 (u64 (u64 (nx + 1) * u64 (ny + 1)) * u64 (nz + 1)) = prodZ (file_dims dims) /\ u64 (u64 (nx * ny) * nz) = prodZ dims).
  { intros nx ny nz E. destruct HG as (nx' & ny' & nz' & E' & Ef & Hx & Hy & Hz & Hq). rewrite E in E'. inversion E'; subst nx' ny' nz'.
    assert (2 <= nx + 1 /\ 2 <= ny + 1 /\ 2 <= nz + 1) by lia.
    assert (0 < (nx + 1) * (ny + 1)) by nia. assert ((nx + 1) * (ny + 1) < 2 ^ 63) by nia. assert (nx + 1 < 2 ^ 63) by nia. assert (ny + 1 < 2 ^ 63) by nia.
    assert (nz + 1 < 2 ^ 63) by nia. assert (nx * ny < (nx + 1) * (ny + 1)) by nia.
    assert (0 < nx * ny) by nia. assert (nx * ny * nz < 2 ^ 64) by nia.
    rewrite (u64_id (nx + 1)), (u64_id (ny + 1)), (u64_id (nz + 1)) by (unfold two64; lia).
    rewrite (u64_id ((nx + 1) * (ny + 1))), (u64_id (nx * ny)) by (unfold two64; lia).
    rewrite u64_id by (unfold two64; nia). rewrite u64_id by (unfold two64; nia).
    split; [exact Ef|]. rewrite <- Ec, E, Ef, !prod3. split; reflexivity. }
  destruct (settings ar dims xmins xmaxs (conj Hl (conj L0 (conj L1 (conj Hpos Hp))))) as (nx & ny & nz & s1 & s2 & E1 & E2 & E3 & Ec').
  destruct (HF nx ny nz Ec') as (Ef & Ep & Eq). unfold writeVTK.
  replace (3 <? vlen dims) with false by (symmetry; apply Z.ltb_ge; unfold vlen; lia).
  rewrite E1. cbn [bind]. rewrite E2. cbn [bind]. rewrite E3. cbn [bind]. rewrite Ep, Eq, <- Ef. clear E1 E2 E3 HF HG.
  repeat match goal with |- bind ?x _ = _ => destruct x as [?|?]; cbn [bind]; [|reflexivity] | |- context [let '(_, _) := ?x in _] => destruct x end. reflexivity.
Qed.

(** The file: as many points and values as announced, the points of the uniform grid with the first index
    varying fastest, the values in the order of the field. *)
Theorem C53_file {D} (ar : arith D) dims (xmins xmaxs field : list D) :
  vtk_args dims xmins xmaxs -> prodZ dims <= vlen field ->
  exists file, writeVTK ar dims xmins xmaxs field = Ok (Some file) /\
    vf_dims file = file_dims dims /\
    vf_npoints file = prodZ (vf_dims file) /\ vlen (vf_points file) = vf_npoints file /\
    vf_points file = map (grid_point ar dims xmins xmaxs) (col_major [0; 0; 0] (vf_dims file)) /\
    vf_ncells file = prodZ (map (fun n => n - 1) (vf_dims file)) /\ vf_ncells file = prodZ dims /\ vlen (vf_values file) = vf_ncells file /\
    vf_values file = firstn (Z.to_nat (prodZ dims)) field.
Proof.
  intros Ha Hf. pose proof (write_whole ar dims xmins xmaxs field Ha) as E. destruct (Z.ltb_spec (vlen field) (prodZ dims)); [lia|].
  eexists. split; [exact E|]. cbn [vf_dims vf_npoints vf_points vf_ncells vf_values]. destruct Ha as (Hl & L0 & L1 & Hpos & Hp).
  assert (HH : forall j, 0 < nth j dims 1).
  { intros j. destruct (Nat.lt_ge_cases j (length dims)) as [Hj|Hj]; [rewrite (nth_indep _ 1 0) by exact Hj; apply Hpos, Hj|rewrite nth_overflow by exact Hj; lia]. }
  pose proof (HH 0%nat). pose proof (HH 1%nat). pose proof (HH 2%nat).
  assert (Ec : prodZ (map (fun n => n - 1) (file_dims dims)) = prodZ dims).
  { unfold file_dims, pad3. cbn [map]. rewrite prod3, !Z.add_simpl_r.
    destruct dims as [|a [|b [|c [|? ?]]]]; try (simpl in Hl; lia); cbn [nth]; rewrite ?prodZ_cons; change (prodZ []) with 1; ring. }
  split; [reflexivity|]. split; [reflexivity|]. split.
  - unfold vlen. rewrite map_length. change (col_major [0; 0; 0] (file_dims dims)) with (nested_loops false [0; 0; 0] (file_dims dims)).
    rewrite nested_loops_length; [unfold file_dims, pad3; cbn [map]; rewrite extents3; reflexivity|reflexivity|].
    unfold file_dims, pad3. cbn [map]. intros [|[|[|j]]] Hj; cbn [nth length] in *; lia.
  - split; [reflexivity|]. split; [symmetry; exact Ec|]. split; [reflexivity|]. split; [|reflexivity].
    pose proof (prodZ_pos dims (proj2 (allpos_nth dims) Hpos)). unfold vlen in *. rewrite firstn_length. lia.
Qed.
Print Assumptions C53_file.

Theorem C53_more_axes {D} (ar : arith D) dims (xmins xmaxs field : list D) :
  (3 < length dims)%nat -> writeVTK ar dims xmins xmaxs field = Ok None.
Proof. intros H. unfold writeVTK, vlen. destruct (Z.ltb_spec 3 (Z.of_nat (length dims))); [reflexivity|lia]. Qed.
Print Assumptions C53_more_axes.

Theorem C53_short_field {D} (ar : arith D) dims (xmins xmaxs field : list D) :
  vtk_args dims xmins xmaxs -> vlen field < prodZ dims -> writeVTK ar dims xmins xmaxs field = Undef OobRead.
Proof. intros Ha Hf. rewrite write_whole by exact Ha. destruct (Z.ltb_spec (vlen field) (prodZ dims)); [reflexivity|lia]. Qed.
Print Assumptions C53_short_field.

Lemma col3_get {A} (f : list Z -> A) a b c i j k : 0 <= i < a -> 0 <= j < b -> 0 <= k < c -> a * b * c < 2 ^ 64 ->
  vget (map f (col_major [0; 0; 0] [a; b; c])) (i + a * (j + b * k)) = Ok (f [i; j; k]).
Proof.
  intros Hi Hj Hk H. assert (0 <= j + b * k < b * c) by nia. assert (0 <= i + a * (j + b * k) < a * (b * c)) by nia.
  assert (G : good_box [0; 0; 0] [a; b; c]) by (apply good3; lia). assert (EP := extents3 a b c).
  unfold vget, vlen. rewrite map_length. change (col_major [0; 0; 0] [a; b; c]) with (nested_loops false [0; 0; 0] [a; b; c]).
  rewrite nested_loops_length; [|reflexivity|intros [|[|[|n]]] Hn; cbn [nth length] in *; lia]. rewrite EP, prod3.
  destruct (Z.leb_spec 0 (i + a * (j + b * k))); [|lia].
  destruct (Z.ltb_spec (i + a * (j + b * k)) (a * b * c)); [|lia]. cbn [andb].
  erewrite map_nth_error; [reflexivity|]. rewrite nth_nested_loops by (rewrite ?EP, ?prod3; auto; lia). rewrite EP. f_equal.
  replace (i + a * (j + b * k)) with (dot (strd false [a; b; c]) [i; j; k]).
  - rewrite digs_dot; [reflexivity|]. split; [reflexivity|]. intros [|[|[|n]]] Hn; cbn [nth length] in *; lia.
  - unfold strd. cbn. change (prodZ []) with 1. rewrite ?prodZ_cons. change (prodZ []) with 1. ring.
Qed.

(** Point (i, j, k) of the file. *)
Theorem C53_point {D} (ar : arith D) dims (xmins xmaxs field : list D) file :
  vtk_args dims xmins xmaxs -> writeVTK ar dims xmins xmaxs field = Ok (Some file) ->
  forall dx dy dz i j k, vf_dims file = [dx; dy; dz] -> 0 <= i < dx -> 0 <= j < dy -> 0 <= k < dz ->
    vget (vf_points file) (i + dx * (j + dy * k)) = Ok (grid_point ar dims xmins xmaxs [i; j; k]).
Proof.
  intros Ha E dx dy dz i j k Ed Hi Hj Hk. rewrite write_whole in E by exact Ha. destruct (vlen field <? prodZ dims); [discriminate|].
  destruct Ha as (_ & _ & _ & _ & Hp).
  injection E as <-. cbn [vf_dims vf_points] in *. rewrite Ed in *. rewrite prod3 in Hp. apply col3_get; auto.
Qed.
Print Assumptions C53_point.

Lemma pad_pos dims : (forall j, (j < length dims)%nat -> 0 < nth j dims 0) -> forall j, 0 < nth j dims 1.
Proof.
  intros Hpos j. destruct (Nat.lt_ge_cases j (length dims)) as [Hj|Hj]; [rewrite (nth_indep _ 1 0) by exact Hj; apply Hpos, Hj|rewrite nth_overflow by exact Hj; lia].
Qed.

Lemma node_0 (x0 x1 : R) n : node arR x0 x1 n 0 = x0.
Proof. unfold node; cbn [arR a_add a_div a_mul a_sub a_ofZ]; unfold Rdiv; ring. Qed.

Lemma node_n (x0 x1 : R) n : 0 < n -> node arR x0 x1 n n = x1.
Proof. intros Hn. unfold node; cbn [arR a_add a_div a_mul a_sub a_ofZ]. field. apply not_0_IZR. lia. Qed.

Lemma node_between (x0 x1 : R) n i : (x0 <= x1)%R -> 0 < n -> 0 <= i <= n -> (x0 <= node arR x0 x1 n i <= x1)%R.
Proof.
  intros Hx Hn Hi. unfold node; cbn [arR a_add a_div a_mul a_sub a_ofZ].
  assert (0 < IZR n)%R by (apply IZR_lt; lia). assert (0 <= IZR i)%R by (apply IZR_le; lia). assert (IZR i <= IZR n)%R by (apply IZR_le; lia).
  replace ((x1 - x0) * IZR i / IZR n)%R with ((x1 - x0) * (IZR i / IZR n))%R by (unfold Rdiv; ring).
  assert (0 <= IZR i / IZR n <= 1)%R.
  { split; [apply Rle_mult_inv_pos; assumption|]. apply (Rmult_le_reg_r (IZR n)); [assumption|]. unfold Rdiv. rewrite Rmult_assoc, Rinv_l by lra. lra. }
  nra.
Qed.

(** The corners of the domain are the first and the last point, and no point is outside (real numbers). *)
Theorem C53_corners dims (xmins xmaxs field : list R) file :
  vtk_args dims xmins xmaxs -> writeVTK arR dims xmins xmaxs field = Ok (Some file) ->
  vget (vf_points file) 0 = Ok (pad3 0%R xmins) /\ vget (vf_points file) (vf_npoints file - 1) = Ok (pad3 1%R xmaxs) /\
  ((forall j, (j < length dims)%nat -> nth j xmins 0 <= nth j xmaxs 0)%R ->
   forall p j, In p (vf_points file) -> (j < 3)%nat -> (nth j (pad3 0 xmins) 0 <= nth j p 0 <= nth j (pad3 1 xmaxs) 0)%R).
Proof.
  intros Ha E. pose proof (C53_point arR dims xmins xmaxs field file Ha E) as HP.
  pose proof Ha as (Hl & L0 & L1 & Hpos & Hp). pose proof (pad_pos dims Hpos) as HH.
  pose proof (HH 0%nat) as H0. pose proof (HH 1%nat) as H1. pose proof (HH 2%nat) as H2.
  assert (D0 : a_dec arR 0 1 = 0%R) by (cbn [arR a_dec]; simpl; lra). assert (D1 : a_dec arR 10 1 = 1%R) by (cbn [arR a_dec]; simpl; lra).
  rewrite write_whole in E by exact Ha. destruct (vlen field <? prodZ dims); [discriminate|]. injection E as <-. cbn [vf_points vf_npoints vf_dims] in *.
  assert (Ef : file_dims dims = [nth 0 dims 1 + 1; nth 1 dims 1 + 1; nth 2 dims 1 + 1]) by reflexivity.
  split; [|split].
  - specialize (HP _ _ _ 0 0 0 Ef ltac:(lia) ltac:(lia) ltac:(lia)).
    replace (0 + (nth 0 dims 1 + 1) * (0 + (nth 1 dims 1 + 1) * 0)) with 0 in HP by ring. rewrite HP.
    unfold grid_point. cbn [map]. change (nth 0 [0; 0; 0] 0) with 0. change (nth 1 [0; 0; 0] 0) with 0. change (nth 2 [0; 0; 0] 0) with 0.
    rewrite !node_0, D0. reflexivity.
  - specialize (HP _ _ _ (nth 0 dims 1) (nth 1 dims 1) (nth 2 dims 1) Ef ltac:(lia) ltac:(lia) ltac:(lia)).
    rewrite Ef at 2. rewrite prod3.
    match type of HP with vget _ ?x = _ => replace ((nth 0 dims 1 + 1) * (nth 1 dims 1 + 1) * (nth 2 dims 1 + 1) - 1) with x by ring end. rewrite HP.
    unfold grid_point. cbn [map].
    set (a := nth 0 dims 1) in *. set (b := nth 1 dims 1) in *. set (c := nth 2 dims 1) in *.
    change (nth 0 [a; b; c] 0) with a. change (nth 1 [a; b; c] 0) with b. change (nth 2 [a; b; c] 0) with c.
    change (nth 0 (pad3 1 dims) 0) with a. change (nth 1 (pad3 1 dims) 0) with b. change (nth 2 (pad3 1 dims) 0) with c.
    rewrite !node_n by assumption. rewrite D1. reflexivity.
  - intros Hx p j Hp' Hj. apply in_map_iff in Hp' as (g & <- & Hg). apply (in_nested_loops false) in Hg; [|reflexivity]. destruct Hg as (Lg & _ & Hb).
    unfold grid_point. rewrite D0, D1.
    assert (Hx' : forall j, (j < 3)%nat -> (nth j (pad3 0%R xmins) 0 <= nth j (pad3 1%R xmaxs) 0)%R).
    { intros m Hm. assert (Hq : (nth m xmins 0 <= nth m xmaxs 1)%R).
      { destruct (Nat.lt_ge_cases m (length dims)) as [Hd|Hd].
        - rewrite (nth_indep xmaxs 1%R 0%R) by lia. apply Hx, Hd.
        - rewrite !nth_overflow by lia. lra. }
      destruct m as [|[|[|m]]]; [exact Hq|exact Hq|exact Hq|lia]. }
    specialize (Hb j). rewrite Ef in Hb. specialize (Hx' j Hj).
    assert (Hn : forall m, (m < 3)%nat -> 0 < nth m (pad3 1 dims) 0) by (intros [|[|[|m]]] Hm; [exact H0|exact H1|exact H2|lia]).
    assert (Hb' : 0 <= nth j g 0 <= nth j (pad3 1 dims) 0).
    { rewrite Lg in Hb. specialize (Hb Hj). destruct j as [|[|[|j]]]; [| | |lia]; cbn [nth pad3] in *; lia. }
    pose proof (node_between _ _ _ _ Hx' (Hn j Hj) Hb') as HB.
    change (a_zero arR) with 0%R in *. destruct j as [|[|[|j]]]; [exact HB|exact HB|exact HB|lia].
Qed.
Print Assumptions C53_corners.

(** The point where setInData evaluates the initial field is the midpoint of its cell in the file (real numbers). *)
Theorem C53_centres dims (xmins xmaxs : list R) g :
  vtk_args dims xmins xmaxs -> length g = length dims ->
  forall j, (j < length dims)%nat ->
    nth j (centre arR dims xmins xmaxs g) 0%R =
    ((nth j (grid_point arR dims xmins xmaxs (pad3 0%Z g)) 0 + nth j (grid_point arR dims xmins xmaxs (map (fun i => i + 1)%Z (pad3 0%Z g))) 0) / 2)%R.
Proof.
  intros (Hl & L0 & L1 & Hpos & _) Lg j Hj.
  assert (N : forall x0 x1 n k, 0 < n -> (x0 + (IZR k + 5 / 10) * ((x1 - x0) / IZR n) = (node arR x0 x1 n k + node arR x0 x1 n (k + 1)) / 2)%R).
  { intros x0 x1 n k Hn. unfold node. cbn [arR a_add a_div a_mul a_sub a_ofZ]. rewrite plus_IZR. field. apply not_0_IZR. lia. }
  assert (D5 : a_dec arR 5 1 = (5 / 10)%R) by (cbn [arR a_dec]; simpl; lra).
  specialize (Hpos j Hj). unfold centre. rewrite D5.
  destruct dims as [|n0 [|n1 [|n2 [|? ?]]]]; destruct xmins as [|a0 [|a1 [|a2 [|? ?]]]]; try discriminate L0;
  destruct xmaxs as [|b0 [|b1 [|b2 [|? ?]]]]; try discriminate L1; destruct g as [|g0 [|g1 [|g2 [|? ?]]]]; try discriminate Lg; try (simpl in Hl, Hj; lia);
  (destruct j as [|[|[|j]]]; [| | |simpl in Hj; lia]); try (simpl in Hj; lia); cbn [nth] in Hpos; exact (N _ _ _ _ Hpos).
Qed.
Print Assumptions C53_centres.

(** Cell (i, j, k) of a file written from a field stored in the order of saveVTK (C34) has that cell's value. *)
Theorem C53_cell_value {D} (ar : arith D) dims (xmins xmaxs : list D) F :
  vtk_args dims xmins xmaxs ->
  exists file, writeVTK ar dims xmins xmaxs (map F (col_major (repeat 0 (length dims)) dims)) = Ok (Some file) /\
    vf_values file = map F (col_major (repeat 0 (length dims)) dims) /\
    forall dx dy dz i j k, vf_dims file = [dx; dy; dz] -> 0 <= i < dx - 1 -> 0 <= j < dy - 1 -> 0 <= k < dz - 1 ->
      vget (vf_values file) (i + (dx - 1) * (j + (dy - 1) * k)) = Ok (F (firstn (length dims) [i; j; k])).
Proof.
  intros Ha. pose proof Ha as (Hl & L0 & L1 & Hpos & Hp). pose proof (pad_pos dims Hpos) as HH.
  set (field := map F (col_major (repeat 0 (length dims)) dims)).
  assert (Lf : vlen field = prodZ dims).
  { unfold field, vlen. rewrite map_length. change (col_major (repeat 0 (length dims)) dims) with (nested_loops false (repeat 0 (length dims)) dims).
    rewrite nested_loops_length; [|apply repeat_length|intros m Hm; rewrite nth_repeat; specialize (Hpos m ltac:(rewrite <- (repeat_length 0 (length dims)); exact Hm)); lia].
    rewrite extents0. pose proof (prodZ_pos dims (proj2 (allpos_nth dims) Hpos)). lia. }
  destruct (C53_file ar dims xmins xmaxs field Ha ltac:(lia)) as (file & E & Ed & _ & _ & _ & _ & _ & _ & Ev).
  assert (Ev' : vf_values file = field).
  { rewrite Ev. apply firstn_all2. unfold vlen in Lf. lia. }
  exists file. split; [exact E|]. split; [exact Ev'|]. intros dx dy dz i j k Hd Hi Hj Hk. rewrite Ev'. unfold field.
  assert (Efd : file_dims dims = [nth 0 dims 1 + 1; nth 1 dims 1 + 1; nth 2 dims 1 + 1]) by reflexivity.
  rewrite Ed, Efd in Hd. injection Hd as <- <- <-. rewrite !Z.add_simpl_r in *.
  pose proof (HH 0%nat) as H0. pose proof (HH 1%nat) as H1. pose proof (HH 2%nat) as H2. rewrite Efd, prod3 in Hp.
  assert (Hget : good_box (repeat 0 (length dims)) dims -> forall g, in_box (repeat 0 (length dims)) dims g ->
    vget (map F (col_major (repeat 0 (length dims)) dims)) (dot (strd false dims) g) = Ok (F g)).
  { intros G g Hg. pose proof (in_box_digit_vec _ _ g (repeat_length _ _) Hg) as HD. rewrite extents0 in HD.
    rewrite vsub_zeros in HD by (destruct Hg as (Lg & _); rewrite repeat_length in Lg; exact Lg).
    pose proof (dot_strd_range false _ _ HD) as Hr. unfold vget, vlen. rewrite map_length. fold (nested_loops false (repeat 0 (length dims)) dims).
    change (col_major (repeat 0 (length dims)) dims) with (nested_loops false (repeat 0 (length dims)) dims).
    rewrite nested_loops_length; [|apply repeat_length|intros m Hm; rewrite nth_repeat; specialize (Hpos m ltac:(rewrite <- (repeat_length 0 (length dims)); exact Hm)); lia].
    rewrite extents0. destruct (Z.leb_spec 0 (dot (strd false dims) g)); [|lia]. destruct (Z.ltb_spec (dot (strd false dims) g) (prodZ dims)); [|lia]. cbn [andb].
    erewrite map_nth_error; [reflexivity|]. rewrite nth_nested_loops by (rewrite ?extents0; auto). rewrite extents0, digs_dot by exact HD.
    f_equal. apply vadd_zeros. destruct Hg as (Lg & _). rewrite repeat_length in Lg. exact Lg. }
  destruct dims as [|n0 [|n1 [|n2 [|? ?]]]]; try (simpl in Hl; lia); cbn [nth] in *; cbn [length firstn repeat] in *.
  - assert (i = 0) by lia. assert (j = 0) by lia. assert (k = 0) by lia. subst. reflexivity.
  - assert (j = 0) by lia. assert (k = 0) by lia. subst.
    assert (G : good_box [0] [n0]).
    { split; [|split].
      - split; [reflexivity|]. split; [discriminate|]. split; [simpl; lia|]. intros [|m] Hm; cbn [nth length] in *; lia.
      - intros [|m] Hm; cbn [nth length] in *; lia.
      - unfold extents. cbn [combine map fst snd]. rewrite Z.sub_0_r, prodZ_cons. change (prodZ []) with 1. lia. }
    rewrite <- (Hget G); [f_equal; unfold strd; cbn; change (prodZ []) with 1; ring|].
    split; [reflexivity|]. split; [reflexivity|]. intros [|m] Hm; cbn [nth length] in *; lia.
  - assert (k = 0) by lia. subst. assert (0 <= n0 * n1 < 2 ^ 64) by nia.
    assert (G : good_box [0; 0] [n0; n1]).
    { split; [|split].
      - split; [reflexivity|]. split; [discriminate|]. split; [simpl; lia|]. intros [|[|m]] Hm; cbn [nth length] in *; nia.
      - intros [|[|m]] Hm; cbn [nth length] in *; lia.
      - unfold extents. cbn [combine map fst snd]. rewrite !Z.sub_0_r, !prodZ_cons. change (prodZ []) with 1. lia. }
    rewrite <- (Hget G); [f_equal; unfold strd; cbn; rewrite ?prodZ_cons; change (prodZ []) with 1; ring|].
    split; [reflexivity|]. split; [reflexivity|]. intros [|[|m]] Hm; cbn [nth length] in *; lia.
  - assert (0 < n0 * n1) by nia. rewrite <- Hget; [f_equal; unfold strd; cbn; rewrite ?prodZ_cons; change (prodZ []) with 1; ring|apply good3; try lia; nia|].
    split; [reflexivity|]. split; [reflexivity|]. intros [|[|[|m]]] Hm; cbn [nth length] in *; lia.
Qed.
Print Assumptions C53_cell_value.

(** A 2 by 1 grid on [0, 1] x [2, 4]. *)
Example C53_example :
  vtk_args [2; 1] [0; 2]%R [1; 4]%R /\ vtk_args [2; 1] [0#1; 2#1]%Q [1#1; 4#1]%Q /\ writeVTK arQ [2; 1] [0#1; 2#1]%Q [1#1; 4#1]%Q [7#1; 8#1]%Q = Ok (Some (mkVtk [3; 2; 2] 12
    [[0#1; 2#1; 0#1]; [1#2; 2#1; 0#1]; [1#1; 2#1; 0#1]; [0#1; 4#1; 0#1]; [1#2; 4#1; 0#1]; [1#1; 4#1; 0#1];
     [0#1; 2#1; 1#1]; [1#2; 2#1; 1#1]; [1#1; 2#1; 1#1]; [0#1; 4#1; 1#1]; [1#2; 4#1; 1#1]; [1#1; 4#1; 1#1]]%Q
    2 [7#1; 8#1]%Q)) /\ writeVTK arQ [2; 1] [0#1; 2#1]%Q [1#1; 4#1]%Q [7#1]%Q = Undef OobRead.
Proof.
  assert (H : forall D (l l' : list D), length l = 2%nat -> length l' = 2%nat -> vtk_args [2; 1] l l').
  { intros D l l' H H'. split; [simpl; lia|]. split; [exact H|]. split; [exact H'|]. split; [intros [|[|j]] Hj; cbn [nth length] in *; lia|vm_compute; reflexivity]. }
  split; [apply H; reflexivity|]. split; [apply H; reflexivity|]. split; vm_compute; reflexivity.
Qed.
