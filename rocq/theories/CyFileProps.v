(** * The file saveVTK of the Cython version writes (C96) *)
From Coq Require Import List ZArith Bool Lia String Ascii.
From Verif Require Import Cpp CppProof MaiModel MaiSpec Radix MaiProof CmdModel CdModel CdSpec FilterModel FilterSpec FilterProof LapSpec LapProof VtkModel
  UpModel UpSpec UpProof UpProps LangSpec FortModel FortProof NumModel NumSpec NumProof TextModel TextSpec TextProof PySpec PyModel PyProof PyProps
  CyModel CyProof PrintModel CyProps NumProps FortProps CyFileModel.
From Coq Require Import List.
Import ListNotations.
Local Open Scope Z_scope.
Local Arguments prodZ : simpl never.
Local Arguments Z.of_nat : simpl never.

Section File.
  Context {D : Type} (ar : arith D) (showf show : D -> string).
  Hypothesis Hf : forall x, nospace (showf x) = true /\ showf x <> ""%string.
  Hypothesis Hs : forall x, nospace (show x) = true /\ show x <> ""%string.
  Local Open Scope string_scope.
  Local Open Scope Z_scope.

  Definition cyf_axis (dims : list Z) (lengths : list D) (j : nat) : string :=
    if (j <? List.length dims)%nat
    then cy_line (show_int (nth j dims 0 + 1) ++ " " ++ " double") ++ texts (map (fun x => cy_line (" " ++ showf x)) (snd (axis_coords ar dims lengths j)))
    else cy_line "1 double" ++ cy_line "0.0".
  Definition cyf_body (dims : list Z) (lengths f : list D) : string :=
    let pts j := if (j <? List.length dims)%nat then nth j dims 0 + 1 else 1 in
    cy_line "upwind.cxx" ++ cy_line "ASCII" ++ cy_line "DATASET RECTILINEAR_GRID" ++ cy_line "DIMENSIONS" ++
    (" " ++ show_int (pts 2%nat)) ++ (" " ++ " " ++ show_int (pts 1%nat)) ++ (" " ++ cy_line (" " ++ show_int (pts 0%nat) ++ newline)) ++
    cy_line "X_COORDINATES " ++ cyf_axis dims lengths 2 ++ cy_line "Y_COORDINATES " ++ cyf_axis dims lengths 1 ++ cy_line "Z_COORDINATES " ++ cyf_axis dims lengths 0 ++
    cy_line ("CELL_DATA " ++ show_int (prodZ dims)) ++ cy_line "SCALARS f double 1" ++ cy_line "LOOKUP_TABLE default" ++ texts (map (fun x => cy_line (show x)) f).

  Lemma cy_axis_lines_eq dims v lengths f old j : up_args dims v lengths -> (j < List.length dims)%nat ->
    cy_axis_lines ar showf (cy_of ar dims v lengths f old) (Z.of_nat j) = Ok (cyf_axis dims lengths j).
  Proof using Type.
    clear Hf Hs. intros (Hg & Hv & Hl) Hj. unfold cy_axis_lines, cyf_axis. cbn [cy_of cy_numCells cy_deltas]. rewrite (vget_nat dims j 0) by exact Hj. cbn [bind].
    rewrite (vget_nat _ j (a_zero ar)) by (unfold sizes; rewrite map_length, seq_length; exact Hj). cbn [bind]. rewrite sizes_nth by exact Hj.
    rewrite (tabulate_ok (fun i => cy_line (" " ++ showf (a_add ar (a_dec ar 0 1) (a_mul ar (cell_size ar dims lengths j) (a_ofZ ar (Z.of_nat i))))))) by reflexivity.
    cbn [bind]. rewrite (proj2 (Nat.ltb_lt _ _) Hj). unfold axis_coords, range. cbn [snd]. rewrite !map_map, Z.sub_0_r. reflexivity.
  Qed.

  Lemma cy_body_eq dims v lengths f old : up_args dims v lengths -> (List.length dims <= 3)%nat -> vlen f = prodZ dims ->
    cy_body ar showf show (cy_of ar dims v lengths f old) = Ok (cyf_body dims lengths f).
  Proof using Type.
    clear Hf Hs. intros Ha H3 L. pose proof Ha as (Hg & Hv & Hl). pose proof (nd_pos dims (up_big _ Hg)) as Hn.
    assert (P : forall j, cy_points (cy_of ar dims v lengths f old) (Z.of_nat j) = Ok (" " ++ show_int (if (j <? List.length dims)%nat then nth j dims 0 + 1 else 1))).
    { intros j. unfold cy_points. cbn [cy_of cy_ndims cy_numCells]. destruct (Z.ltb_spec (Z.of_nat j) (Z.of_nat (List.length dims))), (Nat.ltb_spec j (List.length dims)); try lia; [|reflexivity].
      rewrite (vget_nat dims j 0) by assumption. reflexivity. }
    assert (M : forall j, cy_maybe_lines ar showf (cy_of ar dims v lengths f old) (Z.of_nat j) = Ok (cyf_axis dims lengths j)).
    { intros j. unfold cy_maybe_lines. change (cy_ndims (cy_of ar dims v lengths f old)) with (Z.of_nat (List.length dims)).
      destruct (Z.ltb_spec (Z.of_nat j) (Z.of_nat (List.length dims))); [apply cy_axis_lines_eq; [exact Ha|lia]|].
      unfold cyf_axis. destruct (Nat.ltb_spec j (List.length dims)); [lia|reflexivity]. }
    unfold cy_body. rewrite (P 2%nat : cy_points _ 2 = _), (P 1%nat : cy_points _ 1 = _), (M 2%nat : cy_maybe_lines _ _ _ 2 = _), (M 1%nat : cy_maybe_lines _ _ _ 1 = _).
    rewrite (cy_axis_lines_eq dims v lengths f old 0 Ha ltac:(lia) : cy_axis_lines _ _ _ 0 = _). cbn [bind cy_of cy_numCells cy_ntot cy_f].
    rewrite (vget_nat dims 0 0 ltac:(lia) : vget dims 0 = _). cbn [bind].
    rewrite (tabulate_ok (fun i => cy_line (show (nth i f (a_zero ar))))).
    2: { intros i Hi. rewrite (vget_nat f i (a_zero ar)) by (unfold vlen in L; lia). reflexivity. }
    cbn [bind]. unfold cyf_body. rewrite (proj2 (Nat.ltb_lt 0 (List.length dims))) by lia. do 2 f_equal.
    replace (map (fun i => cy_line (show (nth i f (a_zero ar)))) (seq 0 (Z.to_nat (prodZ dims)))) with (map (fun x => cy_line (show x)) f); [reflexivity|].
    rewrite <- L. unfold vlen. rewrite Nat2Z.id. clear. induction f as [|x l IH]; [reflexivity|]. cbn [List.length seq map]. rewrite <- seq_shift, map_map. f_equal. exact IH.
  Qed.

  Lemma split_cy_lines (l : list D) s : split_words "" (texts (map (fun x => cy_line (" " ++ showf x)) l) ++ s) = (map showf l ++ split_words "" s)%list.
  Proof using Hf.
    clear Hs. unfold cy_line. induction l as [|x l IH]; [reflexivity|]. cbn [map texts]. rewrite !append_assoc, split_space. cbn [word app].
    rewrite split_word_newline by apply Hf. rewrite IH. reflexivity.
  Qed.
  Lemma split_cy_axis key dims lengths j s : nospace key = true -> key <> "" ->
    split_words "" (key ++ " " ++ newline ++ cyf_axis dims lengths j ++ s) =
    (key :: show_int (if (j <? List.length dims)%nat then nth j dims 0 + 1 else 1) :: "double" ::
     axis_words showf (j <? List.length dims)%nat (if (j <? List.length dims)%nat then snd (axis_coords ar dims lengths j) else []) ++ split_words "" s)%list.
  Proof using Hf.
    clear Hs. intros K1 K2. rewrite split_word_space by assumption. f_equal. rewrite split_newline. cbn [word app]. unfold cyf_axis. destruct (j <? List.length dims)%nat; cbn [axis_words].
    - unfold cy_line at 1. rewrite !append_assoc. rewrite (lit2 " double" " " "double" _ eq_refl).
      rewrite split_word_space by (apply nospace_int || apply show_int_nonempty). f_equal. rewrite split_space. cbn [word app].
      rewrite split_word_newline by (reflexivity || discriminate). rewrite split_cy_lines. reflexivity.
    - reflexivity.
  Qed.

  (** The words under a first line that is right. *)
  Lemma cyf_words dims lengths f : (1 <= List.length dims)%nat ->
    read_header ("# vtk DataFile Version 2.0" ++ newline ++ cyf_body dims lengths f) = Some (head_words ar showf dims lengths ++ map show f)%list.
  Proof using Hf Hs.
    intros Hd. unfold read_header, cyf_body. unfold cy_line at 1 2. rewrite !append_assoc.
    rewrite (NL "# vtk DataFile Version 2.0") by reflexivity. rewrite (NL "upwind.cxx") by reflexivity. rewrite (NL "ASCII") by reflexivity.
    rewrite !String.eqb_refl. cbn [andb]. f_equal. unfold words.
    unfold cy_line at 1 2 3 4 5 6 7 8 9. rewrite !append_assoc.
    rewrite (lit3 "DATASET RECTILINEAR_GRID" "DATASET" " " "RECTILINEAR_GRID" _ eq_refl).
    rewrite split_word_space by (reflexivity || discriminate). do 2 rewrite split_word_newline by (reflexivity || discriminate).
    rewrite split_space. cbn [word app]. rewrite split_word_space by (apply nospace_int || apply show_int_nonempty). rewrite split_space. cbn [word app].
    rewrite split_word_space by (apply nospace_int || apply show_int_nonempty). rewrite split_space. cbn [word app].
    rewrite split_word_newline by (apply nospace_int || apply show_int_nonempty). rewrite split_newline. cbn [word app].
    rewrite (lit2 "X_COORDINATES " "X_COORDINATES" " " _ eq_refl). rewrite split_cy_axis by (reflexivity || discriminate).
    rewrite (lit2 "Y_COORDINATES " "Y_COORDINATES" " " _ eq_refl). rewrite split_cy_axis by (reflexivity || discriminate).
    rewrite (lit2 "Z_COORDINATES " "Z_COORDINATES" " " _ eq_refl). rewrite split_cy_axis by (reflexivity || discriminate).
    rewrite (lit2 "CELL_DATA " "CELL_DATA" " " _ eq_refl). rewrite split_word_space by (reflexivity || discriminate).
    rewrite split_word_newline by (apply nospace_int || apply show_int_nonempty).
    rewrite (lit3 "SCALARS f double 1" "SCALARS" " " "f double 1" _ eq_refl), (lit3 "f double 1" "f" " " "double 1" _ eq_refl), (lit3 "double 1" "double" " " "1" _ eq_refl).
    do 3 rewrite split_word_space by (reflexivity || discriminate). rewrite split_word_newline by (reflexivity || discriminate).
    rewrite (lit3 "LOOKUP_TABLE default" "LOOKUP_TABLE" " " "default" _ eq_refl).
    rewrite split_word_space by (reflexivity || discriminate). rewrite split_word_newline by (reflexivity || discriminate).
    unfold cy_line. rewrite (TextProof.split_lines show Hs). unfold head_words.
    assert (E0 : (0 <? List.length dims)%nat = true) by (apply Nat.ltb_lt; lia). rewrite E0.
    cbn [app]. repeat (rewrite <- app_assoc; cbn [app]). reflexivity.
  Qed.

  Lemma head_doc dims lengths f text : up_grid dims -> (List.length dims <= 3)%nat -> vlen f = prodZ dims ->
    (forall j x, (j < List.length dims)%nat -> In x (snd (axis_coords ar dims lengths j)) -> numeral (showf x) <> None) -> (forall x, In x f -> numeral (show x) <> None) ->
    read_header text = Some (head_words ar showf dims lengths ++ map show f)%list ->
    let present j := (j <? List.length dims)%nat in
    let pts j := if present j then nth j dims 0 + 1 else 1 in
    let ax j := if present j then map showf (snd (axis_coords ar dims lengths j)) else ["0.0"] in
    read_rectilinear text = Some (mkRectDoc (pts 2%nat, pts 1%nat, pts 0%nat) (ax 2%nat) (ax 1%nat) (ax 0%nat) "f" (map show f)).
  Proof using Type.
    clear Hf Hs. intros Hg H3 L Nf Ns Hh present pts ax. pose proof (up_big _ Hg) as Hb. pose proof (axis_range dims Hb) as P. pose proof (nd_pos dims Hb) as Hn.
    unfold read_rectilinear. rewrite Hh. cbn [bindo]. unfold head_words.
    set (cs := fun j => if present j then snd (axis_coords ar dims lengths j) else []).
    fold (present 0%nat) (present 1%nat) (present 2%nat). fold (pts 0%nat) (pts 1%nat) (pts 2%nat) (cs 0%nat) (cs 1%nat) (cs 2%nat).
    assert (P0 : forall j, 1 <= pts j) by (intros j; unfold pts, present; destruct (Nat.ltb_spec j (List.length dims)) as [Hj|]; [specialize (P j Hj)|]; lia).
    assert (Lx : forall j, if present j then Z.of_nat (List.length (cs j)) = pts j else pts j = 1).
    { intros j. unfold cs, pts, present. destruct (Nat.ltb_spec j (List.length dims)) as [Hj|]; [|reflexivity]. unfold axis_coords. cbn [snd]. rewrite map_length, range_length. specialize (P j Hj). lia. }
    assert (A0 : present 0%nat = true) by (unfold present; apply Nat.ltb_lt; lia).
    assert (RA : forall key j ws, read_axis key (pts j) (key :: show_int (pts j) :: "double" :: axis_words showf (present j) (cs j) ++ ws)%list = Some (ax j, ws)).
    { intros key j ws. replace (show_int (pts j)) with (if present j then show_int (pts j) else "1").
      2: { pose proof (Lx j) as E. destruct (present j); [reflexivity|]. rewrite E. reflexivity. }
      rewrite read_axis_ok; [|specialize (P0 j); lia|apply Lx|].
      - unfold ax, cs, axis_words. destruct (present j); reflexivity.
      - intros x Hx. unfold cs, present in Hx. destruct (Nat.ltb_spec j (List.length dims)); [|destruct Hx]. eapply Nf; eassumption. }
    cbn [app]. repeat (rewrite <- app_assoc; cbn [app]). rewrite expect_same. cbn [bindo]. rewrite expect_same. cbn [bindo].
    unfold read_dims. rewrite expect_same. cbn [bindo].
    unfold next_nat at 1 2 3. cbn [next bindo fst snd]. rewrite read_nat_int by (specialize (P0 2%nat); lia). cbn [next bindo fst snd]. rewrite read_nat_int by (specialize (P0 1%nat); lia).
    cbn [next bindo fst snd]. rewrite read_nat_int by (specialize (P0 0%nat); lia). cbn [bindo fst snd].
    rewrite RA. cbn [bindo fst snd]. rewrite RA. cbn [bindo fst snd].
    pose proof (RA "Z_COORDINATES" 0%nat) as RZ. rewrite A0 in RZ. rewrite RZ. cbn [bindo fst snd].
    assert (Ec : cells_along (pts 2%nat) * cells_along (pts 1%nat) * cells_along (pts 0%nat) = prodZ dims).
    { clear - P H3 Hn. unfold cells_along, pts, present. destruct dims as [|a [|b [|c [|d t]]]]; cbn [List.length] in *; try lia; cbn [Nat.ltb Nat.leb nth];
        pose proof (P 0%nat ltac:(cbn; lia)); try pose proof (P 1%nat ltac:(cbn; lia)); try pose proof (P 2%nat ltac:(cbn; lia)); cbn [nth] in *;
        rewrite !prodZ_cons; change (prodZ []) with 1; change (Z.max 1 (1 - 1)) with 1; repeat match goal with |- context [Z.max 1 (?x + 1 - 1)] => replace (Z.max 1 (x + 1 - 1)) with x by lia end; ring. }
    rewrite Ec. pose proof (prod_range dims Hb) as Pr. rewrite (proj1 (read_scalars_ok show (prodZ dims) "f" f ltac:(lia) L Ns)). reflexivity.
  Qed.
End File.

(** The file is not a VTK file: the first line has "Data" instead of "DataFile", and a reader refuses it. That is all that is
    wrong with it: under the line it should have, a reader finds the points along the axes in reverse order, the coordinates and
    the field in memory order. *)
Theorem C96_file {D} (ar : arith D) env (showf show : D -> string) dims v lengths p G :
  (forall x, nospace (showf x) = true /\ showf x <> ""%string) -> (forall x, nospace (show x) = true /\ show x <> ""%string) ->
  up_args dims v lengths -> (List.length dims <= 3)%nat -> cy_object ar env dims v lengths p -> cy_f p = map G (cells dims) ->
  exists text rest, cy_saveVTK ar showf show p = Ok text /\ next_line text = ("# vtk Data Version 2.0"%string, rest) /\
    read_rectilinear text = None /\ read_structured text = None /\
    let points j := if (j <? List.length dims)%nat then nth j dims 0 + 1 else 1 in
    let along j := if (j <? List.length dims)%nat
      then map (fun i => showf (a_add ar (a_dec ar 0 1) (a_mul ar (cell_size ar dims lengths j) (a_ofZ ar (Z.of_nat i))))) (seq 0 (Z.to_nat (nth j dims 0 + 1)))
      else ["0.0"%string] in
    (forall j i, (j < List.length dims)%nat -> Z.of_nat i <= nth j dims 0 ->
      numeral (showf (a_add ar (a_dec ar 0 1) (a_mul ar (cell_size ar dims lengths j) (a_ofZ ar (Z.of_nat i))))) <> None) ->
    (forall g, In g (cells dims) -> numeral (show (G g)) <> None) ->
    read_rectilinear ("# vtk DataFile Version 2.0" ++ newline ++ rest) =
      Some (mkRectDoc (points 2%nat, points 1%nat, points 0%nat) (along 2%nat) (along 1%nat) (along 0%nat) "f" (map (fun g => show (G g)) (cells dims))).
Proof.
  intros Hf Hs Ha H3 Ho HG. pose proof Ha as (Hg & Hv & Hl). pose proof (nd_pos dims (up_big _ Hg)) as Hn.
  assert (He : cy_python2 env = true).
  { destruct Ho as (p0 & _ & _ & E & _). destruct (cy_python2 env) eqn:He; [reflexivity|]. exfalso. revert E. apply C90_constructor; auto. }
  apply (cy_object_of ar _ _ _ _ _ He Ha) in Ho as (f & old & L & L' & ->). cbn [cy_of cy_f] in HG. subst f.
  unfold cy_saveVTK. rewrite cy_body_eq by auto. cbn [bind]. exists (cy_line cy_version ++ cyf_body ar showf show dims lengths (map G (cells dims)))%string, (cyf_body ar showf show dims lengths (map G (cells dims))).
  assert (E : next_line (cy_line cy_version ++ cyf_body ar showf show dims lengths (map G (cells dims))) = ("# vtk Data Version 2.0"%string, cyf_body ar showf show dims lengths (map G (cells dims)))).
  { unfold cy_line. rewrite append_assoc. rewrite (NL cy_version) by reflexivity. reflexivity. }
  assert (N : read_header (cy_line cy_version ++ cyf_body ar showf show dims lengths (map G (cells dims))) = None).
  { unfold read_header. rewrite E. destruct (next_line _) as [l2 s2]. destruct (next_line s2) as [l3 s3]. reflexivity. }
  split; [reflexivity|]. split; [exact E|]. split; [unfold read_rectilinear; rewrite N; reflexivity|]. split; [unfold read_structured; rewrite N; reflexivity|].
  cbv zeta. intros Nf Ns.
  assert (Nf' : forall j x, (j < List.length dims)%nat -> In x (snd (axis_coords ar dims lengths j)) -> numeral (showf x) <> None).
  { intros j x Hj Hx. unfold axis_coords, range in Hx. cbn [snd] in Hx. rewrite map_map in Hx. apply in_map_iff in Hx as (i & <- & Hi). apply in_seq in Hi. apply (Nf j i Hj).
    pose proof (axis_range dims (up_big _ Hg) j Hj). lia. }
  assert (Ns' : forall x, In x (map G (cells dims)) -> numeral (show x) <> None) by (intros x Hx; apply in_map_iff in Hx as (g & <- & Hg'); apply Ns, Hg').
  pose proof (head_doc ar showf show dims lengths (map G (cells dims)) _ Hg H3 L Nf' Ns' (cyf_words ar showf show Hf Hs dims lengths (map G (cells dims)) Hn)) as R.
  cbv zeta in R. rewrite R. rewrite !map_map. unfold axis_coords, range. cbn [snd]. rewrite !map_map, !Z.sub_0_r. reflexivity.
Qed.
Print Assumptions C96_file.

(** ** Examples *)

(** Two cells along one axis, in whole numbers. *)
Example C96_example :
  match cy_new arInt (mkCyEnv true true) [1] [4] [2] with
  | Ok p => cy_saveVTK arInt show_int show_int p = Ok (String.concat newline
      ["# vtk Data Version 2.0"; "upwind.cxx"; "ASCII"; "DATASET RECTILINEAR_GRID"; "DIMENSIONS"; " 1  1  3"; ""; "X_COORDINATES "; "1 double"; "0.0"; "Y_COORDINATES "; "1 double"; "0.0";
       "Z_COORDINATES "; "3  double"; " 0"; " 2"; " 4"; "CELL_DATA 2"; "SCALARS f double 1"; "LOOKUP_TABLE default"; "1"; "0"; ""])%string
  | Undef _ => False
  end /\
  match cy_new arInt (mkCyEnv true true) [1; 1; 1] [6; 4; 2] [3; 2; 1] with
  | Ok p => match cy_saveVTK arInt show_int show_int p with
            | Ok t => read_rectilinear t = None /\ read_rectilinear ("# vtk DataFile Version 2.0" ++ newline ++ snd (next_line t)) =
                Some (mkRectDoc (2, 3, 4) ["0"; "2"] ["0"; "2"; "4"] ["0"; "2"; "4"; "6"] "f" ["1"; "0"; "0"; "0"; "0"; "0"])%string
            | Undef _ => False
            end
  | Undef _ => False
  end.
Proof. vm_compute. repeat split. Qed.

(** The assumptions on the numerals hold for the decimal digits of whole numbers. *)
Example C96_numerals : forall x : Z, nospace (show_int x) = true /\ show_int x <> ""%string /\ numeral (show_int x) <> None.
Proof. intros x. split; [apply nospace_int|]. split; [apply show_int_nonempty|]. rewrite C66_integer. discriminate. Qed.
