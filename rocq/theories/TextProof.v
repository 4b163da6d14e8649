(** * Reading back printed text: proofs *)
From Coq Require Import ZArith Lia Floats.SpecFloat.
From Verif Require Import Cpp CmdModel VtkModel UpModel AccModel DrvModel NumModel NumSpec NumProof TextModel TextSpec.
From Coq Require Import List.
Import ListNotations.
Local Open Scope string_scope.
Local Open Scope Z_scope.

Lemma texts_app l l' : texts (l ++ l') = texts l ++ texts l'.
Proof. induction l as [|s l IH]; [reflexivity|]. cbn [texts app]. rewrite IH, append_assoc. reflexivity. Qed.

(** ** No white space *)
Fixpoint nospace (s : string) : bool := match s with EmptyString => true | String c t => negb (is_space c) && nospace t end.
Lemma nospace_app s t : nospace (s ++ t) = nospace s && nospace t.
Proof. induction s as [|c s IH]; [reflexivity|]. cbn [append nospace]. rewrite IH. destruct (is_space c); reflexivity. Qed.

Lemma nospace_digit d : 0 <= d < 10 -> is_space (show_digit d) = false.
Proof. intros H. destruct (digit_case d H) as [->|[->|[->|[->|[->|[->|[->|[->|[->| ->]]]]]]]]]; reflexivity. Qed.
Lemma nospace_digits w : forall n, nospace (show_digits w n) = true.
Proof.
  induction w as [|w IH]; intros n; [reflexivity|]. cbn [show_digits]. rewrite nospace_app, IH. cbn [nospace].
  rewrite nospace_digit by (apply Z.mod_pos_bound; lia). reflexivity.
Qed.
Lemma nospace_nat n : nospace (show_nat n) = true.
Proof. apply nospace_digits. Qed.
Lemma nospace_int z : nospace (show_int z) = true.
Proof. unfold show_int. destruct (z <? 0); [rewrite nospace_app|]; rewrite nospace_nat; reflexivity. Qed.
Lemma nospace_strip s : nospace s = true -> nospace (strip_zeros s) = true.
Proof.
  intros H. destruct (strip_split s) as (j & E). rewrite E, nospace_app in H. apply andb_prop in H as [H _]. exact H.
Qed.
Lemma nospace_frac p f : nospace (show_frac p f) = true.
Proof.
  unfold show_frac. pose proof (nospace_strip _ (nospace_digits p f)) as H. destruct (strip_zeros (show_digits p f)) as [|c s]; [reflexivity|].
  rewrite nospace_app, H. reflexivity.
Qed.
Lemma nospace_double x : nospace (show_double x) = true.
Proof.
  destruct x as [s|s| |s m e]; cbn [show_double]; [destruct s; reflexivity..|reflexivity|].
  rewrite nospace_app. assert (P : forall a b, nospace (show_positive a b) = true); [|rewrite P; destruct s; reflexivity].
  intros a b. unfold show_positive. cbv zeta.
  match goal with |- context [let '(_, _) := ?p in _] => destruct p as [X D0] end.
  assert (F : forall p d, nospace (show_fixed p d) = true) by (intros p d; unfold show_fixed; rewrite nospace_app, nospace_nat, nospace_frac; reflexivity).
  destruct ((-4 <=? X) && (X <? 6)); [apply F|]. rewrite !nospace_app, F. unfold show_exp.
  rewrite !nospace_app, nospace_nat. destruct (X <? 0), (Z.abs X <? 10); reflexivity.
Qed.

Lemma show_nat_nonempty n : show_nat n <> "".
Proof.
  unfold show_nat. pose proof (width_pos (Z.to_nat (Z.log2 n)) n) as W. destruct (width _ n) as [|w]; [lia|]. cbn [show_digits].
  destruct (show_digits w (n / 10)); discriminate.
Qed.
Lemma show_int_nonempty z : show_int z <> "".
Proof. unfold show_int. destruct (z <? 0); [discriminate|apply show_nat_nonempty]. Qed.
Lemma show_double_nonempty x : show_double x <> "".
Proof.
  destruct x as [s|s| |s m e]; cbn [show_double]; [destruct s; discriminate..|discriminate|].
  destruct s; [discriminate|]. cbn [append]. unfold show_positive. cbv zeta.
  match goal with |- context [let '(_, _) := ?p in _] => destruct p as [X D0] end.
  assert (F : forall p d t, show_fixed p d ++ t <> "").
  { intros p d t. unfold show_fixed. pose proof (show_nat_nonempty (d / 10 ^ Z.of_nat p)) as N. destruct (show_nat (d / 10 ^ Z.of_nat p)); [congruence|discriminate]. }
  destruct ((-4 <=? X) && (X <? 6)); [rewrite <- (append_nil (show_fixed _ _))|]; apply F.
Qed.

(** ** Words *)
Lemma split_append w : forall cur s, nospace w = true -> split_words cur (w ++ s) = split_words (cur ++ w) s.
Proof.
  induction w as [|c w IH]; intros cur s H; [rewrite append_nil; reflexivity|]. cbn [nospace] in H. apply andb_prop in H as [H1 H2].
  cbn [append split_words]. apply negb_true_iff in H1. rewrite H1, IH by exact H2. rewrite append_assoc. reflexivity.
Qed.
Lemma split_space cur s : split_words cur (" " ++ s) = (word cur ++ split_words "" s)%list.
Proof. reflexivity. Qed.
Lemma split_newline cur s : split_words cur (newline ++ s) = (word cur ++ split_words "" s)%list.
Proof. reflexivity. Qed.
Lemma word_one w : w <> "" -> word w = [w].
Proof. destruct w; [congruence|reflexivity]. Qed.
Lemma split_word_space w s : nospace w = true -> w <> "" -> split_words "" (w ++ " " ++ s) = w :: split_words "" s.
Proof. intros H N. rewrite split_append, split_space by exact H. cbn [append]. rewrite word_one by exact N. reflexivity. Qed.
Lemma split_word_newline w s : nospace w = true -> w <> "" -> split_words "" (w ++ newline ++ s) = w :: split_words "" s.
Proof. intros H N. rewrite split_append, split_newline by exact H. cbn [append]. rewrite word_one by exact N. reflexivity. Qed.

Section Numbers.
  Context {A : Type} (show : A -> string).
  Hypothesis Hs : forall x, nospace (show x) = true /\ show x <> "".

  Lemma split_spaced l : forall cur s, nospace cur = true ->
    split_words cur (texts (map (fun x => " " ++ show x) l) ++ newline ++ s) = (word cur ++ map show l ++ split_words "" s)%list.
  Proof using Hs.
    induction l as [|x l IH]; intros cur s H; [reflexivity|]. cbn [map texts]. rewrite !append_assoc, split_space.
    rewrite split_append by apply Hs. rewrite IH by apply Hs. cbn [append]. rewrite (word_one (show x)) by apply Hs. reflexivity.
  Qed.

  Lemma split_values l : forall i s, split_words "" (values_text show i l ++ newline ++ s) = (map show l ++ split_words "" s)%list.
  Proof using Hs.
    induction l as [|x l IH]; intros i s; [reflexivity|]. cbn [map values_text]. rewrite !append_assoc.
    rewrite split_word_space by apply Hs. cbn [app]. f_equal.
    destruct ((i + 1) mod 10 =? 0); [rewrite split_newline|]; cbn [append word app]; apply IH.
  Qed.

  Lemma take_numbers l ws : (forall x, In x l -> numeral (show x) <> None) ->
    next_numbers (List.length l) (map show l ++ ws)%list = Some (map show l, ws).
  Proof using.
    induction l as [|x l IH]; intros H; [reflexivity|]. cbn [List.length next_numbers map app next bindo fst snd].
    destruct (numeral (show x)) eqn:E; [|exfalso; exact (H x (or_introl eq_refl) E)]. cbn [bindo].
    rewrite IH by (intros y Hy; apply H; right; exact Hy). reflexivity.
  Qed.
End Numbers.

Lemma lit2 s a b t : s = a ++ b -> s ++ t = a ++ b ++ t.
Proof. intros ->. apply append_assoc. Qed.
Lemma lit3 s a b c t : s = a ++ b ++ c -> s ++ t = a ++ b ++ c ++ t.
Proof. intros ->. rewrite !append_assoc. reflexivity. Qed.

Lemma next_line_newline l s : (forall i a, String.get i l = Some a -> a <> ascii_of_N 10) -> next_line (l ++ newline ++ s) = (l, s).
Proof.
  induction l as [|c l IH]; intros H; [reflexivity|]. cbn [append next_line].
  destruct (Z.eqb_spec (Z.of_N (N_of_ascii c)) 10) as [E|_].
  - exfalso. apply (H O c eq_refl). rewrite <- (ascii_N_embedding c). f_equal. lia.
  - change (String (ascii_of_N 10) s) with (newline ++ s) in *. rewrite IH; [reflexivity|]. intros i a G. exact (H (S i) a G).
Qed.

Lemma read_nat_int n : 0 <= n -> read_nat (show_int n) = Some n.
Proof. intros H. unfold show_int. destruct (Z.ltb_spec n 0); [lia|]. apply read_nat_show, H. Qed.

Lemma expect_same k ws : expect k (k :: ws) = Some ws.
Proof. unfold expect. cbn [next bindo fst snd]. rewrite String.eqb_refl. reflexivity. Qed.

(** ** The files of saveVTK *)
Section Rect.
  Context {A : Type} (show : A -> string).
  Hypothesis Hs : forall x, nospace (show x) = true /\ show x <> "".

  Definition axis_words (present : bool) (l : list A) : list string := if present then map show l else ["0.0"].

  Lemma split_axis key (present : bool) n xs s : nospace key = true -> key <> "" ->
    split_words "" (key ++ " " ++ coords_text show present (n, xs) ++ newline ++ s) =
    (key :: (if present then show_int n else "1") :: "double" :: axis_words present xs ++ split_words "" s)%list.
  Proof using Hs.
    intros K1 K2. rewrite split_word_space by assumption. f_equal. unfold coords_text. destruct present; cbn [fst snd axis_words].
    - rewrite !append_assoc. change (" double" ++ newline ++ texts (map (fun x => " " ++ show x) xs) ++ newline ++ s)
        with (" " ++ "double" ++ newline ++ texts (map (fun x => " " ++ show x) xs) ++ newline ++ s).
      rewrite split_word_space by (apply nospace_int || apply show_int_nonempty). f_equal.
      rewrite split_word_newline by (reflexivity || discriminate). f_equal.
      apply (split_spaced show Hs xs ""). reflexivity.
    - reflexivity.
  Qed.

  Lemma read_axis_ok key (present : bool) n xs ws : 0 <= n -> (if present then Z.of_nat (List.length xs) = n else n = 1) ->
    (forall x, In x xs -> numeral (show x) <> None) ->
    read_axis key n (key :: (if present then show_int n else "1") :: "double" :: axis_words present xs ++ ws)%list = Some (axis_words present xs, ws).
  Proof using.
    intros Hn L F. unfold read_axis. rewrite expect_same. cbn [bindo].
    unfold next_nat. cbn [next bindo fst snd].
    assert (E : read_nat (if present then show_int n else "1") = Some n).
    { destruct present; [apply read_nat_int, Hn|]. rewrite L. reflexivity. }
    rewrite E. cbn [bindo fst snd]. rewrite Z.eqb_refl. cbn [next_type next bindo fst snd].
    change (("double" =? "float")%string || ("double" =? "double")%string)%bool with true. cbv iota. cbn [bindo].
    destruct present; cbn [axis_words].
    - rewrite <- L, Nat2Z.id. apply take_numbers, F.
    - rewrite L. reflexivity.
  Qed.

  Lemma read_scalars_ok n name values : 0 <= n -> Z.of_nat (List.length values) = n -> (forall x, In x values -> numeral (show x) <> None) ->
    read_scalars n ("CELL_DATA" :: show_int n :: "SCALARS" :: name :: "double" :: "1" :: "LOOKUP_TABLE" :: "default" :: map show values) = Some (name, map show values) /\
    read_scalars n ("CELL_DATA" :: show_int n :: "SCALARS" :: name :: "float" :: "LOOKUP_TABLE" :: "default" :: map show values) = Some (name, map show values).
  Proof using.
    intros Hn L F.
    assert (G : forall ty, (((ty =? "float") || (ty =? "double"))%string%bool = true) -> forall one, one = ["1"] \/ one = [] ->
      read_scalars n ("CELL_DATA" :: show_int n :: "SCALARS" :: name :: ty :: one ++ "LOOKUP_TABLE" :: "default" :: map show values)%list = Some (name, map show values)).
    { intros ty Ht one Ho. unfold read_scalars. rewrite expect_same. cbn [bindo]. unfold next_nat. cbn [next bindo fst snd].
      rewrite read_nat_int by exact Hn. cbn [bindo fst snd]. rewrite Z.eqb_refl. rewrite expect_same. cbn [next bindo fst snd].
      unfold next_type. cbn [next bindo fst snd]. rewrite Ht. cbn [bindo].
      pose proof (take_numbers show values [] F) as T. rewrite app_nil_r in T.
      assert (E : match expect "1" (one ++ "LOOKUP_TABLE" :: "default" :: map show values)%list with Some ws' => ws' | None => (one ++ "LOOKUP_TABLE" :: "default" :: map show values)%list end
                  = "LOOKUP_TABLE" :: "default" :: map show values).
      { destruct Ho as [-> | ->]; [cbn [app]; rewrite expect_same|]; reflexivity. }
      rewrite E, expect_same. cbn [bindo]. rewrite expect_same. cbn [bindo]. rewrite <- L, Nat2Z.id, T. reflexivity. }
    split; [apply (G "double" eq_refl ["1"]); left; reflexivity|apply (G "float" eq_refl []); right; reflexivity].
  Qed.

  Definition px (NDIMS : Z) (j : Z) : bool := j <? NDIMS.

  Lemma rect_read NDIMS a b c xs ys zs values :
    0 <= a -> 0 <= b -> 0 <= c ->
    (if 2 <? NDIMS then Z.of_nat (List.length xs) = a else a = 1) ->
    (if 1 <? NDIMS then Z.of_nat (List.length ys) = b else b = 1) ->
    Z.of_nat (List.length zs) = c ->
    Z.of_nat (List.length values) = cells_along a * cells_along b * cells_along c ->
    (forall x, In x (xs ++ ys ++ zs ++ values)%list -> numeral (show x) <> None) ->
    read_rectilinear (rect_text show NDIMS (@mkRect A [a; b; c] [(a, xs); (b, ys); (c, zs)] (Z.of_nat (List.length values)) values)) =
    Some (mkRectDoc (a, b, c) (axis_words (2 <? NDIMS) xs) (axis_words (1 <? NDIMS) ys) (map show zs) "f" (map show values)).
  Proof using Hs.
    intros Ha Hb Hc Lx Ly Lz Lv F. unfold rect_text. cbn [rg_dims rg_coords rg_count rg_values nth].
    unfold read_rectilinear, read_header.
    assert (NL : forall l s, forallb (fun c => negb (Ascii.eqb c (ascii_of_N 10))) (list_ascii_of_string l) = true -> next_line (l ++ newline ++ s) = (l, s)).
    { intros l s H. apply next_line_newline. clear - H. induction l as [|x l IH]; intros i d G; [destruct i; discriminate|].
      cbn [list_ascii_of_string forallb] in H. apply andb_prop in H as [H1 H2]. destruct i; cbn [String.get] in G; [|exact (IH H2 i d G)].
      injection G as <-. intros ->. discriminate. }
    rewrite (NL "# vtk DataFile Version 2.0") by reflexivity. rewrite (NL "upwind.cxx") by reflexivity. rewrite (NL "ASCII") by reflexivity.
    rewrite !String.eqb_refl. cbn [andb bindo]. unfold words.
    rewrite (lit3 "DATASET RECTILINEAR_GRID" "DATASET" " " "RECTILINEAR_GRID" _ eq_refl).
    rewrite split_word_space by (reflexivity || discriminate). rewrite split_word_newline by (reflexivity || discriminate).
    rewrite split_append by reflexivity. change ("" ++ "DIMENSIONS") with "DIMENSIONS".
    rewrite (split_spaced show_int (fun x => conj (nospace_int x) (show_int_nonempty x)) [a; b; c] "DIMENSIONS") by reflexivity.
    rewrite (lit2 "X_COORDINATES " "X_COORDINATES" " " _ eq_refl). rewrite split_axis by (reflexivity || discriminate).
    rewrite (lit2 "Y_COORDINATES " "Y_COORDINATES" " " _ eq_refl). rewrite split_axis by (reflexivity || discriminate).
    rewrite (lit2 "Z_COORDINATES " "Z_COORDINATES" " " _ eq_refl). rewrite split_axis by (reflexivity || discriminate).
    rewrite (lit2 "CELL_DATA " "CELL_DATA" " " _ eq_refl). rewrite split_word_space by (reflexivity || discriminate).
    rewrite split_word_newline by (apply nospace_int || apply show_int_nonempty).
    rewrite (lit3 "SCALARS f double 1" "SCALARS" " " "f double 1" _ eq_refl), (lit3 "f double 1" "f" " " "double 1" _ eq_refl), (lit3 "double 1" "double" " " "1" _ eq_refl).
    do 3 rewrite split_word_space by (reflexivity || discriminate). rewrite split_word_newline by (reflexivity || discriminate).
    rewrite (lit3 "LOOKUP_TABLE default" "LOOKUP_TABLE" " " "default" _ eq_refl).
    rewrite split_word_space by (reflexivity || discriminate). rewrite split_word_newline by (reflexivity || discriminate).
    rewrite <- (append_nil (values_text show 0 values ++ newline)), append_assoc, split_values by exact Hs. cbn [split_words word]. rewrite app_nil_r.
    cbn [word app map].
    rewrite expect_same. cbn [bindo].
    rewrite expect_same. cbn [bindo].
    unfold read_dims. rewrite expect_same. cbn [bindo].
    unfold next_nat. cbn [next bindo fst snd]. rewrite (read_nat_int a) by exact Ha. cbn [next bindo fst snd]. rewrite (read_nat_int b) by exact Hb.
    cbn [next bindo fst snd]. rewrite (read_nat_int c) by exact Hc. cbn [bindo fst snd].
    rewrite read_axis_ok; [|exact Ha|exact Lx|intros x Hx; apply F; apply in_or_app; left; exact Hx]. cbn [bindo fst snd].
    rewrite read_axis_ok; [|exact Hb|exact Ly|intros x Hx; apply F; apply in_or_app; right; apply in_or_app; left; exact Hx]. cbn [bindo fst snd].
    rewrite (read_axis_ok "Z_COORDINATES" true c zs); [|exact Hc|exact Lz|intros x Hx; apply F; do 2 (apply in_or_app; right); apply in_or_app; left; exact Hx]. cbn [bindo fst snd].
    rewrite Lv.
    destruct (read_scalars_ok (cells_along a * cells_along b * cells_along c) "f" values) as (R & _); [lia|exact Lv|intros x Hx; apply F; do 3 (apply in_or_app; right); exact Hx|].
    rewrite R. reflexivity.
  Qed.
End Rect.

(** ** The files of writeVTK *)
Section Grid.
  Context {A : Type} (show : A -> string).
  Hypothesis Hs : forall x, nospace (show x) = true /\ show x <> "".

  Lemma split_points l s : (forall p, In p l -> List.length p = 3%nat) ->
    split_words "" (texts (map (point_text show) l) ++ s) = (map show (concat l) ++ split_words "" s)%list.
  Proof using Hs.
    induction l as [|p l IH]; intros H; [reflexivity|]. specialize (H p (or_introl eq_refl)) as Hp.
    destruct p as [|x [|y [|z [|? ?]]]]; try discriminate Hp. cbn [map texts point_text concat]. rewrite !append_assoc.
    rewrite !split_word_space by apply Hs. rewrite split_word_newline by apply Hs. rewrite IH by (intros q Hq; apply H; right; exact Hq).
    rewrite map_app, <- app_assoc. reflexivity.
  Qed.

  Lemma split_lines l : split_words "" (texts (map (fun x => show x ++ newline) l)) = map show l.
  Proof using Hs.
    induction l as [|x l IH]; [reflexivity|]. cbn [map texts]. rewrite append_assoc, split_word_newline by apply Hs. rewrite IH. reflexivity.
  Qed.

  Lemma grid_read name a b c points values : nospace name = true -> name <> "" -> 0 <= a -> 0 <= b -> 0 <= c ->
    (forall p, In p points -> List.length p = 3%nat) -> Z.of_nat (List.length points) = a * b * c ->
    Z.of_nat (List.length values) = cells_along a * cells_along b * cells_along c ->
    (forall x, In x (concat points ++ values)%list -> numeral (show x) <> None) ->
    read_structured (grid_text show name (@mkVtk A [a; b; c] (Z.of_nat (List.length points)) points (Z.of_nat (List.length values)) values)) =
    Some (mkGridDoc (a, b, c) (map show (concat points)) name (map show values)).
  Proof using Hs.
    intros Nn Nm Ha Hb Hc H3 Lp Lv F. unfold grid_text. cbn [vf_dims vf_npoints vf_points vf_ncells vf_values nth].
    unfold read_structured, read_header.
    assert (NL : forall l s, forallb (fun c => negb (Ascii.eqb c (ascii_of_N 10))) (list_ascii_of_string l) = true -> next_line (l ++ newline ++ s) = (l, s)).
    { intros l s H. apply next_line_newline. clear - H. induction l as [|x l IH]; intros i d G; [destruct i; discriminate|].
      cbn [list_ascii_of_string forallb] in H. apply andb_prop in H as [H1 H2]. destruct i; cbn [String.get] in G; [|exact (IH H2 i d G)].
      injection G as <-. intros ->. discriminate. }
    rewrite (NL "# vtk DataFile Version 2.0") by reflexivity. rewrite (NL "produced by laplacian") by reflexivity. rewrite (NL "ASCII") by reflexivity.
    rewrite !String.eqb_refl. cbn [andb bindo]. unfold words.
    rewrite (lit3 "DATASET STRUCTURED_GRID" "DATASET" " " "STRUCTURED_GRID" _ eq_refl).
    rewrite split_word_space by (reflexivity || discriminate). rewrite split_word_newline by (reflexivity || discriminate).
    rewrite (lit2 "DIMENSIONS " "DIMENSIONS" " " _ eq_refl). rewrite split_word_space by (reflexivity || discriminate).
    rewrite !(split_word_space (show_int _)) by (apply nospace_int || apply show_int_nonempty).
    rewrite !(split_word_newline (show_int _)) by (apply nospace_int || apply show_int_nonempty).
    rewrite (lit2 "POINTS " "POINTS" " " _ eq_refl). rewrite split_word_space by (reflexivity || discriminate).
    rewrite (lit2 " float" " " "float" _ eq_refl).
    rewrite !(split_word_space (show_int _)) by (apply nospace_int || apply show_int_nonempty).
    rewrite split_word_newline by (reflexivity || discriminate). rewrite split_points by exact H3.
    rewrite (lit2 "CELL_DATA " "CELL_DATA" " " _ eq_refl). rewrite split_word_space by (reflexivity || discriminate).
    rewrite !(split_word_newline (show_int _)) by (apply nospace_int || apply show_int_nonempty).
    rewrite (lit2 "SCALARS " "SCALARS" " " _ eq_refl). rewrite split_word_space by (reflexivity || discriminate).
    rewrite (lit2 " float" " " "float" _ eq_refl).
    rewrite (split_word_space name) by assumption. rewrite split_word_newline by (reflexivity || discriminate).
    rewrite (lit3 "LOOKUP_TABLE default" "LOOKUP_TABLE" " " "default" _ eq_refl).
    rewrite split_word_space by (reflexivity || discriminate). rewrite split_word_newline by (reflexivity || discriminate).
    rewrite split_lines. rewrite expect_same. cbn [bindo]. rewrite expect_same. cbn [bindo].
    unfold read_dims. rewrite expect_same. cbn [bindo]. unfold next_nat at 1 2 3. cbn [next bindo fst snd].
    repeat (rewrite !read_nat_int by lia; cbn [next bindo fst snd]).
    rewrite expect_same. cbn [bindo]. unfold next_nat. cbn [next bindo fst snd]. rewrite read_nat_int by lia. cbn [bindo fst snd].
    rewrite Lp, Z.eqb_refl. cbn [next_type next bindo fst snd].
    change (("float" =? "float")%string || ("float" =? "double")%string)%bool with true. cbv iota. cbn [bindo].
    assert (Lc : List.length (concat points) = Z.to_nat (3 * (a * b * c))).
    { rewrite <- Lp. clear - H3. induction points as [|p l IH]; [reflexivity|]. cbn [concat List.length]. rewrite app_length, (H3 p (or_introl eq_refl)).
      rewrite IH by (intros q Hq; apply H3; right; exact Hq). lia. }
    rewrite <- Lc. rewrite take_numbers by (intros x Hx; apply F; rewrite in_app_iff; left; exact Hx). cbn [bindo fst snd].
    destruct (read_scalars_ok show (Z.of_nat (List.length values)) name values ltac:(lia) eq_refl ltac:(intros x Hx; apply F; rewrite in_app_iff; right; exact Hx)) as (_ & E).
    rewrite <- Lv, E. reflexivity.
  Qed.
End Grid.
