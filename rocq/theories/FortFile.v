(** * Reading the files of the Fortran versions *)
From Coq Require Import List ZArith Bool Lia Reals Lra String Ascii SpecFloat.
From Flocq Require Import Core BinarySingleNaN.
From Verif Require Import Cpp CppProof CmdModel UpModel DblSpec NumModel NumSpec NumProof TextModel TextSpec TextProof FortTextModel.
From Coq Require Import List.
Import ListNotations.
Local Open Scope string_scope.
Local Open Scope Z_scope.

(** ** Padding *)
Lemma split_blanks k : forall s, split_words "" (fill " " k ++ s) = split_words "" s.
Proof. induction k as [|k IH]; intros s; [reflexivity|]. cbn [fill append]. apply IH. Qed.
Lemma split_blanks_word k cur s : split_words cur (fill " " (S k) ++ s) = (word cur ++ split_words "" s)%list.
Proof. cbn [fill append]. change (split_words cur (String " " (fill " " k ++ s))) with (word cur ++ split_words "" (fill " " k ++ s))%list. rewrite split_blanks. reflexivity. Qed.

Lemma length_append a b : String.length (a ++ b) = (String.length a + String.length b)%nat.
Proof. induction a as [|c a IH]; [reflexivity|]. cbn [append String.length]. rewrite IH. reflexivity. Qed.
Lemma digits_length w n : String.length (show_digits w n) = w.
Proof. revert n. induction w as [|w IH]; intros n; [reflexivity|]. cbn [show_digits]. rewrite length_append, IH. cbn [String.length]. lia. Qed.
Lemma width_le fuel : forall n w, n < 10 ^ Z.of_nat (S w) -> (width fuel n <= S w)%nat.
Proof.
  induction fuel as [|f IH]; intros n w H; cbn [width]; [lia|]. destruct (Z.ltb_spec n 10); [lia|].
  destruct w as [|w]; [change (10 ^ Z.of_nat 1) with 10 in H; lia|]. apply le_n_S, IH. apply Z.div_lt_upper_bound; [lia|].
  rewrite (Nat2Z.inj_succ (S w)), Z.pow_succ_r in H by lia. lia.
Qed.
Lemma int_length n w : 0 <= n < 10 ^ Z.of_nat (S w) -> (String.length (show_int n) <= S w)%nat.
Proof. intros (H0 & H). unfold show_int. destruct (Z.ltb_spec n 0); [lia|]. unfold show_nat. rewrite digits_length. apply width_le, H. Qed.
(** the number fits, with a blank in front of it when it has fewer digits than there are columns *)
Lemma i_edit_fits w n : 0 <= n < 10 ^ Z.of_nat (S w) -> exists k, i_edit (S w) n = fill " " k ++ show_int n.
Proof. intros H. pose proof (int_length n w H). unfold i_edit. destruct (Nat.leb_spec (String.length (show_int n)) (S w)); [|lia]. eexists. reflexivity. Qed.
Lemma i_edit_blank w n : 0 <= n < 10 ^ Z.of_nat (S w) -> exists k, i_edit (S (S w)) n = fill " " (S k) ++ show_int n.
Proof.
  intros H. pose proof (int_length n w H). unfold i_edit. destruct (Nat.leb_spec (String.length (show_int n)) (S (S w))); [|lia]. unfold pad.
  exists (S w - String.length (show_int n))%nat. f_equal. f_equal. lia.
Qed.

Section File.
  Context {A : Type} (show w : A -> string) (P : A -> Prop).
  (** what is written for a number: a word after blanks *)
  Hypothesis Hs : forall x, P x -> exists k, show x = fill " " k ++ w x.
  Hypothesis Hw : forall x, P x -> nospace (w x) = true /\ w x <> "".
  Variable empty : string.
  Hypothesis He : exists k, empty = fill " " k.

  Lemma split_column l s : Forall P l -> split_words "" (column show l ++ s) = (map w l ++ split_words "" s)%list.
  Proof using Hs Hw.
    induction 1 as [|x l Hx _ IH]; [reflexivity|]. unfold column in *. cbn [map texts]. destruct (Hs x Hx) as (k & ->). destruct (Hw x Hx).
    rewrite !append_assoc, split_blanks, split_word_newline by assumption. rewrite IH. reflexivity.
  Qed.

  Lemma split_axis3 name n xs s : nospace name = true -> 0 <= n < 10 ^ 10 -> Forall P xs ->
    split_words "" (fo_axis_text show name true (n, xs) ++ s) = (name ++ "_COORDINATES") :: show_int n :: "double" :: (map w xs ++ split_words "" s)%list.
  Proof using Hs Hw.
    intros Hn Hr HP. unfold fo_axis_text. cbn [fst snd]. destruct (i_edit_fits 9 n Hr) as (k & ->). rewrite !append_assoc.
    rewrite (lit2 "_COORDINATES " "_COORDINATES" " " _ eq_refl).
    rewrite <- (append_assoc name), split_append by (rewrite nospace_app, Hn; reflexivity).
    change (" " ++ fill " " k ++ ?t) with (fill " " (S k) ++ t). rewrite split_blanks_word. change ("" ++ ?t) with t.
    rewrite word_one by (destruct name; discriminate). cbn [app]. f_equal.
    change (" double" ++ newline ++ column show xs ++ s) with (" " ++ "double" ++ newline ++ column show xs ++ s).
    rewrite split_word_space by (apply nospace_int || apply show_int_nonempty). f_equal.
    rewrite split_word_newline by (reflexivity || discriminate). f_equal. apply split_column, HP.
  Qed.

  Lemma split_dims3 a b c s : 0 <= a < 10 ^ 10 -> 0 <= b < 10 ^ 9 -> 0 <= c < 10 ^ 9 ->
    split_words "" (fo_dims_text 3 [a; b; c] ++ s) = "DIMENSIONS" :: show_int a :: show_int b :: show_int c :: split_words "" s.
  Proof using Type.
    clear. intros Ha Hb Hc. unfold fo_dims_text. change (2 <? 3) with true. cbv iota. cbn [nth].
    destruct (i_edit_fits 9 a Ha) as (i & ->). destruct (i_edit_blank 8 b Hb) as (j & ->). destruct (i_edit_blank 8 c Hc) as (k & ->). rewrite !append_assoc.
    rewrite (lit2 "DIMENSIONS " "DIMENSIONS" " " _ eq_refl), split_word_space by (reflexivity || discriminate). f_equal. rewrite split_blanks.
    rewrite split_append, split_blanks_word by apply nospace_int. change ("" ++ ?t) with t. rewrite word_one by apply show_int_nonempty. cbn [app]. f_equal.
    rewrite split_append, split_blanks_word by apply nospace_int. change ("" ++ ?t) with t. rewrite word_one by apply show_int_nonempty. cbn [app]. f_equal.
    rewrite split_word_newline by (apply nospace_int || apply show_int_nonempty). reflexivity.
  Qed.

  Lemma axis3_ok key n xs ws : 0 <= n -> Z.of_nat (List.length xs) = n -> (forall x, In x xs -> numeral (w x) <> None) ->
    read_axis key n (key :: show_int n :: "double" :: map w xs ++ ws)%list = Some (map w xs, ws).
  Proof using Type. clear. intros Hn L F. exact (read_axis_ok w key true n xs ws Hn L F). Qed.

  Lemma file_read a b c xs ys zs values count :
    0 <= a < 10 ^ 10 -> 0 <= b < 10 ^ 9 -> 0 <= c < 10 ^ 9 -> 0 <= count < 10 ^ 20 ->
    Z.of_nat (List.length xs) = a -> Z.of_nat (List.length ys) = b -> Z.of_nat (List.length zs) = c ->
    Z.of_nat (List.length values) = count -> count = cells_along a * cells_along b * cells_along c ->
    Forall P xs -> Forall P ys -> Forall P zs -> Forall P values ->
    (forall x, In x (xs ++ ys ++ zs)%list -> numeral (w x) <> None) ->
    read_rectilinear (fo_vtk_text show empty 3 (@mkRect A [a; b; c] [(a, xs); (b, ys); (c, zs)] count values)) =
    bindo (next_numbers (List.length values) (map w values)) (fun q =>
      match snd q with [] => Some (mkRectDoc (a, b, c) (map w xs) (map w ys) (map w zs) "f" (fst q)) | _ => None end).
  Proof using Hs Hw He.
    intros Ha Hb Hc Hcount Lx Ly Lz Lv Ec Px Py Pz Pv F. unfold fo_vtk_text. cbn [rg_dims rg_coords rg_count rg_values nth].
    change (1 <? 3) with true. change (2 <? 3) with true. destruct He as (ke & ->).
    unfold read_rectilinear, read_header.
    assert (NL : forall l s, forallb (fun c => negb (Ascii.eqb c (ascii_of_N 10))) (list_ascii_of_string l) = true -> next_line (l ++ newline ++ s) = (l, s)).
    { intros l s H. apply next_line_newline. clear - H. induction l as [|x l IH]; intros i d G; [destruct i; discriminate|].
      cbn [list_ascii_of_string forallb] in H. apply andb_prop in H as [H1 H2]. destruct i; cbn [String.get] in G; [|exact (IH H2 i d G)].
      injection G as <-. intros ->. discriminate. }
    rewrite (NL "# vtk DataFile Version 2.0") by reflexivity. rewrite (NL "upwind.f90") by reflexivity. rewrite (NL "ASCII") by reflexivity.
    rewrite !String.eqb_refl. cbn [andb bindo]. unfold words.
    rewrite (lit3 "DATASET RECTILINEAR_GRID" "DATASET" " " "RECTILINEAR_GRID" _ eq_refl).
    rewrite split_word_space by (reflexivity || discriminate). rewrite split_word_newline by (reflexivity || discriminate).
    rewrite split_dims3 by assumption.
    rewrite (split_axis3 "X") by (reflexivity || assumption). rewrite split_blanks, split_newline.
    rewrite (split_axis3 "Y") by (reflexivity || assumption || (split; [apply Hb|]; apply Z.lt_trans with (10 ^ 9); [apply Hb|reflexivity])). rewrite split_blanks, split_newline.
    rewrite (split_axis3 "Z") by (reflexivity || assumption || (split; [apply Hc|]; apply Z.lt_trans with (10 ^ 9); [apply Hc|reflexivity])).
    change ("X" ++ "_COORDINATES") with "X_COORDINATES". change ("Y" ++ "_COORDINATES") with "Y_COORDINATES". change ("Z" ++ "_COORDINATES") with "Z_COORDINATES".
    rewrite (lit2 "CELL_DATA " "CELL_DATA" " " _ eq_refl). rewrite split_word_space by (reflexivity || discriminate).
    destruct (i_edit_fits 19 count Hcount) as (kc & ->). rewrite append_assoc, split_blanks.
    rewrite split_word_newline by (apply nospace_int || apply show_int_nonempty).
    rewrite (lit3 "SCALARS f double 1" "SCALARS" " " "f double 1" _ eq_refl), (lit3 "f double 1" "f" " " "double 1" _ eq_refl), (lit3 "double 1" "double" " " "1" _ eq_refl).
    do 3 rewrite split_word_space by (reflexivity || discriminate). rewrite split_word_newline by (reflexivity || discriminate).
    rewrite (lit3 "LOOKUP_TABLE default" "LOOKUP_TABLE" " " "default" _ eq_refl).
    rewrite split_word_space by (reflexivity || discriminate). rewrite split_word_newline by (reflexivity || discriminate).
    rewrite <- (append_nil (column show values)), split_column by exact Pv. cbn [split_words word]. rewrite app_nil_r.
    cbn [word app map].
    rewrite expect_same. cbn [bindo].
    rewrite expect_same. cbn [bindo].
    unfold read_dims. rewrite expect_same. cbn [bindo].
    unfold next_nat. cbn [next bindo fst snd]. rewrite (read_nat_int a) by apply Ha. cbn [next bindo fst snd]. rewrite (read_nat_int b) by apply Hb.
    cbn [next bindo fst snd]. rewrite (read_nat_int c) by apply Hc. cbn [bindo fst snd].
    rewrite axis3_ok; [|apply Ha|exact Lx|intros x Hx; apply F; apply in_or_app; left; exact Hx]. cbn [bindo fst snd].
    rewrite axis3_ok; [|apply Hb|exact Ly|intros x Hx; apply F; apply in_or_app; right; apply in_or_app; left; exact Hx]. cbn [bindo fst snd].
    rewrite axis3_ok; [|apply Hc|exact Lz|intros x Hx; apply F; do 2 (apply in_or_app; right); exact Hx]. cbn [bindo fst snd].
    rewrite <- Ec. unfold read_scalars. rewrite expect_same. cbn [bindo]. unfold next_nat. cbn [next bindo fst snd].
    rewrite read_nat_int by apply Hcount. cbn [bindo fst snd]. rewrite Z.eqb_refl. rewrite expect_same. cbn [next bindo fst snd].
    unfold next_type. cbn [next bindo fst snd]. change ((("double" =? "float") || ("double" =? "double"))%string%bool) with true. cbv iota. cbn [bindo].
    rewrite expect_same. rewrite expect_same. cbn [bindo]. rewrite expect_same. cbn [bindo]. rewrite <- Lv, Nat2Z.id.
    destruct (next_numbers (List.length values) (map w values)) as [(l & [|? ?])|]; reflexivity.
  Qed.
End File.

(** One bad number spoils the list. *)
Lemma bad_number {A} (w : A -> string) l x ws : In x l -> numeral (w x) = None -> next_numbers (List.length l) (map w l ++ ws)%list = None.
Proof.
  induction l as [|y l IH]; [intros []|]. intros [E|Hi] Hn; cbn [List.length next_numbers map app next bindo fst snd].
  - subst y. rewrite Hn. reflexivity.
  - destruct (numeral (w y)); [|reflexivity]. cbn [bindo]. rewrite IH by assumption. reflexivity.
Qed.

(** ** The words of e20.7 *)
Definition e_word (sign : string) (m k : Z) : string := sign ++ "0." ++ show_digits 7 m ++ exp_text k.

Lemma e_word_length sign m k : (String.length sign <= 1)%nat -> (String.length (e_word sign m k) <= 14)%nat.
Proof.
  intros H. unfold e_word, exp_text. rewrite !length_append, digits_length. destruct (Z.abs k <=? 99); destruct (k <? 0); rewrite !length_append, !digits_length; simpl String.length; lia.
Qed.
Lemma e_word_nospace sign m k : nospace sign = true -> nospace (e_word sign m k) = true /\ e_word sign m k <> "".
Proof.
  intros H. split; [|unfold e_word; destruct sign; discriminate]. unfold e_word, exp_text.
  destruct (Z.abs k <=? 99); destruct (k <? 0); rewrite !nospace_app, H, !nospace_digits; reflexivity.
Qed.

Lemma read_two n : 0 <= n <= 99 -> read_nat (show_digits 2 n) = Some n.
Proof. intros H. unfold read_nat. rewrite read_show_digits by (change (10 ^ Z.of_nat 2) with 100; lia). change (0 + Z.of_nat 2 =? 0) with false. reflexivity. Qed.

Lemma e_word_unsigned m k : 0 <= m < 10 ^ 7 ->
  read_unsigned (e_word "" m k) = (if Z.abs k <=? 99 then Some (m, k - 7) else None).
Proof.
  intros Hm. unfold e_word. change ("" ++ ?t) with t. unfold read_unsigned.
  change (read_digits 0 0 ("0." ++ show_digits 7 m ++ exp_text k)) with (0, 1, "." ++ show_digits 7 m ++ exp_text k). cbv beta iota. change (1 =? 0) with false. cbv iota.
  change ("." ++ show_digits 7 m ++ exp_text k) with (String "." (show_digits 7 m ++ exp_text k)). cbv iota.
  rewrite (read_digits_app _ _ _ _ _ _ (read_show_digits 7 m 0 0 Hm)). change (0 * 10 ^ Z.of_nat 7 + m) with m. change (0 + Z.of_nat 7) with 7.
  unfold exp_text. destruct (Z.leb_spec (Z.abs k) 99) as [H|H].
  - destruct (Z.ltb_spec k 0) as [N|N].
    + change (read_digits m 7 ("E" ++ "-" ++ show_digits 2 (Z.abs k))) with (m, 7, String "E" (String "-" (show_digits 2 (Z.abs k)))). cbv beta iota.
      rewrite read_two by lia. f_equal. f_equal. lia.
    + change (read_digits m 7 ("E" ++ "+" ++ show_digits 2 (Z.abs k))) with (m, 7, String "E" (String "+" (show_digits 2 (Z.abs k)))). cbv beta iota.
      rewrite read_two by lia. f_equal. f_equal. lia.
  - destruct (Z.ltb_spec k 0) as [N|N].
    + change (read_digits m 7 ("-" ++ show_digits 3 (Z.abs k))) with (m, 7, String "-" (show_digits 3 (Z.abs k))). reflexivity.
    + change (read_digits m 7 ("+" ++ show_digits 3 (Z.abs k))) with (m, 7, String "+" (show_digits 3 (Z.abs k))). reflexivity.
Qed.

Lemma e_word_numeral sign m k : 0 <= m < 10 ^ 7 -> sign = "-" \/ sign = "" ->
  numeral (e_word sign m k) = (if Z.abs k <=? 99 then Some ((if (sign =? "-")%string then - m else m), k - 7) else None).
Proof.
  intros Hm [-> | ->].
  - change (e_word "-" m k) with (String "-" (e_word "" m k)). unfold numeral. rewrite e_word_unsigned by exact Hm. destruct (Z.abs k <=? 99); reflexivity.
  - change (("" =? "-")%string) with false. cbv iota. rewrite <- e_word_unsigned by exact Hm. reflexivity.
Qed.
