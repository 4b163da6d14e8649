(** * Properties of the Cython version of the upwind benchmark (C90) and of print() and printOut() (C91) *)
From Coq Require Import List ZArith Bool Lia Permutation Reals Lra String SpecFloat.
From Flocq Require Import Core BinarySingleNaN.
From Verif Require Import Cpp CppProof MaiModel MaiSpec Radix MaiProof CmdModel CdModel CdSpec FilterModel FilterSpec FilterProof
  FilterSum RealArith Ieee Double DblSpec DblProof DblField DblSten LapSpec LapProof VtkModel UpModel UpSpec UpProof UpExact UpProps AccModel AccSpec AccProof AccProps
  UpMpiProps DblProps ParModel ParSpec ParProof LangSpec FortModel FortProof FortProps NumModel NumSpec NumProof TextModel TextSpec TextProof PySpec PyModel PyProof PyProps
  CyModel CyProof PrintModel.
From Coq Require Import List.
Import ListNotations.
Local Open Scope Z_scope.
Local Arguments prodZ : simpl never.
Local Arguments Z.of_nat : simpl never.

(** An object built by the constructor, the two fields being arbitrary. *)
Definition cy_object {D} (ar : arith D) (env : cyenv) (dims : list Z) (v lengths : list D) (p : cy D) : Prop :=
  exists p0 f old, cy_new ar env v lengths dims = Ok p0 /\ vlen f = prodZ dims /\ vlen old = prodZ dims /\
    p = mkCy (cy_numCells p0) (cy_ndims p0) (cy_deltas p0) (cy_upDirection p0) (cy_v p0) (cy_ntot p0) (cy_dimProd p0) (cy_coeff p0) f old (cy_inds p0) (cy_indsUp p0).

Lemma cy_object_of {D} (ar : arith D) env dims v lengths p : cy_python2 env = true -> up_args dims v lengths ->
  (cy_object ar env dims v lengths p <-> exists f old, vlen f = prodZ dims /\ vlen old = prodZ dims /\ p = cy_of ar dims v lengths f old).
Proof.
  intros He (Hg & Hv & Hl). unfold cy_object. rewrite cy_new_eq by auto. split.
  - intros (p0 & f & old & E & L & L' & ->). injection E as <-. exists f, old. split; [exact L|]. split; [exact L'|reflexivity].
  - intros (f & old & L & L' & ->). eexists _, f, old. split; [reflexivity|]. split; [exact L|]. split; [exact L'|reflexivity].
Qed.

Lemma cy_new_python3 {D} (ar : arith D) env dims v lengths p : cy_python2 env = false -> v <> [] -> cy_new ar env v lengths dims <> Ok p.
Proof.
  intros He Hn E. unfold cy_new in E. apply bind_ok in E as ([[up de] nt] & _ & E). apply bind_ok in E as (dp & _ & E). apply bind_ok in E as (co & _ & E).
  destruct (nt <? 0); [discriminate|]. apply bind_ok in E as (f & _ & E). apply bind_ok in E as (inds & E & _).
  unfold cy_rows, tabulate in E. rewrite He in E. destruct v as [|x v]; [congruence|]. unfold vlen in E. rewrite Nat2Z.id in E. cbn [List.length tab_from] in E.
  destruct (vget dp (Z.of_nat 0)); discriminate.
Qed.

(** ** C90 *)

(** The constructor works exactly when "/" of integers rounds down; one in the first cell, zero in the others. *)
Theorem C90_constructor {D} (ar : arith D) env dims v lengths : up_args dims v lengths ->
  (cy_python2 env = true ->
     exists p, cy_new ar env v lengths dims = Ok p /\ cy_object ar env dims v lengths p /\ cy_f p = map (corner (a_ofZ ar 0) (a_ofZ ar 1) dims) (cells dims)) /\
  (cy_python2 env = false -> forall p, cy_new ar env v lengths dims <> Ok p).
Proof.
  intros Ha. pose proof Ha as (Hg & Hv & Hl). split.
  - intros He. eexists. split; [apply cy_new_eq; auto|]. split; [|reflexivity]. apply cy_object_of; auto. eexists _, _.
    split; [apply cells_vlen, Hg|]. split; [|reflexivity]. unfold vlen. rewrite repeat_length, Z2Nat.id; [reflexivity|]. pose proof (prod_range dims (up_big dims Hg)). lia.
  - intros He p. apply cy_new_python3; [exact He|]. intros E. subst v. pose proof (nd_pos dims (up_big dims Hg)) as Hp. rewrite <- Hv in Hp. cbn in Hp. lia.
Qed.
Print Assumptions C90_constructor.

(** advect works exactly when NumPy converts back to integers: then any number of calls makes the upwind scheme, with the
    operations of the Python version; otherwise every call raises an exception. *)
Theorem C90_advect {D} (ar : arith D) env dims v lengths p G dt n :
  up_args dims v lengths -> cy_object ar env dims v lengths p -> cy_f p = map G (cells dims) ->
  (cy_numpy_unsafe env = true ->
     exists p', cy_run ar env p n dt = Ok p' /\ cy_object ar env dims v lengths p' /\
       cy_f p' = map (scheme_iter ar (Z.to_nat n) (py_term ar dims v lengths dt) dims v G) (cells dims)) /\
  (cy_numpy_unsafe env = false -> forall p', cy_advect ar env p dt <> Ok p').
Proof.
  intros Ha Ho HG. pose proof Ha as (Hg & Hv & Hl).
  assert (He : cy_python2 env = true).
  { destruct Ho as (p0 & _ & _ & E & _). destruct (cy_python2 env) eqn:He; [reflexivity|]. exfalso. revert E. apply C90_constructor; auto. }
  apply (cy_object_of ar _ _ _ _ _ He Ha) in Ho as (f & old & L & L' & ->). cbn [cy_of cy_f] in HG. subst f. split.
  - intros Hu. assert (Hold : List.length old = Z.to_nat (prodZ dims)) by (unfold vlen in L'; lia).
    destruct (cy_run_eq ar env dims v lengths Hv Hl Hg Hu dt G old n Hold) as (old' & Lo & E). rewrite E. eexists. split; [reflexivity|]. split; [|reflexivity].
    apply cy_object_of; auto. eexists _, _. split; [apply cells_vlen, Hg|]. split; [|reflexivity]. unfold vlen. rewrite Lo, <- Hold. exact L'.
  - intros Hu p' E. unfold cy_advect in E. apply bind_ok in E as ([a b] & E & _). unfold for_upto in E.
    change (cy_ndims _) with (Z.of_nat (List.length dims)) in E. rewrite Nat2Z.id in E. pose proof (nd_pos dims (up_big dims Hg)) as Hp.
    destruct (List.length dims) eqn:Ed; [lia|]. cbn [for_from] in E. apply bind_ok in E as (st & E & _). unfold cy_axis in E. rewrite Hu in E. cbn [negb] in E.
    apply bind_ok in E as (r & _ & E). apply bind_ok in E as (u & _ & E). discriminate.
Qed.
Print Assumptions C90_advect.

(** The same field, to the last bit, as upwind.py. *)
Theorem C90_same_as_python {D} (ar : arith D) env dims v lengths c p dt n :
  cy_numpy_unsafe env = true -> up_args dims v lengths ->
  cy_object ar env dims v lengths c -> py_object ar dims v lengths p -> cy_f c = py_f p ->
  exists c' p', cy_run ar env c n dt = Ok c' /\ py_run ar p n dt = Ok p' /\ cy_f c' = py_f p'.
Proof.
  intros Hu Ha Hc Hp E. assert (L : vlen (py_f p) = prodZ dims) by (destruct Hp as (p0 & f & _ & L & ->); exact L).
  destruct (field_exists ar dims (py_f p) (proj1 Ha) L) as (G & HG).
  destruct (proj1 (C90_advect ar _ _ _ _ c G dt n Ha Hc (eq_trans E HG)) Hu) as (c' & E1 & _ & H1).
  destruct (C76_advect ar _ _ _ p G dt n Ha Hp HG) as (p' & E2 & _ & H2).
  exists c', p'. split; [exact E1|]. split; [exact E2|]. rewrite H1, H2. reflexivity.
Qed.
Print Assumptions C90_same_as_python.

(** The problem of the benchmark (n cells along each of three axes, unit lengths and velocity, the time step of upwind.py)
    in IEEE doubles: values between 0 and 1, and a check sum of one up to rounding, whatever the order of numpy's additions. *)
Theorem C90_check_sum env psum n steps :
  cy_python2 env = true -> cy_numpy_unsafe env = true -> sums arD psum -> 1 <= n -> n * n * n < 2 ^ 31 -> 0 <= steps < 2 ^ 31 ->
  exists c c' s, cy_new arD env (repeat (a_ofZ arD 1) 3) (repeat (a_ofZ arD 1) 3) [n; n; n] = Ok c /\ cy_run arD env c steps (py_step arD n) = Ok c' /\
    unit_values (cy_f c') /\ double_value (cy_checksum psum c') s /\
    (Rabs (s - 1) <= (7 * IZR steps + 12 / 10 * (IZR (n * n * n) + 2)) / 2 ^ 53)%R.
Proof.
  intros He Hu Hs H1 H2 H4. destruct (cube_args (a_ofZ arD 1) n H1 H2) as (Ha & _).
  destruct (proj1 (C90_constructor arD env _ _ _ Ha) He) as (c & Ec & Oc & Fc). destruct (C76_constructor arD _ _ _ Ha) as (p & Ep & Op & Fp).
  destruct (C90_same_as_python arD env _ _ _ c p (py_step arD n) steps Hu Ha Oc Op (eq_trans Fc (eq_sym Fp))) as (c' & p' & Ec' & Ep' & F).
  destruct (C76_check_sum psum n steps Hs H1 H2 H4) as (p'' & s & E & U & V & B).
  unfold py_body in E. rewrite py_dt_eq in E. cbn [bind] in E. change (repeat n 3) with [n; n; n] in E.
  change [a_ofZ arD 1; a_ofZ arD 1; a_ofZ arD 1] with (repeat (a_ofZ arD 1) 3) in *. rewrite Ep in E. cbn [bind] in E. rewrite Ep' in E. injection E as <-.
  exists c, c', s. split; [exact Ec|]. split; [exact Ec'|]. unfold cy_checksum. rewrite F. split; [exact U|]. split; [exact V|exact B].
Qed.
Print Assumptions C90_check_sum.

(** 2^31 cells or more, fewer than 2^32 along each axis: the number of cells does not fit a C int and the constructor raises
    an exception, whatever the versions. *)
Theorem C90_too_many {D} (ar : arith D) env dims v lengths p :
  List.length v = List.length dims -> List.length lengths = List.length dims ->
  Forall (fun n => 1 <= n < 2 ^ 32) dims -> 2 ^ 31 <= prodZ dims -> cy_new ar env v lengths dims <> Ok p.
Proof.
  intros Hv Hl Hd Hb E. unfold cy_new in E. apply bind_ok in E as ([[up de] nt] & E & _). unfold cy_axes, for_upto in E.
  replace (Z.to_nat (vlen v)) with (List.length dims) in E by (unfold vlen; lia).
  assert (K : forall cnt i (up de : list _) nt x, (i + cnt = List.length dims)%nat -> nt = prodZ (firstn i dims) -> 0 < nt < 2 ^ 31 ->
    for_from i cnt (fun j '(upDirection, deltas, ntot) =>
      upDirection <- vset upDirection j (-1) ;;
      vj <- vget v j ;;
      upDirection <- (if a_lt ar vj (a_dec ar 0 1) then vset upDirection j 1 else Ok upDirection) ;;
      lj <- vget lengths j ;;
      nj <- vget dims j ;;
      deltas <- vset deltas j (a_div ar lj (a_ofZ ar nj)) ;;
      ntot <- np_int (i64 (ntot * nj)) ;;
      Ok (upDirection, deltas, ntot)) (up, de, nt) = Ok x -> prodZ dims < 2 ^ 31).
  { induction cnt as [|cnt IH]; intros i u d nt' x Hi -> R Ex.
    - replace i with (List.length dims) in R by lia. rewrite firstn_all in R. lia.
    - cbn [for_from] in Ex. apply bind_ok in Ex as ([[u' d'] nt''] & Ex & Er).
      apply bind_ok in Ex as (u1 & _ & Ex). apply bind_ok in Ex as (vj & _ & Ex). apply bind_ok in Ex as (u2 & _ & Ex). apply bind_ok in Ex as (lj & _ & Ex).
      apply bind_ok in Ex as (nj & Enj & Ex). apply bind_ok in Ex as (d1 & _ & Ex). apply bind_ok in Ex as (nt2 & En & Ex). injection Ex as -> -> ->.
      rewrite (vget_nat dims i 0) in Enj by lia. injection Enj as <-.
      assert (Hn : 1 <= nth i dims 0 < 2 ^ 32) by (apply (proj1 (Forall_nth _ dims) Hd); lia).
      assert (Pe : prodZ (firstn (S i) dims) = prodZ (firstn i dims) * nth i dims 0).
      { rewrite (firstn_S_nth dims 0) by lia. rewrite prodZ_app, prodZ_cons. change (prodZ []) with 1. ring. }
      rewrite <- Pe in En. assert (0 < prodZ (firstn (S i) dims) < 2 ^ 63) by (rewrite Pe; nia). rewrite i64_id in En by lia. unfold np_int in En.
      destruct (int_range (prodZ (firstn (S i) dims))) eqn:Er'; [|discriminate]. injection En as <-. apply int_range_spec in Er'. unfold two31 in Er'.
      apply (IH (S i) _ _ _ _ ltac:(lia) eq_refl ltac:(lia) Er). }
  apply K in E; [|reflexivity|reflexivity|lia]. lia.
Qed.
Print Assumptions C90_too_many.

(** ** C91: print() of the C++ versions and printOut() of the Cython version *)

Section Print.
  Context {A : Type} (show : A -> string).
  Hypothesis Hs : forall x, nospace (show x) = true /\ show x <> ""%string.
  Local Open Scope string_scope.
  Local Open Scope Z_scope.

  Lemma split_lines (gap : string) (f : list A) : (forall s, split_words "" (gap ++ s) = split_words "" s) ->
    forall i, split_words "" (texts (map (fun '(i, x) => show_int i ++ " " ++ gap ++ show x ++ newline) (combine (map Z.of_nat (seq i (List.length f))) f)))
      = List.concat (map (fun '(i, x) => [show_int i; show x]) (combine (map Z.of_nat (seq i (List.length f))) f)).
  Proof using Hs.
    intros Hgap. induction f as [|x f IH]; intros i; [reflexivity|]. cbn [List.length seq map combine texts List.concat]. rewrite !append_assoc.
    rewrite split_word_space by (apply nospace_int || apply show_int_nonempty). rewrite Hgap.
    rewrite split_word_newline by (apply Hs). rewrite IH. reflexivity.
  Qed.

  Lemma lines_eq (line : Z -> A -> string) (f : list A) :
    tabulate (vlen f) (fun i => x <- vget f i ;; Ok (line i x)) = Ok (map (fun '(i, x) => line i x) (combine (map Z.of_nat (seq 0 (List.length f))) f)).
  Proof using Type.
    clear Hs. destruct f as [|x0 f0] eqn:Ef; [reflexivity|]. rewrite <- Ef.
    rewrite (tabulate_ok (fun i => line (Z.of_nat i) (nth i f x0))).
    - f_equal. unfold vlen. rewrite Nat2Z.id. apply (nth_ext' ""); [rewrite !map_length, combine_length, map_length, seq_length; lia|].
      rewrite map_length, seq_length. intros k Hk. rewrite map_seq_nth by exact Hk.
      set (F := fun '(i, x) => line i x). rewrite (nth_indep _ "" (F (Z.of_nat 0, x0))) by (rewrite map_length, combine_length, map_length, seq_length; lia).
      rewrite (map_nth F), combine_nth by (rewrite map_length, seq_length; reflexivity). unfold F. f_equal.
      rewrite map_nth, seq_nth by exact Hk. reflexivity.
    - intros k Hk. rewrite (vget_nat f k x0) by (unfold vlen in Hk; lia). reflexivity.
  Qed.
End Print.

(** print(): the words printed are, for the cells in the order of the memory, the number of the cell and its value. *)
Theorem C91_print {D} (show : D -> string) dims G : (forall x, nospace (show x) = true /\ show x <> ""%string) -> up_grid dims ->
  exists text, print_text show (map G (cells dims)) = Ok text /\
    words text = List.concat (map (fun '(i, g) => [show_int i; show (G g)]) (combine (map Z.of_nat (seq 0 (List.length (cells dims)))) (cells dims))).
Proof.
  intros Hs Hg. unfold print_text. rewrite (lines_eq (fun i x => (show_int i ++ " " ++ show x ++ newline)%string)). cbn [bind]. eexists. split; [reflexivity|].
  unfold words. rewrite (split_lines show Hs "" _ (fun s => eq_refl) 0). rewrite map_length. clear. generalize (map Z.of_nat (seq 0 (List.length (cells dims)))). intros is. revert is.
  induction (cells dims) as [|g l IH]; intros [|i is]; try reflexivity. cbn [map combine List.concat]. rewrite IH. reflexivity.
Qed.
Print Assumptions C91_print.

Theorem C91_printOut {D} (ar : arith D) env (show : D -> string) dims v lengths p G :
  (forall x, nospace (show x) = true /\ show x <> ""%string) -> up_args dims v lengths -> cy_object ar env dims v lengths p -> cy_f p = map G (cells dims) ->
  exists text, cy_printOut show p = Ok text /\
    words text = List.concat (map (fun '(i, g) => [show_int i; show (G g)]) (combine (map Z.of_nat (seq 0 (List.length (cells dims)))) (cells dims))).
Proof.
  intros Hs Ha Ho HG. pose proof Ha as (Hg & Hv & Hl).
  assert (He : cy_python2 env = true).
  { destruct Ho as (p0 & _ & _ & E & _). destruct (cy_python2 env) eqn:He; [reflexivity|]. exfalso. revert E. apply C90_constructor; auto. }
  apply (cy_object_of ar _ _ _ _ _ He Ha) in Ho as (f & old & L & L' & ->). cbn [cy_of cy_f] in HG. subst f.
  unfold cy_printOut. cbn [cy_of cy_ntot cy_f]. rewrite <- L. rewrite (lines_eq (fun i x => (show_int i ++ " " ++ " " ++ " " ++ show x ++ newline)%string)). cbn [bind]. eexists. split; [reflexivity|].
  unfold words. rewrite (split_lines show Hs "  " _ (fun s => eq_refl) 0). rewrite map_length. clear. generalize (map Z.of_nat (seq 0 (List.length (cells dims)))). intros is. revert is.
  induction (cells dims) as [|g l IH]; intros [|i is]; try reflexivity. cbn [map combine List.concat]. rewrite IH. reflexivity.
Qed.
Print Assumptions C91_printOut.

(** ** Examples *)

(** One step on 3 x 2 x 2 cells, in whole numbers: the field of the example of the Python version; with NumPy 1.10 the call
    of advect raises an exception, with Python 3 the constructor. *)
Example C90_example :
  (match cy_new arInt (mkCyEnv true true) [1; -1; 1] [3; 2; 2] [3; 2; 2] with
   | Ok p => match cy_run arInt (mkCyEnv true true) p 1 1 with Ok p' => cy_f p' = [-2; 1; 1; 0; 1; 0; 0; 0; 0; 0; 0; 0] | Undef _ => False end
   | Undef _ => False
   end) /\
  (match cy_new arInt (mkCyEnv true false) [1; -1; 1] [3; 2; 2] [3; 2; 2] with Ok p => cy_advect arInt (mkCyEnv true false) p 1 = Undef type_error | Undef _ => False end) /\
  cy_new arInt (mkCyEnv false true) [1; -1; 1] [3; 2; 2] [3; 2; 2] = Undef type_error.
Proof. vm_compute. repeat split. Qed.

(** 65536 x 32768 cells are too many.  With 4 x (2^62 + 1) cells, the product wraps around and an object with four cells is made. *)
Example C90_large : cy_new arInt (mkCyEnv true true) [1; 1] [1; 1] [65536; 32768] = Undef NumRange /\
  match cy_new arInt (mkCyEnv true true) [1; 1] [1; 1] [4; 2 ^ 62 + 1] with Ok p => cy_ntot p = 4 | Undef _ => False end.
Proof. split; vm_compute; reflexivity. Qed.

Example C91_example :
  print_text show_int [7; -8] = Ok (String.concat newline ["0 7"; "1 -8"; ""])%string /\
  match cy_new arInt (mkCyEnv true true) [1] [1] [2] with Ok p => cy_printOut show_int p = Ok (String.concat newline ["0   1"; "1   0"; ""])%string | Undef _ => False end.
Proof. split; vm_compute; reflexivity. Qed.
