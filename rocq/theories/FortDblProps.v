(** * The Fortran versions in double precision: C87 *)
From Coq Require Import List ZArith Bool Lia Permutation Reals Lra String Ascii SpecFloat.
From Flocq Require Import Core BinarySingleNaN.
From Verif Require Import Cpp CppProof CmdModel MaiSpec CdModel CdSpec FilterModel FilterSpec FilterProof FilterSum RealArith UpModel UpSpec UpProof UpExact Ieee Double DblSpec DblProof
  DblField DblSten DblProps LangSpec NumModel NumProof TextModel TextSpec TextProof PySpec PyModel PyProps PyMpiSpec PyMpiDbl PyMpiDblProps FortModel FortProof FortProps FortTextModel FortDbl.
From Coq Require Import List.
Import ListNotations.
Local Open Scope Z_scope.
Local Arguments prodZ : simpl never.
Local Arguments Z.of_nat : simpl never.

(** Every value is between 0 and 1 after any number of steps, and the sum of the values, in whatever order the compiler adds
    them, is 1 up to rounding errors. *)
Theorem C87_field n steps : 1 <= n -> n * n * n < 2 ^ 31 -> steps < 2 ^ 31 ->
  let ones := repeat (a_ofZ arD 1) 3 in
  exists dt o u, fo_dt arD ones ones (repeat n 3) = Ok dt /\ fo_new arD ones ones (repeat n 3) = Ok o /\ fo_run arD o steps dt = Ok u /\
    unit_values (fo_f u) /\
    (forall psum, sums arD psum -> exists s, double_value (psum (fo_f u)) s /\
       (Rabs (s - 1) <= (8 * IZR (Z.max 0 steps) + 12 / 10 * IZR (n * n * n)) / 2 ^ 53)%R).
Proof.
  intros H1 H2 Hs ones. change (repeat n 3) with [n; n; n]. set (dims := [n; n; n]).
  destruct (f90_dx n H1 H2) as (h & Vh & Rh). destruct (f90_dt n H1 H2 h Vh Rh) as (dt & d & Edt & _ & _ & _). change [a_ofZ arD 1; a_ofZ arD 1; a_ofZ arD 1] with ones in Edt.
  destruct (cube_args (a_ofZ arD 1) n H1 H2) as (Ha & Hsh). fold ones dims in Ha, Hsh.
  destruct (C74_constructor arD dims ones ones Ha) as (o & Eo & Ho & Hf).
  destruct (C74_advect arD dims ones ones o _ dt steps Ha Hsh Ho Hf) as (u & Eu & Hu & Ef).
  exists dt, o, u. split; [exact Edt|]. split; [exact Eo|]. split; [exact Eu|].
  destruct (f90_field n H1 H2 (Z.to_nat steps) dt Edt) as (F & HF & HT). change [a_ofZ arD 1; a_ofZ arD 1; a_ofZ arD 1] with ones in HF. fold dims in HF, HT.
  destruct (cells_number n H1 H2) as [N1 N2]. fold dims in N1.
  assert (KS : INR (Z.to_nat steps) = IZR (Z.max 0 steps)) by (rewrite INR_IZR_INZ; f_equal; lia).
  assert (S0 : (0 <= IZR (Z.max 0 steps) <= 2 ^ 31)%R) by (split; [apply IZR_le; lia|rewrite pow_IZR; apply IZR_le; change (2 ^ Z.of_nat 31) with (2 ^ 31); lia]).
  rewrite KS in HT. specialize (HT (proj2 S0)). apply Rabs_le_inv in HT as HT'.
  pose proof eps_small as Ee. pose proof eta_tiny as Te.
  assert (T31 : (2 ^ 31 * eps <= / 1000000)%R) by (unfold eps; simpl; lra).
  assert (Ke : (0 <= IZR (Z.max 0 steps) * eps <= / 1000000)%R) by (split; [apply Rmult_le_pos; lra|apply Rle_trans with (2 ^ 31 * eps)%R; [apply Rmult_le_compat_r; lra|exact T31]]).
  assert (Hv : forall x, In x (fo_f u) -> exists r, double_value x r /\ (0 <= r <= 1)%R).
  { intros x Hx. rewrite Ef in Hx. apply in_map_iff in Hx as (g & <- & Hg). apply in_cells in Hg. exists (F g). apply HF, Hg. }
  split; [exact Hv|]. intros psum Hp. destruct (Hp (fo_f u)) as (zs & _ & Hz & Hred).
  assert (Vz : forall z, In z zs -> exists b, z = S754_zero b) by (intros z Hi; destruct (Hz z Hi) as [->| ->]; [exists false|exists true]; vm_compute; reflexivity).
  assert (Fz : filter nonzero zs = []) by (clear - Vz; induction zs as [|z zs IH]; [reflexivity|]; cbn [filter]; destruct (Vz z (or_introl eq_refl)) as (b & ->); apply IH; intros y Hy; apply Vz; right; exact Hy).
  assert (Sz : rsum (map val zs) = 0%R).
  { clear - Vz. induction zs as [|z zs IH]; [reflexivity|]. cbn [map]. change (rsum (?y :: ?l)) with (y + rsum l)%R. rewrite IH by (intros y Hy; apply Vz; right; exact Hy). destruct (Vz z (or_introl eq_refl)) as (b & ->). unfold val. simpl. lra. }
  assert (ES : rsum (map val (zs ++ fo_f u)) = total dims F).
  { rewrite map_app, rsum_app, Sz, Rplus_0_l. rewrite Ef, map_map. unfold total. f_equal. apply map_ext_in. intros g Hg. apply fmt_val. apply HF. apply in_cells, Hg. }
  set (L := (zs ++ fo_f u)%list) in *.
  assert (Len : (INR (List.length (filter nonzero L)) <= IZR (n * n * n))%R).
  { rewrite <- N1. apply le_INR. unfold L. rewrite filter_app, Fz. cbn [app]. eapply Nat.le_trans; [apply filter_short|]. rewrite Ef, map_length. lia. }
  assert (V31 : forall y, In y L -> exists r, double_value y r /\ (0 <= r)%R).
  { intros y Hy. apply in_app_or in Hy as [Hy|Hy]; [exists 0%R; destruct (Vz y Hy) as (b & ->); split; [repeat split|lra]|]. destruct (Hv y Hy) as (r & Vr & Rr). exists r. split; [exact Vr|lra]. }
  destruct (red_zeros _ _ Hred (1 + / 1000)%R V31) as (s & V & Ps & Zs & Bs); [rewrite ES; lra|lra|lra|].
  exists s. split; [exact V|].
  assert (Hne : filter nonzero L <> []).
  { intros C. assert (Z0 : rsum (map val L) = 0%R); [|lra]. clear - C. induction L as [|y k IH]; [reflexivity|]. cbn [filter] in C. destruct (nonzero y) eqn:Ey; [discriminate|]. cbn [map]. change (rsum (?z :: ?k)) with (z + rsum k)%R. rewrite IH, (zero_val _ Ey) by exact C. lra. }
  specialize (Bs Hne). rewrite ES in Bs. replace (s - 1)%R with ((s - total dims F) + (total dims F - 1))%R by ring. eapply Rle_trans; [apply Rabs_triang|].
  assert (D0 : (0 <= 11 / 10 * eps * (1 + / 1000) + 2 * eta <= 12 / 10 * eps)%R) by (assert (eps * eps * eps <= / 1000 * eps)%R by nra; lra).
  assert (N0 : (0 <= IZR (n * n * n))%R) by (apply IZR_le; nia).
  assert (B2 : ((INR (List.length (filter nonzero L)) - 1) * (11 / 10 * eps * (1 + / 1000) + 2 * eta) <= IZR (n * n * n) * (12 / 10 * eps))%R).
  { apply Rle_trans with (IZR (n * n * n) * (11 / 10 * eps * (1 + / 1000) + 2 * eta))%R; [apply Rmult_le_compat_r; lra|apply Rmult_le_compat_l; lra]. }
  unfold Rdiv at 1. change (/ 2 ^ 53)%R with eps. lra.
Qed.
Print Assumptions C87_field.

(** The text of a number near one in the format f15.9 *)
Lemma f_near_one show x r : f_edit show -> double_value x r -> (Rabs (r - 1) < / 2000000000)%R -> show x = "    1.000000000"%string.
Proof.
  intros Hs V B. apply Rabs_def2 in B. destruct (Hs x r V ltac:(lra)) as (k & head & Hk & Hh & ->).
  assert (E : k = 10 ^ 9).
  { apply Rabs_le_inv in Hk. change (10 ^ 9) with 1000000000.
    assert (L1 : (IZR k < IZR 1000000001)%R) by (simpl in Hk; lra). assert (L2 : (IZR 999999999 < IZR k)%R) by (simpl in Hk; lra).
    apply lt_IZR in L1, L2. lia. }
  subst k. destruct Hh as [->|(C & _)]; [reflexivity|vm_compute in C; discriminate].
Qed.

Lemma f_first show x r : f_edit show -> double_value x r -> (1 / 2 < r < 3 / 2)%R ->
  exists sp c t, show x = (sp ++ String c t)%string /\ (forall i a, String.get i sp = Some a -> a = " "%char) /\ In c ["0"; "1"; "."]%char.
Proof.
  intros Hs V B. destruct (Hs x r V ltac:(lra)) as (k & head & Hk & Hh & ->). unfold pad.
  assert (Fl : forall m i a, String.get i (fill " " m) = Some a -> a = " "%char).
  { induction m as [|m IH]; intros i a; cbn [fill]; [destruct i; discriminate|]. destruct i as [|i]; cbn [String.get]; [intros E; injection E as <-; reflexivity|apply IH]. }
  assert (Q : k / 10 ^ 9 = 0 \/ k / 10 ^ 9 = 1).
  { apply Rabs_le_inv in Hk. assert (L1 : (IZR k < IZR 2000000000)%R) by (simpl in Hk; lra). assert (L2 : (IZR 0 < IZR k)%R) by (simpl in Hk; lra). apply lt_IZR in L1, L2.
    assert (0 <= k / 10 ^ 9 < 2); [|lia]. split; [apply Z.div_pos; lia|apply Z.div_lt_upper_bound; lia]. }
  set (w := fill " " _). set (tl := show_digits 9 (k mod 10 ^ 9)).
  destruct Hh as [->|(E & ->)].
  - destruct Q as [-> | ->]; [exists w, "0"%char, ("." ++ tl)%string|exists w, "1"%char, ("." ++ tl)%string]; (split; [reflexivity|]; split; [apply Fl|cbn [In]; tauto]).
  - exists w, "."%char, tl. split; [reflexivity|]. split; [apply Fl|cbn [In]; tauto].
Qed.

(** The program: it ends normally, the last line is the check sum, near one; the tests accept the output, and with fewer
    than about four million steps and cells the line is exactly "check sum:     1.000000000". *)
Theorem C87_program show_f show_e gap empty stop report read blank args n steps vtk argc :
  f_edit show_f -> fo_parse read blank 0 args (mkFoOpt (Some (-1)) (Some 100) false 0) = mkFoOpt (Some n) (Some steps) vtk argc -> (2 <= argc)%nat ->
  1 <= n -> n * n * n < 2 ^ 31 -> steps < 2 ^ 31 ->
  exists r pre x s, fo_program arD show_f show_e gap empty stop report read blank args = Ok r /\ r_exit r = 0 /\ r_err r = ""%string /\
    map fst (r_files r) = (if vtk then ["up.vtk"%string] else []) /\
    r_out r = (pre ++ "check sum: " ++ show_f x ++ line_end)%string /\ double_value x s /\
    (Rabs (s - 1) <= (8 * IZR (Z.max 0 steps) + 12 / 10 * IZR (n * n * n)) / 2 ^ 53)%R /\
    ctest_accepts (r_out r) /\
    (8 * Z.max 0 steps + 2 * (n * n * n) <= 4500000 -> r_out r = (pre ++ "check sum:     1.000000000" ++ line_end)%string).
Proof.
  intros Hshow Ep Hc H1 H2 Hs. destruct (C87_field n steps H1 H2 Hs) as (dt & o & u & Edt & Eo & Eu & Hv & Hsum).
  destruct (Hsum (fun l => fold_left (a_add arD) l (a_ofZ arD 0)) (C76_sums arD)) as (s & Vs & B). fold (fo_sum arD u) in Vs.
  assert (Em : exists v, fo_main arD read blank args = Ok (Some (u, fo_sum arD u, v)) /\ (vtk = false -> v = None) /\ (vtk = true -> exists r, v = Some r)).
  { destruct (C74_main_iff arD read blank args n steps vtk argc Ep Hc) as [Hm _]. destruct (proj2 Hm (conj H1 H2)) as (r & Er). unfold fo_main in Er |- *. rewrite Ep in Er |- *. cbn [oo_argc oo_numCells oo_steps oo_vtk] in Er |- *.
    destruct (Nat.ltb_spec argc 2); [lia|]. cbn [bind] in Er |- *. rewrite Edt in Er |- *. cbn [bind] in Er |- *. rewrite Eo in Er |- *. cbn [bind] in Er |- *. rewrite Eu in Er |- *. cbn [bind] in Er |- *.
    destruct vtk; [|exists None; split; [reflexivity|split; [reflexivity|discriminate]]]. destruct (fo_saveVTK arD u) as [v|]; [|discriminate]. exists (Some v). split; [reflexivity|]. split; [discriminate|]. intros _. exists v. reflexivity. }
  destruct Em as (v & Em & Hv0 & Hv1). unfold fo_program. rewrite Em. cbn [bind]. rewrite Ep. cbn [oo_numCells oo_steps].
  eexists _, (report ++ fo_args_text gap n steps)%string, (fo_sum arD u), s. split; [reflexivity|]. cbn [r_exit r_err r_files r_out].
  split; [reflexivity|]. split; [reflexivity|]. split; [destruct vtk; [destruct Hv1 as (r & ->); reflexivity|rewrite Hv0 by reflexivity; reflexivity]|].
  split; [rewrite !append_assoc; reflexivity|]. split; [exact Vs|]. split; [exact B|].
  assert (E0 : (0 < / 2 ^ 53)%R) by (apply Rinv_0_lt_compat, pow_lt; lra).
  assert (S2 : (IZR (Z.max 0 steps) <= 2147483648)%R) by (apply IZR_le; lia). assert (N2 : (IZR (n * n * n) <= 2147483648)%R) by (apply IZR_le; lia).
  assert (S0 : (0 <= IZR (Z.max 0 steps))%R) by (apply IZR_le; lia). assert (N0 : (0 <= IZR (n * n * n))%R) by (apply IZR_le; nia).
  split.
  - assert (Bs : (Rabs (s - 1) < / 1000)%R).
    { eapply Rle_lt_trans; [exact B|]. apply Rle_lt_trans with ((10 * 2147483648) * / 2 ^ 53)%R; [apply Rmult_le_compat_r; lra|simpl; lra]. }
    apply Rabs_def2 in Bs. destruct (f_first show_f _ _ Hshow Vs ltac:(lra)) as (sp & c & t & Es & Hsp & Hc0). rewrite Es.
    exists (report ++ fo_args_text gap n steps)%string, "c"%char, (" " ++ sp)%string, c, (t ++ newline)%string.
    split; [rewrite !append_assoc; reflexivity|]. split; [right; reflexivity|]. split.
    + intros [|i] a Ea; cbn in Ea; [injection Ea as <-; reflexivity|apply (Hsp i a Ea)].
    + cbn [In] in *. tauto.
  - intros Hsmall. rewrite (f_near_one show_f _ s Hshow Vs); [rewrite !append_assoc; reflexivity|]. eapply Rle_lt_trans; [exact B|].
    assert (Sm : (8 * IZR (Z.max 0 steps) + 2 * IZR (n * n * n) <= 4500000)%R) by (rewrite <- !mult_IZR, <- plus_IZR; apply IZR_le; exact Hsmall).
    apply Rle_lt_trans with (4500000 * / 2 ^ 53)%R; [apply Rmult_le_compat_r; lra|simpl; lra].
Qed.
Print Assumptions C87_program.

(** Without a number of cells: nothing but the report of the threads, and the exit status is 0. *)
Theorem C87_no_argument {D} (ar : arith D) show_f show_e gap empty stop report read blank args :
  (forall a b rest, args = a :: b :: rest -> blank a = true \/ blank b = true) ->
  exists r, fo_program ar show_f show_e gap empty stop report read blank args = Ok r /\ r_out r = report /\ r_exit r = 0 /\ r_files r = [] /\
    r_err r = stop "must specify number of cells in each direction."%string.
Proof.
  intros H. unfold fo_program. assert (E : fo_main ar read blank args = Ok None).
  { unfold fo_main. destruct args as [|a [|b rest]]; [reflexivity| |].
    - cbn [fo_parse]. destruct (blank a); reflexivity.
    - destruct (H a b rest eq_refl) as [Ha|Hb]; cbn [fo_parse]; [rewrite Ha; reflexivity|]. destruct (blank a); [reflexivity|]. rewrite Hb. reflexivity. }
  rewrite E. cbn [bind]. eexists. split; [reflexivity|]. repeat split.
Qed.
Print Assumptions C87_no_argument.

(** ** Examples *)

(** An f15.9: nearest, ties to even *)
Definition f15_9 (x : spec_float) : string :=
  let k := match x with S754_finite _ m e => round_div (Zpos m * 2 ^ Z.max 0 e * 10 ^ 9) (2 ^ Z.max 0 (- e)) | _ => 0 end in
  pad 15 (show_nat (k / 10 ^ 9) ++ "." ++ show_digits 9 (k mod 10 ^ 9)).

Lemma bpow_split e : (bpow radix2 e = IZR (2 ^ Z.max 0 e) / IZR (2 ^ Z.max 0 (- e)))%R.
Proof.
  destruct (Z_le_gt_dec 0 e) as [H|H].
  - replace (Z.max 0 e) with e by lia. replace (Z.max 0 (- e)) with 0 by lia. change (2 ^ 0) with 1. unfold Rdiv. rewrite Rinv_1, Rmult_1_r.
    symmetry. change 2 with (radix_val radix2). apply IZR_Zpower, H.
  - replace (Z.max 0 e) with 0 by lia. replace (Z.max 0 (- e)) with (- e) by lia. change (2 ^ 0) with 1. change 2 with (radix_val radix2).
    rewrite IZR_Zpower by lia. unfold Rdiv. rewrite Rmult_1_l, <- bpow_opp. f_equal. lia.
Qed.

Lemma f15_9_ok : f_edit f15_9.
Proof.
  intros x r (Hv & Hf & <-) Hr. destruct x as [b|b| |b m e]; try discriminate Hf.
  - exists 0, "0"%string. split; [|split; [left; reflexivity|reflexivity]]. cbn [SF2R]. rewrite Rmult_0_l, Rminus_0_r, Rabs_R0. lra.
  - set (k := round_div (Zpos m * 2 ^ Z.max 0 e * 10 ^ 9) (2 ^ Z.max 0 (- e))). exists k, (show_nat (k / 10 ^ 9)).
    split; [|split; [left; reflexivity|reflexivity]]. cbn [SF2R] in Hr |- *. destruct b.
    { exfalso. cbn [cond_Zopp] in Hr. assert ((F2R (Float radix2 (Zneg m) e) < 0)%R) by (apply F2R_lt_0; reflexivity). change (- Zpos m) with (Zneg m) in Hr. lra. }
    cbn [cond_Zopp] in *. unfold F2R. cbn [Fnum Fexp]. unfold k. rewrite round_div_ok by (apply Z.pow_pos_nonneg; lia).
    assert (P : (0 < IZR (2 ^ Z.max 0 (- e)))%R) by (apply IZR_lt, Z.pow_pos_nonneg; lia).
    replace (IZR (Z.pos m * 2 ^ Z.max 0 e * 10 ^ 9) / IZR (2 ^ Z.max 0 (- e)))%R with (IZR (Zpos m) * bpow radix2 e * 10 ^ 9)%R.
    + apply Znearest_half.
    + rewrite bpow_split, !mult_IZR. replace (IZR (10 ^ 9)) with (10 ^ 9)%R by (rewrite pow_IZR; reflexivity). field. lra.
Qed.

Definition digits2 (s : string) : option Z := if (s =? "16")%string then Some 16 else if (s =? "10")%string then Some 10 else if (s =? "2")%string then Some 2 else None.
(** The hypotheses of C87_program: upwindFortran 16 10; the text of a small run *)
Example C87_example : f_edit f15_9 /\
  fo_parse digits2 (fun s => (s =? "")%string) 0 ["upwindFortran"; "16"; "10"]%string (mkFoOpt (Some (-1)) (Some 100) false 0) = mkFoOpt (Some 16) (Some 10) false 3 /\
  8 * Z.max 0 10 + 2 * (16 * 16 * 16) <= 4500000.
Proof. split; [exact f15_9_ok|]. split; [reflexivity|]. vm_compute. discriminate. Qed.
Example C87_run : exists r, fo_program arD f15_9 f15_9 "  " "" (fun s => ("STOP " ++ s ++ line_end)%string) "" digits2 (fun s => (s =? "")%string) ["upwindFortran"; "2"; "10"]%string = Ok r /\
  r_out r = ("number of cells:          2          2          2   " ++ line_end ++ "number of time steps:         10" ++ line_end ++ "check sum:     1.000000000" ++ line_end)%string.
Proof. eexists. split; [vm_compute; reflexivity|reflexivity]. Qed.
Example C87_f15_9 : f15_9 (a_dec arD 123456 3) = "  123.456000000"%string /\ f15_9 (a_dec arD 999999 6) = "    0.999999000"%string.
Proof. split; vm_compute; reflexivity. Qed.
