(** * The Python and Julia versions in double precision against exact arithmetic: property C95 *)
From Coq Require Import Reals ZArith Lia Lra Floats.SpecFloat List.
From Flocq Require Import Core BinarySingleNaN.
From Verif Require Import Cpp CppProof MaiSpec CdSpec FilterSpec LapSpec UpModel UpSpec UpProof UpProps AccModel AccProps LangSpec PyModel PySpec PyProps JlModel JlSpec JlProps
  RealArith Double DblSpec DblProps RoundProps.
From Coq Require Import List.
Import ListNotations.
Local Open Scope R_scope.

Theorem C95_python n steps : (1 <= n)%Z -> (n * n * n < 2 ^ 31)%Z -> (0 <= steps < 2 ^ 31)%Z ->
  exists p r', py_body arD n steps = Ok p /\ up_body arR sqrt n steps false false = Ok r' /\ within (py_f p) (up_f (ur_up r')) (9 * IZR steps / 2 ^ 53).
Proof.
  intros H1 H2 H4. destruct (C76_doubles_same_as_acc Acc1 (fun x => x) n steps false false H1 H2) as (p & a & x & d & t & Ep & Ea & Ef).
  destruct (C95_upwindAcc Acc1 (fun x => x) n steps false false H1 H2 H4) as (a' & s' & d' & t' & r' & Ea' & Er & W). rewrite Ea in Ea'. injection Ea' as <- <- <- <-.
  exists p, r'. split; [exact Ep|]. split; [exact Er|]. rewrite Ef. exact W.
Qed.
Print Assumptions C95_python.

(** Julia stores the first index fastest: cell by cell. *)
Theorem C95_julia n steps : (1 <= n)%Z -> (n * n * n < 2 ^ 31)%Z -> (0 <= steps < 2 ^ 31)%Z ->
  exists o o3 r' F H, jl_body arD n steps = Ok o /\ j3_body arD n steps = Ok o3 /\ up_body arR sqrt n steps false false = Ok r' /\
    jl_f o = map F (cells_first [n; n; n]) /\ jl_f (j3_obj o3) = jl_f o /\ up_f (ur_up r') = map H (cells [n; n; n]) /\
    forall g, in_grid [n; n; n] g -> exists y, double_value (F g) y /\ Rabs (y - H g) <= 9 * IZR steps / 2 ^ 53.
Proof.
  intros H1 H2 H4. destruct (C78_doubles_same_as_cxx (fun x => x) n steps false false H1 H2) as (o & o3 & r & F & Eo & E3 & Er & Fo & F3 & Fr).
  destruct (C95_each_cell (fun x => x) Acc1 n steps false false H1 H2 H4) as (r1 & a & s & d & t & r' & Er1 & _ & Er' & W & _). rewrite Er in Er1. injection Er1 as <-.
  destruct (exact_driver n steps false false H1 H2) as (r2 & Er2 & Ef2). rewrite Er' in Er2. injection Er2 as <-.
  exists o, o3, r', F, (exact_field n (Z.to_nat steps)). repeat (split; [assumption|]). rewrite Fr, Ef2 in W. intros g Hg. apply in_cells in Hg. revert W Hg.
  generalize (cells [n; n; n]) as l. induction l as [|h l IH]; intros W Hg; [destruct Hg|]. inversion W; subst. destruct Hg as [<-|Hg]; auto.
Qed.
Print Assumptions C95_julia.

(** ** Examples *)
Example C95_python_example : exists p r', py_body arD 3 2 = Ok p /\ up_body arR sqrt 3 2 false false = Ok r' /\ within (py_f p) (up_f (ur_up r')) (9 * 2 / 2 ^ 53).
Proof. exact (C95_python 3 2 ltac:(lia) ltac:(reflexivity) ltac:(lia)). Qed.
