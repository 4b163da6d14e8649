(** * Specification vocabulary for the text of the MPI programs *)
From Coq Require Import ZArith List String Ascii.
From Verif Require Import NumModel TextModel NumSpec CmdSpec DrvSpec TextSpec.
Import ListNotations.
Local Open Scope string_scope.
Local Open Scope Z_scope.

(** Rank 0 leaves [r] behind, the others nothing. *)
Definition only_root (sz : Z) (r : run) : list run := r :: repeat (mkRun "" "" [] 0) (Z.to_nat sz - 1).

(** Every word followed by a blank. *)
Fixpoint blanks (l : list string) : string :=
  match l with
  | [] => ""
  | w :: t => w ++ " " ++ blanks t
  end.

Definition decomp_report (procs : string) (dims parts : list string) : string :=
  "Number of procs: " ++ procs ++ line_end ++
  "global dimensions: " ++ blanks dims ++ line_end ++
  "Domain decomp " ++ blanks parts ++ line_end.

Definition no_decomp_report : string :=
  "ERROR: No valid domain decomposition could be found. Adjust the number" ++ line_end ++
  "of processes and/or the domain dimensions." ++ line_end ++
  "Decomposition is invalid" ++ line_end.

(** One line per iteration, numbered from [i]. *)
Fixpoint iter_lines (i : nat) (sums : list (string * string)) : string :=
  match sums with
  | [] => ""
  | (a, b) :: t => "iter " ++ show_int (Z.of_nat i) ++ " check sum  in/out = " ++ a ++ " / " ++ b ++ line_end ++ iter_lines (S i) t
  end.

Definition times_line (tmin tmax tavg : string) : string :=
  " times min/max/avg: " ++ tmin ++ "/" ++ tmax ++ "/" ++ tavg ++ " [seconds]" ++ line_end.

Definition file_line (vtk : bool) (name : string) : string :=
  if vtk then "Data will be written to file " ++ name ++ line_end else "".

(** The lines of printOutData: cells and values. *)
Fixpoint cell_lines (rk : string) (l : list (list string * string)) : string :=
  match l with
  | [] => ""
  | (g, v) :: t => String (ascii_of_N 9) ("[" ++ rk ++ "] inds = " ++ blanks g ++ " outData = " ++ v ++ line_end ++ cell_lines rk t)
  end.

Definition numDims_line (d : string) : string := "-numDims <int#> Number of dimensions (" ++ d ++ ")".

(** The pattern the tests of laplacian look for: [Cc]heck sums:[ ]*, laplacian/cxx/CMakeLists.txt:24-27 *)
Definition laplacian_accepts (out : string) : Prop :=
  exists pre c post, out = pre ++ String c ("heck sums:" ++ post) /\ (c = "C"%char \/ c = "c"%char).
