(** * Model of Upwind::print of the C++ versions of the upwind benchmark *)
From Coq Require Import List ZArith String.
From Verif Require Import Cpp CmdModel NumModel TextModel.
From Coq Require Import List.
Import ListNotations.
Local Open Scope Z_scope.
Local Open Scope string_scope.

(** print(): std::cout << i << " " << f[i] << '\n' for every element, upwind.cxx:105-109, upwindAcc.cxx:98-102,
    upwindAcc2.cxx:117-121, upwindOMP5.cxx:117-121, upwindOMPTasks.cxx:105-109.  [f] is the vector, [show] the text of a
    double.  No program calls it. *)
Definition print_text {D} (show : D -> string) (f : list D) : res string :=
  l <- tabulate (vlen f) (fun i => x <- vget f i ;; Ok (show_int i ++ " " ++ show x ++ newline)) ;;
  Ok (texts l).
