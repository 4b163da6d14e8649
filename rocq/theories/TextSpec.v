(** * Specification vocabulary for printed text: words, a reader of legacy VTK files, the pattern of the tests *)
From Coq Require Import ZArith List String Ascii Bool.
From Verif Require Import NumSpec CmdSpec DrvSpec.
Import ListNotations.
Local Open Scope string_scope.
Local Open Scope Z_scope.

Definition is_space (c : ascii) : bool :=
  let n := Z.of_N (N_of_ascii c) in (n =? 32) || ((9 <=? n) && (n <=? 13)).

(** ** Words and lines *)
Definition word (w : string) : list string := match w with "" => [] | _ => [w] end.
Fixpoint split_words (cur s : string) : list string :=
  match s with
  | EmptyString => word cur
  | String c t => if is_space c then word cur ++ split_words "" t else split_words (cur ++ String c "") t
  end.
(** The maximal sequences of characters that are not white space. *)
Definition words (s : string) : list string := split_words "" s.

(** The first line and the rest. *)
Fixpoint next_line (s : string) : string * string :=
  match s with
  | EmptyString => ("", "")
  | String c t => if (Z.of_N (N_of_ascii c) =? 10) then ("", t) else let (l, r) := next_line t in (String c l, r)
  end.

(** ** A reader of legacy VTK files *)
Definition bindo {A B} (x : option A) (f : A -> option B) : option B := match x with Some a => f a | None => None end.
Local Notation "x <- a ; b" := (bindo a (fun x => b)) (at level 60, a at level 59, right associativity).
Local Notation "'check' c ; b" := (if c then b else None) (at level 60, c at level 59, right associativity).

Definition next (ws : list string) : option (string * list string) := match ws with w :: t => Some (w, t) | [] => None end.
Definition expect (k : string) (ws : list string) : option (list string) :=
  p <- next ws; check (fst p =? k)%string; Some (snd p).
Definition next_nat (ws : list string) : option (Z * list string) :=
  p <- next ws; n <- read_nat (fst p); Some (n, snd p).
(** A data type of the format that holds real numbers. *)
Definition next_type (ws : list string) : option (list string) :=
  p <- next ws; check ((fst p =? "float") || (fst p =? "double"))%string%bool; Some (snd p).
(** [n] numerals *)
Fixpoint next_numbers (n : nat) (ws : list string) : option (list string * list string) :=
  match n with
  | O => Some ([], ws)
  | S m => p <- next ws; _ <- numeral (fst p); q <- next_numbers m (snd p); Some (fst p :: fst q, snd q)
  end.

(** Three lines: version, title, ASCII; the rest is read word by word. *)
Definition read_header (s : string) : option (list string) :=
  let (l1, s) := next_line s in
  let (l2, s) := next_line s in
  let (l3, s) := next_line s in
  check ((l1 =? "# vtk DataFile Version 2.0") && (l3 =? "ASCII"))%string%bool; Some (words s).

(** DIMENSIONS a b c *)
Definition read_dims (ws : list string) : option (Z * Z * Z * list string) :=
  ws <- expect "DIMENSIONS" ws;
  p <- next_nat ws; q <- next_nat (snd p); r <- next_nat (snd q); Some (fst p, fst q, fst r, snd r).

(** X_COORDINATES n type and n numbers *)
Definition read_axis (key : string) (n : Z) (ws : list string) : option (list string * list string) :=
  ws <- expect key ws; p <- next_nat ws; check (fst p =? n); ws <- next_type (snd p); next_numbers (Z.to_nat n) ws.

(** A grid of points has one cell less along every axis; an axis with one point is flat. *)
Definition cells_along (points : Z) : Z := Z.max 1 (points - 1).

(** CELL_DATA n, SCALARS name type [1], LOOKUP_TABLE default, n numbers, and nothing else *)
Definition read_scalars (n : Z) (ws : list string) : option (string * list string) :=
  ws <- expect "CELL_DATA" ws; p <- next_nat ws; check (fst p =? n);
  ws <- expect "SCALARS" (snd p); name <- next ws; ws <- next_type (snd name);
  ws <- expect "LOOKUP_TABLE" (match expect "1" ws with Some ws' => ws' | None => ws end);
  ws <- expect "default" ws;
  q <- next_numbers (Z.to_nat n) ws;
  match snd q with [] => Some (fst name, fst q) | _ => None end.

(** The contents of a file: points along the axes, coordinates per axis, name of the field, values (first axis
    varying fastest); the numbers as numerals. *)
Record rect_doc : Type := mkRectDoc {
  rd_dims : Z * Z * Z;
  rd_x : list string; rd_y : list string; rd_z : list string;
  rd_name : string;
  rd_values : list string
}.

Definition read_rectilinear (s : string) : option rect_doc :=
  ws <- read_header s;
  ws <- expect "DATASET" ws; ws <- expect "RECTILINEAR_GRID" ws;
  d <- read_dims ws;
  let '(a, b, c, ws) := d in
  x <- read_axis "X_COORDINATES" a ws;
  y <- read_axis "Y_COORDINATES" b (snd x);
  z <- read_axis "Z_COORDINATES" c (snd y);
  v <- read_scalars (cells_along a * cells_along b * cells_along c) (snd z);
  Some (mkRectDoc (a, b, c) (fst x) (fst y) (fst z) (fst v) (snd v)).

(** The points of a structured grid are listed one by one, three numbers each. *)
Record grid_doc : Type := mkGridDoc {
  gd_dims : Z * Z * Z;
  gd_points : list string;
  gd_name : string;
  gd_values : list string
}.

Definition read_structured (s : string) : option grid_doc :=
  ws <- read_header s;
  ws <- expect "DATASET" ws; ws <- expect "STRUCTURED_GRID" ws;
  d <- read_dims ws;
  let '(a, b, c, ws) := d in
  ws <- expect "POINTS" ws; p <- next_nat ws; check (fst p =? a * b * c);
  ws <- next_type (snd p);
  q <- next_numbers (Z.to_nat (3 * (a * b * c))) ws;
  v <- read_scalars (cells_along a * cells_along b * cells_along c) (snd q);
  Some (mkGridDoc (a, b, c) (fst q) (fst v) (snd v)).

(** ** The pattern the tests look for in the output: [Cc]heck sum:[ ]*[1|0\\.999], upwind/cxx/CMakeLists.txt *)
Definition ctest_accepts (out : string) : Prop :=
  exists pre c spaces d post, out = pre ++ String c ("heck sum:" ++ spaces ++ String d post) /\
    (c = "C"%char \/ c = "c"%char) /\ (forall i a, String.get i spaces = Some a -> a = " "%char) /\
    In d ["1"; "|"; "0"; "\"; "."; "9"]%char.

(** ** Command lines *)

(** The help of the benchmark programs: one line per option. *)
Definition line_end : string := String (ascii_of_N 10) "".
Definition usage (exec : string) (options : list string) : string :=
  "Purpose: benchmark finite difference operations." ++ line_end ++
  exec ++ " [options]" ++ line_end ++
  "Usage:" ++ line_end ++
  fold_right (fun l t => String (ascii_of_N 9) (l ++ line_end ++ t)) "" options ++
  line_end ++ "Report bugs to alexander@gokliya.net" ++ line_end ++ line_end.

(** The first word that looks like an option and is none. *)
Definition first_unknown (options args : list string) (a : string) : Prop :=
  exists l1 l2, args = (l1 ++ a :: l2)%list /\ looks_like_option a /\ ~ In a options /\ known options l1.

(** The words printed for a flag and for a number. *)
Definition bit (b : bool) : string := if b then "1" else "0".
Definition numCells_line (n : string) : string := "-numCells <int#> Number of cells along each axis (" ++ n ++ ")".
Definition numSteps_line (k : string) : string := "-numSteps <int#> Number of time steps (" ++ k ++ ")".
Definition h_line (b : bool) : string := "-h Print help. (" ++ bit b ++ ")".
Definition std_line (b : bool) : string := "-std Print out spread of solution (" ++ bit b ++ ")".
Definition vtk_line (b : bool) : string := "-vtk Write output to VTK file (" ++ bit b ++ ")".

(** The report of a run: sizes, check sum, spread. *)
Definition report (threads : option (string * string)) (n k sum : string) (spread : option string) : string :=
  match threads with
  | Some (t, m) => "Running with OpenMP enabled" ++ line_end ++ "number of threads: " ++ t ++ " max number of threads: " ++ m ++ line_end
  | None => ""
  end ++
  "number of cells:  " ++ n ++ " " ++ n ++ " " ++ n ++ line_end ++
  "number of time steps: " ++ k ++ line_end ++
  "check sum: " ++ sum ++ line_end ++
  match spread with Some s => "std      : " ++ s ++ line_end | None => "" end.
