(** * The text written by the Fortran versions of the upwind benchmark

    upwind/fortran/upwind.F90:155-221 and 305-371 (upwindF03.F90, upwindF08.F90 and upwindF08Gpu.F90 write the same text).
    The values come from FortModel.v.  Writing never fails.  Left as parameters, since they are up to the compiler: the text
    of a real number with the edit descriptors f15.9 ([show_f]) and e20.7 ([show_e]), what "write( *, * ) ' '" appends to
    the current line ([gap]), the line written by a list-directed write without items ([empty]), what stop writes to
    the error unit ([stop]).  [report] is what was written before line 305 (the number of threads).
    In upwindF08Gpu.F90:406-408 the text of stop and everything else is the same. *)
From Coq Require Import List ZArith Reals String Ascii Floats.SpecFloat.
From Verif Require Import Cpp CmdModel VtkModel UpModel FortModel NumModel TextModel DblSpec.
From Coq Require Import List.
Import ListNotations.
Local Open Scope string_scope.
Local Open Scope Z_scope.

Fixpoint fill (c : ascii) (n : nat) : string := match n with O => "" | S m => String c (fill c m) end.
(** Right-justified in [w] columns *)
Definition pad (w : nat) (s : string) : string := fill " " (w - String.length s) ++ s.

(** The edit descriptor Iw: w asterisks when the number does not fit *)
Definition i_edit (w : nat) (n : Z) : string :=
  let s := show_int n in if (String.length s <=? w)%nat then pad w s else fill "*" w.

(** The edit descriptor F15.9, of a number between 0 and 99999: the nearest multiple of 10^-9 (either one of two equally
    near ones), right-justified; the zero before the point may be left out. *)
Definition f_edit (show : spec_float -> string) : Prop :=
  forall x r, double_value x r -> (0 <= r < 99999)%R ->
  exists k head, (Rabs (r * 10 ^ 9 - IZR k) <= / 2)%R /\
    (head = show_nat (k / 10 ^ 9) \/ (k / 10 ^ 9 = 0 /\ head = "")) /\
    show x = pad 15 (head ++ "." ++ show_digits 9 (k mod 10 ^ 9)).

(** The exponent part of Ew.d: two digits, or three and no E *)
Definition exp_text (k : Z) : string :=
  let sign := if k <? 0 then "-" else "+" in
  if Z.abs k <=? 99 then "E" ++ sign ++ show_digits 2 (Z.abs k) else sign ++ show_digits 3 (Z.abs k).

(** The edit descriptor E20.7: 0.m times a power of ten, [m] having seven digits, the first not zero *)
Definition e_edit (show : spec_float -> string) : Prop :=
  forall x r, double_value x r ->
  exists m k sign, ((r = 0%R /\ m = 0 /\ k = 0) \/ (10 ^ 6 <= m < 10 ^ 7)) /\
    (Rabs (Rabs r - IZR m * powerRZ 10 (k - 7)) <= / 2 * powerRZ 10 (k - 7))%R /\
    ((r < 0)%R -> sign = "-") /\ ((0 < r)%R -> sign = "") /\ (r = 0%R -> sign = "-" \/ sign = "") /\
    show x = pad 20 (sign ++ "0." ++ show_digits 7 m ++ exp_text k).

Section Text.
  Context {D : Type} (ar : arith D) (show_f show_e : D -> string) (gap empty : string) (stop : string -> string).

  (** One line per number, upwind.F90:186-188 *)
  Definition column (l : list D) : string := texts (map (fun x => show_e x ++ newline) l).

  (** The dimensions, upwind.F90:173-183; the number of points along the axes is in the order of the file *)
  Definition fo_dims_text (ndims : Z) (d : list Z) : string :=
    let at_ k := nth k d 0 in
    if 2 <? ndims then "DIMENSIONS " ++ i_edit 10 (at_ 0%nat) ++ i_edit 10 (at_ 1%nat) ++ i_edit 10 (at_ 2%nat) ++ newline
    else if 1 <? ndims then "DIMENSIONS 1" ++ i_edit 10 (at_ 1%nat) ++ i_edit 10 (at_ 2%nat) ++ newline
    else "DIMENSIONS 1 1" ++ i_edit 10 (at_ 2%nat) ++ newline.

  (** The coordinates of one axis, upwind.F90:185-210 *)
  Definition fo_axis_text (name : string) (present : bool) (c : Z * list D) : string :=
    if present then name ++ "_COORDINATES " ++ i_edit 10 (fst c) ++ " double" ++ newline ++ column (snd c)
    else name ++ "_COORDINATES 1 double" ++ newline ++ "0.0" ++ newline.

  (** upwind_saveVTK, upwind.F90:155-221 *)
  Definition fo_vtk_text (ndims : Z) (r : @rectilinear D) : string :=
    let axis k := nth k (rg_coords r) (0, []) in
    "# vtk DataFile Version 2.0" ++ newline ++
    "upwind.f90" ++ newline ++
    "ASCII" ++ newline ++
    "DATASET RECTILINEAR_GRID" ++ newline ++
    fo_dims_text ndims (rg_dims r) ++
    fo_axis_text "X" true (axis 0%nat) ++ empty ++ newline ++
    fo_axis_text "Y" (1 <? ndims) (axis 1%nat) ++ empty ++ newline ++
    fo_axis_text "Z" (2 <? ndims) (axis 2%nat) ++
    "CELL_DATA " ++ i_edit 20 (rg_count r) ++ newline ++
    "SCALARS f double 1" ++ newline ++
    "LOOKUP_TABLE default" ++ newline ++
    column (rg_values r).

  (** The lines with the arguments, upwind.F90:329-334 *)
  Definition fo_args_text (n steps : Z) : string :=
    "number of cells: " ++ texts (map (fun n => i_edit 10 n ++ " ") (repeat n 3)) ++ gap ++ newline ++
    "number of time steps: " ++ i_edit 10 steps ++ newline.

  (** The program, upwind.F90:305-371 *)
  Definition fo_program (report : string) (read : string -> option Z) (blank : string -> bool) (args : list string) : res run :=
    r <- fo_main ar read blank args ;;
    match r with
    | None => Ok (mkRun report (stop "must specify number of cells in each direction.") [] 0)
    | Some (u, s, vtk) =>
        let o := fo_parse read blank 0 args (mkFoOpt (Some (-1)) (Some 100) false 0) in
        match oo_numCells o, oo_steps o with
        | Some n, Some steps =>
            Ok (mkRun (report ++ fo_args_text n steps ++ "check sum: " ++ show_f s ++ newline) ""
                  (match vtk with Some r => [("up.vtk", fo_vtk_text (fo_ndims u) r)] | None => [] end) 0)
        | _, _ => Undef UninitRead
        end
    end.
End Text.
