(** * Specification vocabulary for the files written by writeVTK *)
From Coq Require Import List ZArith.
From Verif Require Import Cpp MaiSpec.
Import ListNotations.
Local Open Scope Z_scope.

(** Three components, missing ones replaced by [d]. *)
Definition pad3 {A} (d : A) (l : list A) : list A := [nth 0 l d; nth 1 l d; nth 2 l d].

Section Spec.
  Context {D : Type} (ar : arith D).

  (** Position of a node of a uniform grid of [n] cells between [x0] and [x1]. *)
  Definition node (x0 x1 : D) (n i : Z) : D := a_add ar x0 (a_div ar (a_mul ar (a_sub ar x1 x0) (a_ofZ ar i)) (a_ofZ ar n)).

  (** The point with node indices [g]; absent axes have one cell between 0 and 1. *)
  Definition grid_point (dims : list Z) (xmins xmaxs : list D) (g : list Z) : list D :=
    map (fun j => node (nth j (pad3 (a_dec ar 0 1) xmins) (a_zero ar)) (nth j (pad3 (a_dec ar 10 1) xmaxs) (a_zero ar))
                       (nth j (pad3 1 dims) 0) (nth j g 0)) [0; 1; 2]%nat.
End Spec.

(** Points along the three axes of the file. *)
Definition file_dims (dims : list Z) : list Z := map (fun n => n + 1) (pad3 1 dims).
