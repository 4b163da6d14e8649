(** * Specification vocabulary for whole programs *)
From Verif Require Import Cpp CmdSpec CmdModel.
From Coq Require Import List.
Import ListNotations.
Local Open Scope Z_scope.

(** No word looks like an option without being one. *)
Definition known (options args : list string) : Prop := forall a, In a args -> looks_like_option a -> In a options.

(** A flag is on when it is given an odd number of times. *)
Definition flag (args : list string) (name : string) : bool := Nat.odd (count_occ string_dec args name).

(** What an int option is worth: the number after its last occurrence, or the default. *)
Definition int_option (args : list string) (name : string) (default v : Z) : Prop :=
  (exists s, last_value name args s /\ c_atoi s = Ok v) \/ (no_value name args /\ v = default).

(** The C library can read what follows the int options, and the characters are 7-bit. *)
Definition readable (ints args : list string) : Prop :=
  (forall a, In a args -> ascii7 a) /\
  forall l1 o v l2, args = l1 ++ o :: v :: l2 -> In o ints -> c_atoi v <> Undef NumRange.

(** The direction of length 1 along axis [j] of [n], with sign [s]. *)
Definition along (n j : nat) (s : Z) : list Z := map (fun i => if (i =? j)%nat then s else 0) (seq 0 n).

(** The directions of length 1 along the axes, in the order they are tried. *)
Definition directions (n : nat) : list (list Z) := flat_map (fun j => [along n j (-1); along n j 1]) (seq 0 n).
