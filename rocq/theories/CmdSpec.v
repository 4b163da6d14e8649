(** * Specification vocabulary for the command line parser *)
From Verif Require Import Cpp.
From Coq Require Export String Ascii.

(** The four kinds of options, and what a program does with a parser. *)
Inductive kind : Type := KDouble | KInt | KString | KBool.

Inductive action (D : Type) : Type :=
| ASetDouble (name : string) (v : D) (help : string)
| ASetInt (name : string) (v : Z) (help : string)
| ASetString (name : string) (v : string) (help : string)
| ASetBool (name : string) (v : bool) (help : string)
| APurpose (s : string)
| AFootnote (s : string)
| AParse (argv : list string).
Arguments ASetDouble {D} name v help.
Arguments ASetInt {D} name v help.
Arguments ASetString {D} name v help.
Arguments ASetBool {D} name v help.
Arguments APurpose {D} s.
Arguments AFootnote {D} s.
Arguments AParse {D} argv.

(** What a registering action registers. *)
Definition registers {D} (a : action D) : option (kind * string * string) :=
  match a with
  | ASetDouble n _ h => Some (KDouble, n, h)
  | ASetInt n _ h => Some (KInt, n, h)
  | ASetString n _ h => Some (KString, n, h)
  | ASetBool n _ h => Some (KBool, n, h)
  | _ => None
  end.

(** Registered by a history (oldest action first); -h is always there. *)
Definition registered {D} (hist : list (action D)) (k : kind) (name : string) : Prop :=
  (k = KBool /\ name = "-h"%string) \/ exists a h, In a hist /\ registers a = Some (k, name, h).

Definition registered_any {D} (hist : list (action D)) (name : string) : Prop := exists k, registered hist k name.

(** [h] is the help text given the last time (k, name) was registered. *)
Definition last_help {D} (hist : list (action D)) (k : kind) (name h : string) : Prop :=
  (exists h1 a h2, hist = (h1 ++ a :: h2)%list /\ registers a = Some (k, name, h) /\
     forall a' h', In a' h2 -> registers a' <> Some (k, name, h')) \/
  (k = KBool /\ name = "-h"%string /\ h = "Print help."%string /\
     forall a' h', In a' hist -> registers a' <> Some (k, name, h')).

(** A minus sign followed by something that is not a digit. *)
Definition is_digit (c : ascii) : Prop := (48 <= N_of_ascii c <= 57)%N.
Definition looks_like_option (arg : string) : Prop :=
  exists c t, arg = String "-" (String c t) /\ ~ is_digit c.

Definition ascii7 (s : string) : Prop := forall n c, String.get n s = Some c -> (N_of_ascii c < 128)%N.

(** [v] is the argument that follows the last occurrence of [key] that is followed by an argument. *)
Definition last_value (key : string) (args : list string) (v : string) : Prop :=
  exists l1 l2, args = (l1 ++ key :: v :: l2)%list /\
    forall m1 w m2, v :: l2 <> (m1 ++ key :: w :: m2)%list.

Definition no_value (key : string) (args : list string) : Prop :=
  forall l1 v l2, args <> (l1 ++ key :: v :: l2)%list.
