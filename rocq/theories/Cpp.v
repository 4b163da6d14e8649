(** * Base layer: outcomes, machine integers, vectors and loops of the C++ subset used by fidibench.

    Nothing in this file is specific to one source file of /repo: it fixes how the C++ constructs that
    occur there are rendered.  See DESIGN.md section 1. *)
From Coq Require Export List ZArith Bool Lia.
Export ListNotations.
Local Open Scope Z_scope.

(** ** Outcomes *)

(** What can go wrong.  Undefined behaviour of C++ or an erroneous MPI call. *)
Inductive ub : Type :=
| OobRead          (* vector / array element read out of bounds *)
| OobWrite         (* vector / array element written out of bounds *)
| DivZero          (* integer division or remainder by zero *)
| SignedOverflow   (* overflow of an int operation *)
| UninitRead       (* read of an object that was never initialised *)
| EndDeref         (* dereference of map::end() *)
| EmptyFront       (* vector::front() on an empty vector *)
| BadChar          (* <cctype> function called with a negative value *)
| NumRange         (* atoi on a number that does not fit an int *)
| MpiBadRank       (* MPI call with a rank outside the communicator *)
| MpiBadRange      (* RMA access outside the target window *)
| MpiMismatch      (* collective MPI calls of the ranks that do not match *)
| UseAfterFree     (* access to memory that has been released *)
| DoubleFree       (* buffer or window released twice *)
| BadAlloc.        (* std::length_error / std::bad_alloc / negative MPI size *)

Inductive res (A : Type) : Type :=
| Ok (a : A)
| Undef (u : ub).
Arguments Ok {A} a.
Arguments Undef {A} u.

Definition bind {A B : Type} (r : res A) (k : A -> res B) : res B :=
  match r with
  | Ok a => k a
  | Undef u => Undef u
  end.

Declare Scope res_scope.
Delimit Scope res_scope with res.
Notation "x <- r ;; k" := (bind r (fun x => k))
  (at level 61, r at next level, right associativity) : res_scope.
Notation "' p <- r ;; k" := (bind r (fun x => match x with p => k end))
  (at level 61, p pattern, r at next level, right associativity) : res_scope.
Open Scope res_scope.

Definition is_ok {A : Type} (r : res A) : bool :=
  match r with Ok _ => true | Undef _ => false end.

(** ** Machine integers (LP64: int is 32 bits, size_t is 64 bits) *)

Definition two64 : Z := 18446744073709551616.
Definition two32 : Z := 4294967296.
Definition two31 : Z := 2147483648.
Definition int_max : Z := 2147483647.

(** Result of an operation on size_t operands, or of a conversion to size_t. *)
Definition u64 (z : Z) : Z := z mod two64.

(** Conversion to int (implementation defined before C++20: reduction modulo 2^32). *)
Definition i32 (z : Z) : Z := (z + two31) mod two32 - two31.

Definition int_range (z : Z) : bool := (- two31 <=? z) && (z <=? int_max).

(** Result of a signed int operation: undefined when it does not fit. *)
Definition int_op (z : Z) : res Z :=
  if int_range z then Ok z else Undef SignedOverflow.

(** Unsigned division and remainder. *)
Definition udiv (a b : Z) : res Z := if b =? 0 then Undef DivZero else Ok (a / b).
Definition umod (a b : Z) : res Z := if b =? 0 then Undef DivZero else Ok (a mod b).

(** Signed int division (truncating). *)
Definition sdiv (a b : Z) : res Z :=
  if b =? 0 then Undef DivZero else int_op (Z.quot a b).

(** ** std::vector as a list; element access is checked *)

Definition vlen {A : Type} (v : list A) : Z := Z.of_nat (length v).

Definition vget {A : Type} (v : list A) (i : Z) : res A :=
  if (0 <=? i) && (i <? vlen v)
  then match nth_error v (Z.to_nat i) with
       | Some a => Ok a
       | None => Undef OobRead
       end
  else Undef OobRead.

Fixpoint upd {A : Type} (v : list A) (n : nat) (a : A) : list A :=
  match v, n with
  | [], _ => []
  | _ :: t, O => a :: t
  | h :: t, S m => h :: upd t m a
  end.

Definition vset {A : Type} (v : list A) (i : Z) (a : A) : res (list A) :=
  if (0 <=? i) && (i <? vlen v) then Ok (upd v (Z.to_nat i) a) else Undef OobWrite.

(** ** Loops *)

(** [for (i = k; i < k + cnt; ++i) s = body(i, s)] *)
Fixpoint for_from {St : Type} (k : nat) (cnt : nat) (body : Z -> St -> res St) (s : St) : res St :=
  match cnt with
  | O => Ok s
  | S c => s' <- body (Z.of_nat k) s ;; for_from (S k) c body s'
  end.

(** [for (i = 0; i < n; ++i) s = body(i, s)] for a size_t or non-negative int bound [n]
    (a negative bound gives no iteration). *)
Definition for_upto {St : Type} (n : Z) (body : Z -> St -> res St) (s : St) : res St :=
  for_from 0 (Z.to_nat n) body s.

(** [for (i = 0; i < n; ++i) res[i] = f(i)] on a vector of [n] elements, none of which is read. *)
Fixpoint tab_from {A : Type} (k : nat) (cnt : nat) (f : Z -> res A) : res (list A) :=
  match cnt with
  | O => Ok []
  | S c => a <- f (Z.of_nat k) ;; t <- tab_from (S k) c f ;; Ok (a :: t)
  end.
Definition tabulate {A : Type} (n : Z) (f : Z -> res A) : res (list A) :=
  tab_from 0 (Z.to_nat n) f.

(** Iteration over the elements of a container, in order. *)
Fixpoint for_each {A St : Type} (l : list A) (body : A -> St -> res St) (s : St) : res St :=
  match l with
  | [] => Ok s
  | a :: t => s' <- body a s ;; for_each t body s'
  end.

Fixpoint mapM {A B : Type} (f : A -> res B) (l : list A) : res (list B) :=
  match l with
  | [] => Ok []
  | a :: t => b <- f a ;; r <- mapM f t ;; Ok (b :: r)
  end.

(** ** std::map as an association list sorted by key *)

Section OMap.
  Context {K V : Type} (cmp : K -> K -> comparison).

  (** map::find *)
  Fixpoint omap_find (k : K) (m : list (K * V)) : option V :=
    match m with
    | [] => None
    | (k', v) :: t => match cmp k k' with
                      | Eq => Some v
                      | Lt => None
                      | Gt => omap_find k t
                      end
    end.

  (** map::insert: leaves the map unchanged when the key is present *)
  Fixpoint omap_insert (k : K) (v : V) (m : list (K * V)) : list (K * V) :=
    match m with
    | [] => [(k, v)]
    | (k', v') :: t => match cmp k k' with
                       | Eq => (k', v') :: t
                       | Lt => (k, v) :: (k', v') :: t
                       | Gt => (k', v') :: omap_insert k v t
                       end
    end.

  (** m[k] = v: overwrites *)
  Fixpoint omap_set (k : K) (v : V) (m : list (K * V)) : list (K * V) :=
    match m with
    | [] => [(k, v)]
    | (k', v') :: t => match cmp k k' with
                       | Eq => (k', v) :: t
                       | Lt => (k, v) :: (k', v') :: t
                       | Gt => (k', v') :: omap_set k v t
                       end
    end.

  (** find(k)->second, undefined when the key is absent *)
  Definition omap_at (k : K) (m : list (K * V)) : res V :=
    match omap_find k m with
    | Some v => Ok v
    | None => Undef EndDeref
    end.
End OMap.

(** operator< on std::vector<int>: lexicographic *)
Fixpoint lexcmp (a b : list Z) : comparison :=
  match a, b with
  | [], [] => Eq
  | [], _ :: _ => Lt
  | _ :: _, [] => Gt
  | x :: a', y :: b' => match Z.compare x y with
                        | Eq => lexcmp a' b'
                        | c => c
                        end
  end.

(** ** Field arithmetic: double, or anything else.  No law is assumed. *)
Record arith (D : Type) : Type := mkArith {
  a_zero : D;
  a_one : D;
  a_ofZ : Z -> D;        (* conversion from an integer type *)
  a_dec : Z -> Z -> D;   (* a_dec m e: the decimal literal m * 10^(-e) *)
  a_add : D -> D -> D;
  a_sub : D -> D -> D;
  a_mul : D -> D -> D;
  a_div : D -> D -> D;
  a_neg : D -> D;
  a_lt : D -> D -> bool;
  a_max : D              (* numeric_limits<double>::max() *)
}.
Arguments a_zero {D} _.
Arguments a_one {D} _.
Arguments a_ofZ {D} _ _.
Arguments a_dec {D} _ _ _.
Arguments a_add {D} _ _ _.
Arguments a_sub {D} _ _ _.
Arguments a_mul {D} _ _ _.
Arguments a_div {D} _ _ _.
Arguments a_neg {D} _ _.
Arguments a_lt {D} _ _ _.
Arguments a_max {D} _.
