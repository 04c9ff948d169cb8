(** Outcomes of C++ executions, checked vectors and counted loops.

    This file is the (small) imperative vocabulary in which the library is
    modelled.  Nothing in it is specific to NURBS. *)
From Coq Require Import List ZArith Lia Bool.
Import ListNotations.
Open Scope Z_scope.

(** Exceptions the library (or the standard containers it uses) can throw. *)
Inductive exn : Type :=
| InvalidArgument   (* std::invalid_argument *)
| OutOfRange        (* std::out_of_range *)
| LengthError       (* std::length_error / std::bad_alloc of a container asked for a negative (hence huge) size *)
| RuntimeError.     (* std::runtime_error *)

(** Kinds of undefined (or unusable) behaviour. *)
Inductive ub : Type :=
| OutOfBounds       (* vector / matrix access outside its bounds, or bad iterator *)
| Uninitialised     (* reading a Vec4 that was never written *)
| IntOverflow       (* signed int overflow *)
| Precondition.     (* violated precondition of a standard algorithm *)

(** The result of running a C++ function. [NotFinite] is produced only by the
    exact-arithmetic reading of the code, when a division by zero would leave
    the real numbers (in binary64 it yields an infinity or a NaN and execution
    goes on). [AssertFail] is a failing [assert]: the program aborts in a build
    without NDEBUG; what an NDEBUG build does afterwards is not modelled. *)
Inductive outcome (A : Type) : Type :=
| Ok (a : A)
| Throw (e : exn)
| AssertFail
| Undefined (u : ub)
| NotFinite
| OutOfFuel.
Arguments Ok {A} a.
Arguments Throw {A} e.
Arguments AssertFail {A}.
Arguments Undefined {A} u.
Arguments NotFinite {A}.
Arguments OutOfFuel {A}.

Definition bind {A B} (m : outcome A) (f : A -> outcome B) : outcome B :=
  match m with
  | Ok a => f a
  | Throw e => Throw e
  | AssertFail => AssertFail
  | Undefined u => Undefined u
  | NotFinite => NotFinite
  | OutOfFuel => OutOfFuel
  end.

Declare Scope outcome_scope.
Delimit Scope outcome_scope with outcome.
Open Scope outcome_scope.

Notation "x <- m ;; f" := (bind m (fun x => f))
  (at level 61, m at next level, right associativity) : outcome_scope.
Notation "' p <- m ;; f" := (bind m (fun p => f))
  (at level 61, p pattern, m at next level, right associativity) : outcome_scope.
Notation "m ;;; f" := (bind m (fun _ => f))
  (at level 61, right associativity) : outcome_scope.

(** [assert(b)] *)
Definition assert_ (b : bool) : outcome unit := if b then Ok tt else AssertFail.

(** Length of a [std::vector] as a C++ [int]. *)
Definition len {A} (l : list A) : Z := Z.of_nat (length l).

(** [v[i]] for reading: undefined outside [0, size). *)
Definition vget {A} (l : list A) (i : Z) : outcome A :=
  if i <? 0 then Undefined OutOfBounds
  else match nth_error l (Z.to_nat i) with
       | Some a => Ok a
       | None => Undefined OutOfBounds
       end.

Fixpoint update {A} (n : nat) (x : A) (l : list A) : list A :=
  match l, n with
  | [], _ => []
  | _ :: t, O => x :: t
  | a :: t, S m => a :: update m x t
  end.

(** [v[i] = x]: undefined outside [0, size). *)
Definition vset {A} (l : list A) (i : Z) (x : A) : outcome (list A) :=
  if (0 <=? i) && (i <? len l) then Ok (update (Z.to_nat i) x l)
  else Undefined OutOfBounds.

(** Vectors whose elements start uninitialised ([std::vector<Vec4> v(n)]:
    Eigen's default constructor does not initialise). *)
Definition uninit (A : Type) (n : Z) : outcome (list (option A)) :=
  if n <? 0 then Throw LengthError else Ok (repeat None (Z.to_nat n)).

Definition ugets {A} (l : list (option A)) (i : Z) : outcome A :=
  o <- vget l i ;;
  match o with Some a => Ok a | None => Undefined Uninitialised end.

Definition usets {A} (l : list (option A)) (i : Z) (x : A) : outcome (list (option A)) :=
  vset l i (Some x).

(** All elements have been written. *)
Fixpoint freeze {A} (l : list (option A)) : outcome (list A) :=
  match l with
  | [] => Ok []
  | Some a :: t => r <- freeze t ;; Ok (a :: r)
  | None :: _ => Undefined Uninitialised
  end.

(** [std::vector<double> v(n)] / [v(n, x)]: negative sizes convert to a huge [size_t]. *)
Definition vmake {A} (n : Z) (x : A) : outcome (list A) :=
  if n <? 0 then Throw LengthError else Ok (repeat x (Z.to_nat n)).

(** [v.insert(v.begin() + pos, n, x)] *)
Definition vinsert {A} (l : list A) (pos n : Z) (x : A) : outcome (list A) :=
  if (0 <=? pos) && (pos <=? len l) then
    if n <? 0 then Throw LengthError
    else Ok (firstn (Z.to_nat pos) l ++ repeat x (Z.to_nat n) ++ skipn (Z.to_nat pos) l)
  else Undefined OutOfBounds.

(** [for (int i = lo; i < lo + n; ++i) s = body(i, s);] *)
Fixpoint loop {S} (n : nat) (i : Z) (body : Z -> S -> outcome S) (s : S) : outcome S :=
  match n with
  | O => Ok s
  | Datatypes.S m => s' <- body i s ;; loop m (i + 1) body s'
  end.

(** [for (int i = lo; i < hi; ++i)] *)
Definition for_up {S} (lo hi : Z) (body : Z -> S -> outcome S) (s : S) : outcome S :=
  loop (Z.to_nat (hi - lo)) lo body s.

Fixpoint loop_down {S} (n : nat) (i : Z) (body : Z -> S -> outcome S) (s : S) : outcome S :=
  match n with
  | O => Ok s
  | Datatypes.S m => s' <- body i s ;; loop_down m (i - 1) body s'
  end.

(** [for (int i = hi; i >= lo; --i)] *)
Definition for_down {S} (hi lo : Z) (body : Z -> S -> outcome S) (s : S) : outcome S :=
  loop_down (Z.to_nat (hi - lo + 1)) hi body s.

(** [while (cond(s)) s = body(s);] with explicit fuel. *)
Fixpoint while_ {S} (fuel : nat) (cond : S -> outcome bool) (body : S -> outcome S) (s : S)
  : outcome S :=
  b <- cond s ;;
  if b then
    match fuel with
    | O => OutOfFuel
    | Datatypes.S f => s' <- body s ;; while_ f cond body s'
    end
  else Ok s.

(** [for (i = lo; i < hi; ++i) v[i] = f(i);] building a fresh vector. *)
Fixpoint tabulate_nat {A} (n : nat) (i : Z) (f : Z -> outcome A) : outcome (list A) :=
  match n with
  | O => Ok []
  | S m => a <- f i ;; r <- tabulate_nat m (i + 1) f ;; Ok (a :: r)
  end.
Definition tabulate {A} (lo hi : Z) (f : Z -> outcome A) : outcome (list A) :=
  tabulate_nat (Z.to_nat (hi - lo)) lo f.

(** Element-wise monadic map ([for (auto& p : v) p = f(p);]). *)
Fixpoint mapM {A B} (f : A -> outcome B) (l : list A) : outcome (list B) :=
  match l with
  | [] => Ok []
  | a :: t => b <- f a ;; r <- mapM f t ;; Ok (b :: r)
  end.

(** Left fold ([for (auto x : v) s = f(s, x);]). *)
Fixpoint foldM {A S} (f : S -> A -> outcome S) (l : list A) (s : S) : outcome S :=
  match l with
  | [] => Ok s
  | a :: t => s' <- f s a ;; foldM f t s'
  end.

(** 32-bit [int]. *)
Definition INT_MAX : Z := 2147483647.
Definition INT_MIN : Z := -2147483648.
Definition fits_int (z : Z) : bool := (INT_MIN <=? z) && (z <=? INT_MAX).
(** Result of a signed int operation: undefined when it does not fit. *)
Definition int_ (z : Z) : outcome Z :=
  if fits_int z then Ok z else Undefined IntOverflow.
