(** Specification vocabulary for knot vectors, grids and boxes, independent of
    the model of the code. *)
From Coq Require Import List ZArith Reals Ascii.
From Verif Require Import Outcome ModelCore.
Import ListNotations.
Open Scope Z_scope.

(** The [i]-th element of a list of reals (0-based). *)
Definition at_ (l : list R) (i : Z) : R := nth (Z.to_nat i) l 0%R.

Definition nondecreasing (l : list R) : Prop :=
  forall i j, 0 <= i <= j -> j < len l -> (at_ l i <= at_ l j)%R.

(** What the KnotVector constructor is documented to accept. *)
Definition acceptable (l : list R) : Prop :=
  l <> [] /\ nondecreasing l /\ (0 <= at_ l 0)%R /\ at_ l (len l - 1) = 1%R.

(** Knot vectors for the parameter domain [0,1]. *)
Definition unit_knots (l : list R) : Prop :=
  nondecreasing l /\ 2 <= len l /\ at_ l 0 = 0%R /\ at_ l (len l - 1) = 1%R.

(** Clamped for degree [p]: the end knots 0 and 1 have multiplicity exactly p+1. *)
Record clamped (p : Z) (l : list R) : Prop := {
  cl_degree : 0 <= p;
  cl_len : 2 * (p + 1) <= len l;
  cl_sorted : nondecreasing l;
  cl_zero : forall i, 0 <= i <= p -> at_ l i = 0%R;
  cl_first : (0 < at_ l (p + 1))%R;
  cl_last : (at_ l (len l - p - 2) < 1)%R;
  cl_one : forall i, len l - p - 1 <= i < len l -> at_ l i = 1%R;
}.

(** Number of occurrences of a value. *)
Definition count (v : R) (l : list R) : Z := Z.of_nat (count_occ Req_EM_T l v).

(** Run-length expansion of (value, multiplicity) pairs. *)
Definition expand (ps : list (R * Z)) : list R :=
  flat_map (fun p => repeat (fst p) (Z.to_nat (snd p))) ps.

Definition pair_of (k : knotpair R) : R * Z := (kp_Value k, kp_Multiplicity k).

(** strictly increasing first components *)
Fixpoint increasing (ps : list (R * Z)) : Prop :=
  match ps with
  | a :: ((b :: _) as r) => (fst a < fst b)%R /\ increasing r
  | _ => True
  end.

(** Component-wise order on points, and the set of points of a box. *)
Definition le3 (a b : vec3 R) : Prop := (x3 a <= x3 b /\ y3 a <= y3 b /\ z3 a <= z3 b)%R.
Definition in_box (p : vec3 R) (b : bbox R) : Prop := le3 (Min b) p /\ le3 p (Max b).
Definition ordered (b : bbox R) : Prop := le3 (Min b) (Max b).
(** Inclusion of boxes as sets of points. *)
Definition box_incl (a b : bbox R) : Prop := forall p, in_box p a -> in_box p b.

(** A [u] x [v] grid: cell (i,j) of the table is [f i j]. *)
Definition grid_is {A} (g : grid A) (u v : Z) (f : Z -> Z -> A) : Prop :=
  UCount g = u /\ VCount g = v /\ 0 <= u /\ 0 <= v /\ len (Values g) = u * v /\
  forall i j, 0 <= i < u -> 0 <= j < v -> nth_error (Values g) (Z.to_nat (j * u + i)) = Some (f i j).

(** [Index] of every pair but the last is one past the end of its run; of the
    last pair it is the start of its run. *)
Fixpoint indices_from (s : Z) (ps : list (R * Z)) : list Z :=
  match ps with
  | [] => []
  | [p] => [s]
  | p :: r => (s + snd p) :: indices_from (s + snd p) r
  end.

(** Number of leading elements equal to [v]. *)
Fixpoint leading (v : R) (l : list R) : Z :=
  match l with [] => 0 | a :: t => if Req_EM_T a v then 1 + leading v t else 0 end.

(** consecutive gaps *)
Fixpoint gaps (l : list R) : list R :=
  match l with a :: ((b :: _) as r) => (b - a)%R :: gaps r | _ => [] end.
(** first non-zero element, 0 if none *)
Fixpoint first_nonzero (l : list R) : R :=
  match l with [] => 0%R | a :: r => if Req_EM_T a 0 then first_nonzero r else a end.
Definition close (a b : R) : Prop := (Rabs (a - b) < 1 / 1000000)%R.

Definition near (u v : R) : bool := if Rlt_dec (Rabs (v - u)) (1 / 1000000) then true else false.

(** The span of [u]: non-empty, half open, closed at the end of the domain. *)
Definition in_span (l : list R) (i : Z) (u : R) : Prop :=
  ((at_ l i <= u < at_ l (i + 1)) \/ (u = 1 /\ at_ l i < u /\ u = at_ l (i + 1)))%R.

(** knot [i] of the uniform vector of degree [p] with [k] interior knots *)
Definition uniform_knot (p k i : Z) : R :=
  if i <=? p then 0%R else if i <=? p + k then (IZR (i - p) / IZR (k + 1))%R else 1%R.

(** Pascal's triangle. *)
Fixpoint choose (n k : nat) : Z :=
  match k, n with
  | O, _ => 1
  | S _, O => 0
  | S k', S n' => choose n' k' + choose n' k
  end.

(** No intermediate product of [Binomial n k] exceeds an int. *)
Definition binomial_fits (n k : nat) : Prop :=
  forall i, (i < k)%nat -> (Z.of_nat n - Z.of_nat i) * choose n i <= INT_MAX.

(** White space of the "C" locale: space, \t, \n, \v, \f, \r. *)
Definition white (c : ascii) : Prop := In (nat_of_ascii c) [32; 9; 10; 11; 12; 13]%nat.
(** [t] is [s] without its surrounding white space. *)
Definition trimmed (s t : list ascii) : Prop :=
  exists a b, s = a ++ t ++ b /\ Forall white a /\ Forall white b /\
    (forall c r, t = c :: r -> ~ white c) /\ (forall c r, t = r ++ [c] -> ~ white c).
