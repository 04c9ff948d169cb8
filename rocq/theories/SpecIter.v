(** What each iteration of the parameter searches is required to be (properties
    C81, C82, C83): a projected quasi-Newton method with backtracking on half the
    squared distance, stated with derivatives, the secant equation and quadratic
    forms, not with the update formulas of the code. *)
From Coq Require Import Reals ZArith List Lia.
From Coquelicot Require Import Coquelicot.
From Verif Require Import Outcome Num ModelCore SpecCore SpecSearch.
Open Scope R_scope.

(** ** The objective and its slope *)
(** half the squared distance of two points *)
Definition half_sq (a b : vec3 R) : R :=
  ((x3 a - x3 b) ^ 2 + (y3 a - y3 b) ^ 2 + (z3 a - z3 b) ^ 2) / 2.

(** [g] is the slope at [x] of a function that agrees with [f] inside [(a,b)]:
    the derivative of [f] for [x] inside and the one-sided one at an end *)
Definition slope_in (f : R -> R) (a b x g : R) : Prop :=
  exists F, (forall t, a < t < b -> f t = F t) /\ is_derive F x g.
(** the slope taken in the span of the knots [l] that contains [x] *)
Definition slope_at (l : list R) (f : R -> R) (x g : R) : Prop :=
  exists j, (0 <= j < len l - 1)%Z /\ in_span l j x /\ slope_in f (at_ l j) (at_ l (j + 1)) x g.

(** ** One parameter *)
Definition clamp01 (x : R) : R := Rmax 0 (Rmin 1 x).

(** [x'] is the first of the projected steps [x - 0.9^i h g], for [i = 0, ..., m-1],
    that lowers the distance [r] by the fraction [0.0001] of what the slope
    promises; the step with [i = m] if none does. *)
Definition backtrack (dist : R -> R) (m : nat) (x r h g x' : R) : Prop :=
  let step i := clamp01 (x - (9 / 10) ^ i * (h * g)) in
  let enough i := dist (step i) <= r - 1 / 10000 * (9 / 10) ^ i * (h * g ^ 2) in
  exists j, (j <= m)%nat /\ x' = step j /\
    (forall i, (i < j)%nat -> ~ enough i) /\ ((j < m)%nat -> enough j).

(** [h'] is the inverse slope of the secant through [(x, g)] and [(x', g')]; when
    the step is too short or too flat, a large multiple of the squared step,
    which restarts the method. *)
Definition secant (s y h' : R) : Prop :=
  (1 / 10 ^ 16 <= Rabs (s * y) -> h' * y = s) /\
  (Rabs (s * y) < 1 / 10 ^ 16 -> h' = (1 - 10 ^ 10 * (s * y)) ^ 2 + 10 ^ 10 * s ^ 2).

(** A run with [k] iterations done, at [x] with recorded distance [r] and
    inverse slope [h], ends in [u]. *)
Inductive search_run (dist : R -> R) (slope : R -> R -> Prop) (m : nat) (eps mx : R) :
    nat -> R -> R -> R -> R -> Prop :=
| run_stop k x r h :
    r < eps \/ mx <= INR k -> search_run dist slope m eps mx k x r h x
| run_step k x r h g x' g' h' u :
    ~ r < eps -> INR k < mx ->
    slope x g -> backtrack dist m x r h g x' -> slope x' g' ->
    secant (x' - x) (g' - g) h' ->
    search_run dist slope m eps mx (S k) x' (dist x') h' u ->
    search_run dist slope m eps mx k x r h u.

(** ** Two parameters *)
(** A symmetric matrix given by its entries (1,1), (1,2), (2,2). *)
Record sym2 := Sym2 { s11 : R; s12 : R; s22 : R }.
Definition dot2 (a b : R * R) : R := fst a * fst b + snd a * snd b.
Definition along (a : R * R) (t : R) (b : R * R) : R * R := (fst a + t * fst b, snd a + t * snd b).
Definition diff2 (a b : R * R) : R * R := (fst a - fst b, snd a - snd b).
Definition apply2 (h : sym2) (v : R * R) : R * R := (s11 h * fst v + s12 h * snd v, s12 h * fst v + s22 h * snd v).
Definition quad (h : sym2) (v : R * R) : R := dot2 v (apply2 h v).
Definition one2 : sym2 := Sym2 1 0 1.
Definition clamp01_2 (x : R * R) : R * R := (clamp01 (fst x), clamp01 (snd x)).

Definition backtrack2 (dist : R * R -> R) (m : nat) (x : R * R) (r : R) (h : sym2) (g x' : R * R) : Prop :=
  let step i := clamp01_2 (along x (- (9 / 10) ^ i) (apply2 h g)) in
  let enough i := dist (step i) <= r - 1 / 10000 * (9 / 10) ^ i * quad h g in
  exists j, (j <= m)%nat /\ x' = step j /\
    (forall i, (i < j)%nat -> ~ enough i) /\ ((j < m)%nat -> enough j).

(** The quadratic form of the updated matrix: a vector is first made orthogonal
    to the step along the change of slope, the component taken out contributes
    what the secant equation demands.  [d] is the curvature [s.y]. *)
Definition bfgs_form (h : sym2) (s y : R * R) (d : R) (h' : sym2) : Prop :=
  forall v, quad h' v = quad h (along v (- (dot2 s v / d)) y) + dot2 s v ^ 2 / d.
Definition bfgs (h : sym2) (s y : R * R) (h' : sym2) : Prop :=
  (1 / 10 ^ 16 <= Rabs (dot2 s y) -> bfgs_form h s y (dot2 s y) h') /\
  (Rabs (dot2 s y) < 1 / 10 ^ 16 -> bfgs_form one2 s y (1 / 10 ^ 10) h').

Inductive search_run2 (dist : R * R -> R) (slope : R * R -> R * R -> Prop) (m : nat) (eps mx : R) :
    nat -> R * R -> R -> sym2 -> R * R -> Prop :=
| run2_stop k x r h :
    r < eps \/ mx <= INR k -> search_run2 dist slope m eps mx k x r h x
| run2_step k x r h g x' g' h' u :
    ~ r < eps -> INR k < mx ->
    slope x g -> backtrack2 dist m x r h g x' -> slope x' g' ->
    bfgs h (diff2 x' x) (diff2 g' g) h' ->
    search_run2 dist slope m eps mx (S k) x' (dist x') h' u ->
    search_run2 dist slope m eps mx k x r h u.

(** the slopes of [f] in the two parameters, each in its own span *)
Definition slope2_at (lu lv : list R) (f : R -> R -> R) (x g : R * R) : Prop :=
  slope_at lu (fun t => f t (snd x)) (fst x) (fst g) /\
  slope_at lv (fun t => f (fst x) t) (snd x) (snd g).
