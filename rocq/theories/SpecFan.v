(** Patches with collapsed edges in AlignParameterDomain (C99). *)
From Coq Require Import Reals ZArith List Permutation.
From Verif Require Import Num ModelCore ModelSurface SpecCore SpecSurface SpecAlign.
Import ListNotations.
Open Scope R_scope.

(** Contracts of the two library functions over the reals: std::acos decreases
    on [0,1]; std::sort returns a rearrangement with non-increasing extents. *)
Definition decreasing01 (f : R -> R) : Prop := forall x y, 0 <= x -> x < y -> y <= 1 -> f y < f x.
Definition sorts_down (sort_ : list (R * AlignAxis) -> list (R * AlignAxis)) : Prop :=
  forall l, Permutation (sort_ l) l /\
    forall i j, (i < j < length l)%nat -> nth j (map fst (sort_ l)) 0 <= nth i (map fst (sort_ l)) 0.

(** Coordinate along [a] of corner (bu, bv) of the net. *)
Definition corner_coord (s : surface R) (a : AlignAxis) (c : bool * bool) : R :=
  coord a (edge (Vec4 0 0 0 1) (net_corner s (fst c) (snd c))).
(** Some two corners are further apart along [a] than any two are along [b]. *)
Definition wider (s : surface R) (a b : AlignAxis) : Prop :=
  exists i j, forall k l, corner_coord s b l - corner_coord s b k < corner_coord s a j - corner_coord s a i.

(** The four border edges of the net between its corners; an edge is collapsed
    when it is no longer than 1e-6; a vector leans to the axis [a] rather than [b]. *)
Definition border (s : surface R) : list (vec3 R) := [edgeU s false; edgeV s false; edgeV s true; edgeU s true].
Definition collapsed (e : vec3 R) : Prop := length3 e <= 1 / 1000000.
Definition leans (a b : AlignAxis) (e : vec3 R) : Prop := Rabs (coord b e) < Rabs (coord a e).

Definition yes (P : Prop) (d : {P} + {~ P}) : bool := if d then true else false.
Definition visible (s : surface R) : list (vec3 R) :=
  filter (fun e => negb (yes _ (Rle_dec (length3 e) (1 / 1000000)))) (border s).
Definition leaning (a b : AlignAxis) (l : list (vec3 R)) : list (vec3 R) :=
  filter (fun e => yes _ (Rlt_dec (Rabs (coord b e)) (Rabs (coord a e)))) l.
Definition not_leaning (a b : AlignAxis) (l : list (vec3 R)) : list (vec3 R) :=
  filter (fun e => negb (yes _ (Rlt_dec (Rabs (coord b e)) (Rabs (coord a e))))) l.
(** Taken together the vectors point down the axis. *)
Definition backwards (a : AlignAxis) (l : list (vec3 R)) : bool :=
  yes _ (Rlt_dec (fold_right Rplus 0 (map (coord a) l)) 0).
