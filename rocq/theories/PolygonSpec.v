(** Polygons in the plane, their sides, hulls, borders and crossing parity. *)
From Coq Require Import Reals List.
From Verif Require Import Real3.
Import ListNotations.
Local Open Scope R_scope.

Notation p2 := (R * R)%type.
Definition flat (p : p2) : v3 := V3 (fst p) (snd p) 0.
Definition dist2 (p q : p2) : R := vdist (flat p) (flat q).
(** The point of the way from [a] to [b]; the segment. *)
Definition way (a b : p2) (t : R) : p2 := (fst a + t * (fst b - fst a), snd a + t * (snd b - snd a)).
Definition on_side (a b p : p2) : Prop := exists t, 0 <= t <= 1 /\ p = way a b t.
(** Twice the signed area of the triangle; positive when [p] is to the left of the way from [a] to [b]. *)
Definition cross2 (a b p : p2) : R := (fst b - fst a) * (snd p - snd a) - (snd b - snd a) * (fst p - fst a).
(** The sides of a closed polygon, each with its two ends. *)
Fixpoint chain (a : p2) (l : list p2) : list (p2 * p2) :=
  match l with [] => [] | b :: r => (a, b) :: chain b r end.
Definition sides (pts : list p2) : list (p2 * p2) :=
  match pts with [] => [] | a :: r => chain a (r ++ [a]) end.
Definition border (pts : list p2) (p : p2) : Prop := exists a b, In (a, b) (sides pts) /\ on_side a b p.
(** The convex hull: the corners and everything between two of its points. *)
Inductive hull (pts : list p2) : p2 -> Prop :=
  | hull_corner p : In p pts -> hull pts p
  | hull_way p q t : hull pts p -> hull pts q -> 0 <= t <= 1 -> hull pts (way p q t).
Definition inner (pts : list p2) (p : p2) : Prop := hull pts p /\ ~ border pts p.
(** Strictly convex polygons given clockwise, and counter-clockwise. *)
Definition convex_cw (pts : list p2) : Prop :=
  (3 <= length pts)%nat /\ NoDup pts /\
  forall a b v, In (a, b) (sides pts) -> In v pts -> v <> a -> v <> b -> cross2 a b v < 0.
Definition convex_ccw (pts : list p2) : Prop :=
  (3 <= length pts)%nat /\ NoDup pts /\
  forall a b v, In (a, b) (sides pts) -> In v pts -> v <> a -> v <> b -> 0 < cross2 a b v.
(** No side of length zero. *)
Definition proper_sides (pts : list p2) : Prop := forall a b, In (a, b) (sides pts) -> a <> b.
(** Does the ray from [p] in the direction of x meet the side?  The lower end belongs to the side, the upper one does not. *)
Definition meets (p : p2) (s : p2 * p2) : Prop :=
  let '(a, b) := s in
  (snd a <= snd p < snd b \/ snd b <= snd p < snd a) /\
  exists t, 0 <= t <= 1 /\ snd (way a b t) = snd p /\ fst p < fst (way a b t).
(** An odd number of the members of a list has the property. *)
Fixpoint odd_many {A} (Q : A -> Prop) (l : list A) : Prop :=
  match l with [] => False | a :: r => (Q a /\ ~ odd_many Q r) \/ (~ Q a /\ odd_many Q r) end.
(** [s] is the distance from [p] to a set: a lower bound that is attained. *)
Definition distance_to (S : p2 -> Prop) (p : p2) (s : R) : Prop :=
  (forall q, S q -> s <= dist2 p q) /\ exists q, S q /\ dist2 p q = s.
(** Twice the signed area by the shoelace formula. *)
Definition shoelace (pts : list p2) : R :=
  fold_right (fun '(a, b) s => (fst a * snd b - snd a * fst b) + s) 0 (sides pts).
(** Numbers that are zero or at least [c]. *)
Definition zero_or (c x : R) : Prop := x = 0 \/ c <= Rabs x.
(** Every component of the unit normals and of the offsets of the sides is zero or at least [c]. *)
Definition tidy (c : R) (pts : list p2) : Prop := forall a b, In (a, b) (sides pts) ->
  zero_or c ((fst b - fst a) / dist2 a b) /\ zero_or c ((snd b - snd a) / dist2 a b) /\ zero_or c (cross2 a b (0, 0) / dist2 a b).
(** Sides are level or rise by at least [c]. *)
Definition level_or (c : R) (pts : list p2) : Prop := forall a b, In (a, b) (sides pts) -> zero_or c (snd b - snd a).
