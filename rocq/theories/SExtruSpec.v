(** Prisms over polygons. *)
From Coq Require Import Reals List.
From Verif Require Import Real3 PolygonSpec.
Local Open Scope R_scope.

Definition xy (p : v3) : p2 := (vx p, vy p).
(** The prism over a convex polygon, and its interior. *)
Definition prism (pts : list p2) (lo hi : R) (p : v3) : Prop := hull pts (xy p) /\ lo <= vz p <= hi.
Definition prism_open (pts : list p2) (lo hi : R) (p : v3) : Prop := inner pts (xy p) /\ lo < vz p < hi.
(** The surface of a prism over any polygon: the side faces, and the two planes. *)
Definition side_face (pts : list p2) (lo hi : R) (p : v3) : Prop := border pts (xy p) /\ lo <= vz p <= hi.
(** How fast a direction goes to the left of a side, per unit length. *)
Definition rate (a b : p2) (d : v3) : R := ((fst b - fst a) * vy d - (snd b - snd a) * vx d) / dist2 a b.
(** Directions that move along no side face and no end plane by less than [c], unless exactly along it. *)
Definition firm (c : R) (pts : list p2) (d : v3) : Prop :=
  zero_or c (vz d) /\ forall a b, In (a, b) (sides pts) -> zero_or c (rate a b d).
(** Everything within [c] is inside. *)
Definition deep (c : R) (S : v3 -> Prop) (p : v3) : Prop := forall q, vdist p q <= c -> S q.
(** The inside of any closed polygon by crossing parity, and the solid over it. *)
Definition odd_inside (pts : list p2) (p : p2) : Prop := odd_many (meets p) (sides pts).
Definition column (pts : list p2) (lo hi : R) (p : v3) : Prop := odd_inside pts (xy p) /\ lo <= vz p <= hi.
