(** Parallelepipeds: all combinations of three edge directions with bounded coefficients. *)
From Coq Require Import Reals.
From stdpp Require Import base list.
From Verif Require Import Real3 PlanesSpec TrapSpec.
Import stdpp.list.
Local Open Scope R_scope.

Section Skew.
(** Slope dx/dy of the middle line of the faces at -dz and +dz; slopes of the line through their centres. *)
Variables (ta tc ts : R).
Definition edge_x : v3 := V3 1 0 0.
Definition edge_y : v3 := V3 ta 1 0.
Definition edge_z : v3 := V3 tc ts 1.
Definition skewed (a b c : R) : v3 := vadd (vadd (vscale a edge_x) (vscale b edge_y)) (vscale c edge_z).
(** The solid with half lengths [dx], [dy], [dz], without and with its surface. *)
Definition oblique (dx dy dz : R) (p : v3) : Prop :=
  exists a b c, Rabs a <= dx /\ Rabs b <= dy /\ Rabs c <= dz /\ p = skewed a b c.
Definition oblique_core (dx dy dz : R) (p : v3) : Prop :=
  exists a b c, Rabs a < dx /\ Rabs b < dy /\ Rabs c < dz /\ p = skewed a b c.
(** Half spaces of the six faces, with outward unit normals: +x, -x, +y, -y, +z, -z. *)
Definition facets (dx dy dz : R) : list (v3 * R) :=
  let nx := vcross edge_y edge_z in
  let ny := vcross edge_z edge_x in
  let nz := vcross edge_x edge_y in
  [wall nx dx; wall (vneg nx) dx; wall ny dy; wall (vneg ny) dy; wall nz dz; wall (vneg nz) dz].
(** Directions that differ from [d] by at most [e] along each edge. *)
Definition nearly (e : R) (d d' : v3) : Prop := oblique e e e (vsub d' d).
(** The faces of the solid: the coefficient [a], [b] or [c] is at its end. *)
Definition face_x (sg dx dy dz : R) (p : v3) : Prop := exists b c, Rabs b <= dy /\ Rabs c <= dz /\ p = skewed (sg * dx) b c.
Definition face_y (sg dx dy dz : R) (p : v3) : Prop := exists a c, Rabs a <= dx /\ Rabs c <= dz /\ p = skewed a (sg * dy) c.
Definition face_z (sg dx dy dz : R) (p : v3) : Prop := exists a b, Rabs a <= dx /\ Rabs b <= dy /\ p = skewed a b (sg * dz).
End Skew.
