(** Frustums: solids whose sections at height z are rectangles with half lengths linear in z. *)
From Coq Require Import Reals.
From stdpp Require Import base list.
From Verif Require Import Real3 PlanesSpec TrapSpec.
Import stdpp.list.
Local Open Scope R_scope.

Section Frustum.
(** Half lengths in x and y at -dz and at +dz; half length in z. *)
Variables (x1 x2 y1 y2 dz : R).
(** The value at [z] of what goes straight from [a] at -dz to [b] at dz. *)
Definition width (a b z : R) : R := ((dz - z) * a + (dz + z) * b) / (2 * dz).
(** The solid with and without its surface. *)
Definition frustum (p : v3) : Prop := Rabs (vx p) <= width x1 x2 (vz p) /\ Rabs (vy p) <= width y1 y2 (vz p) /\ Rabs (vz p) <= dz.
Definition frustum_core (p : v3) : Prop := Rabs (vx p) < width x1 x2 (vz p) /\ Rabs (vy p) < width y1 y2 (vz p) /\ Rabs (vz p) < dz.
(** Half spaces of the six faces with outward unit normals: +x, -x, +y, -y, +z, -z. *)
Definition ramps : list (v3 * R) :=
  let gx := (x2 - x1) / (2 * dz) in
  let gy := (y2 - y1) / (2 * dz) in
  [wall (V3 1 0 (- gx)) ((x1 + x2) / 2); wall (V3 (-1) 0 (- gx)) ((x1 + x2) / 2);
   wall (V3 0 1 (- gy)) ((y1 + y2) / 2); wall (V3 0 (-1) (- gy)) ((y1 + y2) / 2)] ++ lids dz.
(** The same half spaces, normals to the sides of length 2 dz times the secant of the slope. *)
Definition rough : list (v3 * R) :=
  [(V3 (2 * dz) 0 (- (x2 - x1)), - (dz * (x1 + x2))); (V3 (- (2 * dz)) 0 (- (x2 - x1)), - (dz * (x1 + x2)));
   (V3 0 (2 * dz) (- (y2 - y1)), - (dz * (y1 + y2))); (V3 0 (- (2 * dz)) (- (y2 - y1)), - (dz * (y1 + y2)))] ++ lids dz.
(** The corners. *)
Definition box_corners : list v3 :=
  [V3 (- x1) (- y1) (- dz); V3 x1 (- y1) (- dz); V3 (- x1) y1 (- dz); V3 x1 y1 (- dz);
   V3 (- x2) (- y2) dz; V3 x2 (- y2) dz; V3 (- x2) y2 dz; V3 x2 y2 dz].
End Frustum.
(** Secant of a slope. *)
Definition secant (g : R) : R := R_sqrt.sqrt (1 + g * g).
(** Points of a triangle. *)
Definition in_triangle (a b c p : v3) : Prop := exists i j k, 0 <= i /\ 0 <= j /\ 0 <= k /\ i + j + k = 1 /\ p = vadd (vadd (vscale i a) (vscale j b)) (vscale k c).
(** The ray runs in the plane of a face. *)
Definition slides (H : list (v3 * R)) (p d : v3) : Prop := exists n k, In (n, k) H /\ height n k p = 0 /\ vdot n d = 0.
