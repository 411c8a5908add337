(** What an elliptical cone is, stated without the kernels. *)
From Coq Require Import Reals.
From Verif Require Import Real3 PlanesModel EllTubeSpec.
Local Open Scope R_scope.

(** The cone with the apex at the height h: the ellipse at the height z has the half axes a (h - z) and b (h - z). *)
Definition nappe (a b h : R) (p : v3) : Prop := ell a b p <= h - vz p.
(** Cut at the heights -c and c. *)
Definition econe_solid (a b h c : R) (p : v3) : Prop := Rabs (vz p) <= c /\ nappe a b h p.
(** The cosine of the steepest inclination: it turns heights above the cone into distances. *)
Definition tilt (a b : R) : R := Rmin a b / sqrt (1 + Rmin a b * Rmin a b).
(** How far above the cone, as a distance on the steepest side; not positive in it. *)
Definition above (a b h : R) (p : v3) : R := tilt a b * (ell a b p + vz p - h).
(** The surface. *)
Definition econe_side (a b h c : R) (p : v3) : Prop := Rabs (vz p) <= c /\ ell a b p = h - vz p.
Definition econe_lid (a b h c : R) (up : bool) (p : v3) : Prop := vz p = (if up then c else - c) /\ nappe a b h p.
(** The direction of the outward normal on the side: the gradient of the height above the cone. *)
Definition econe_gradient (a b : R) (p : v3) : v3 := V3 (vx p / (a * a) / ell a b p) (vy p / (b * b) / ell a b p) 1.
