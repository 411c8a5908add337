(** What a paraboloid is, stated without the kernels. *)
From Coq Require Import Reals.
From Verif Require Import Real3 ConeSpec.
Local Open Scope R_scope.

(** The square of the radius at the height z: linear, L^2 at the lower lid and H^2 at the upper one. *)
Definition bowl_at (L H Z z : R) : R := L * L + (H * H - L * L) * ((z + Z) / (2 * Z)).
(** The endless paraboloid. *)
Definition bowl (L H Z : R) (p : v3) : Prop := rho p * rho p <= bowl_at L H Z (vz p).
(** The solid between the lids at -Z and Z. *)
Definition parab_solid (L H Z : R) (p : v3) : Prop := Rabs (vz p) <= Z /\ bowl L H Z p.
(** The same with the lids moved outwards by [h] and the squared radius increased by [e]. *)
Definition parab_moved (L H Z h e : R) (p : v3) : Prop := Rabs (vz p) <= Z + h /\ rho p * rho p <= bowl_at L H Z (vz p) + e.
(** The solid without its surface. *)
Definition parab_core (L H Z : R) (p : v3) : Prop := Rabs (vz p) < Z /\ rho p * rho p < bowl_at L H Z (vz p).
(** Its surface. *)
Definition parab_lid (L H Z : R) (up : bool) (p : v3) : Prop := vz p = (if up then Z else - Z) /\ rho p <= (if up then H else L).
Definition parab_side (L H Z : R) (p : v3) : Prop := Rabs (vz p) <= Z /\ rho p * rho p = bowl_at L H Z (vz p).
(** How steep: the height over the squared radius, so that the surface is z = steep * r^2 + a constant. *)
Definition steep (L H Z : R) : R := 2 * Z / (H * H - L * L).
(** The outward normal direction on the side: the gradient of r^2 - bowl_at. *)
Definition bowl_gradient (L H Z : R) (p : v3) : v3 := V3 (2 * vx p) (2 * vy p) (- / steep L H Z).
