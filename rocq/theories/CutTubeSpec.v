(** What a cut tube is, stated without the kernels. *)
From Coq Require Import Reals.
From Verif Require Import Real3 ConeSpec WedgeSpec TubeSpec.
Local Open Scope R_scope.

(** The height over (x, y) of the plane with the normal [n] that crosses the axis at the height [Z]. *)
Definition roof (n : v3) (Z x y : R) : R := Z - (vx n * x + vy n * y) / vz n.
(** The signed distance from that plane, for a unit normal. *)
Definition over (n : v3) (Z : R) (p : v3) : R := vdot n (vsub p (V3 0 0 Z)).
Section Tube.
(** Radii, the heights -Z and Z where the planes cross the axis, start angle and opening, the normals of the lower and the upper plane. *)
Variables m M Z s d : R.
Variables b t : v3.
(** The points of the cut tube: strictly between the planes, in the tube. *)
Definition cut_solid (p : v3) : Prop :=
  roof b (- Z) (vx p) (vy p) < vz p < roof t Z (vx p) (vy p) /\ rho p <= M /\ (0 < m -> m < rho p) /\ (d < 2 * PI -> sector s d (vx p) (vy p)).
(** With all of the border. *)
Definition cut_closed (p : v3) : Prop :=
  roof b (- Z) (vx p) (vy p) <= vz p <= roof t Z (vx p) (vy p) /\ m <= rho p <= M /\ (d < 2 * PI -> sector s d (vx p) (vy p)).
End Tube.
(** The component of a vector, against its length: zero or not tiny. *)
Definition clean (kmin : R) (n : v3) : Prop :=
  let ok c := c = 0 \/ / 10 ^ 9 * sqrt (vdot n n + kmin) <= Rabs c in ok (vx n) /\ ok (vy n) /\ ok (vz n).
