(** What a cone is, stated without the kernels. *)
From Coq Require Import Reals.
From Verif Require Import Real3 ConeModel.
Local Open Scope R_scope.

(** Distance from the z axis. *)
Definition rho (p : v3) : R := sqrt (vx p * vx p + vy p * vy p).
(** The value at height [z] of the straight line through (z1, r1) and (z2, r2). *)
Definition line (z1 r1 z2 r2 z : R) : R := r1 + (r2 - r1) * ((z - z1) / (z2 - z1)).
(** The cone section between the heights z1 < z2, with inner radii m1, m2 and outer radii M1, M2.  The inner surface does not
    belong to it, the outer one does. *)
Definition cone_section (z1 m1 M1 z2 m2 M2 : R) (p : v3) : Prop :=
  z1 <= vz p <= z2 /\ rho p <= line z1 M1 z2 M2 (vz p) /\ (0 < m1 \/ 0 < m2 -> line z1 m1 z2 m2 (vz p) < rho p).
(** The type of the kernels fits the radii and the opening angle. *)
Definition fits (t : cone_type) (m1 m2 dphi : R) : Prop :=
  match t with
  | UniversalCone => True
  | NonHollowCone => m1 <= 0 /\ m2 <= 0 /\ 2 * PI <= dphi
  | NonHollowSector => m1 <= 0 /\ m2 <= 0 /\ dphi < 2 * PI - 5 / 10 * / 1000000000
  | HollowCone => (0 < m1 \/ 0 < m2) /\ 2 * PI <= dphi
  | HollowSector => (0 < m1 \/ 0 < m2) /\ dphi < 2 * PI - 5 / 10 * / 1000000000
  end.
(** A full turn takes every point, otherwise the section [W] of the plane decides. *)
Definition in_phi (dphi : R) (W : R -> R -> Prop) (p : v3) : Prop :=
  dphi < 2 * PI - 5 / 10 * / 1000000000 -> W (vx p) (vy p).
(** The phi section decides [W] and knows its safeties. *)
Definition plane_dist (x y x' y' : R) : R := sqrt ((x - x') * (x - x') + (y - y') * (y - y')).
Definition wedge_decides (w : wedge_ops) (W : R -> R -> Prop) : Prop :=
  forall x y, snd (w_kernel w false x y) = false <-> W x y.
Definition wedge_safe (w : wedge_ops) (W : R -> R -> Prop) : Prop :=
  (forall x y x' y', W x' y' -> w_safety_in w x y <= plane_dist x y x' y') /\
  (forall x y x' y', W x y -> ~ W x' y' -> w_safety_out w x y <= plane_dist x y x' y').
(** The tolerant kernel of the phi section errs on the side of the surface. *)
Definition wedge_tolerant (w : wedge_ops) (W : R -> R -> Prop) : Prop :=
  (forall x y, fst (w_kernel w true x y) = true -> W x y) /\ (forall x y, snd (w_kernel w true x y) = true -> ~ W x y).
(** The radial tolerance of a conical surface: the cone tolerance over the cosine of its tilt. *)
Definition tilted (z1 r1 z2 r2 : R) : R := / 10000000 * sqrt (1 + ((r2 - r1) / (z2 - z1)) * ((r2 - r1) / (z2 - z1))).
