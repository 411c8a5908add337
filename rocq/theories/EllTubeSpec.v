(** What an elliptical tube is, stated without the kernels. *)
From Coq Require Import Reals.
From Verif Require Import Real3.
Local Open Scope R_scope.

(** How far out, 1 on the ellipse with the half axes X and Y. *)
Definition ell (X Y : R) (p : v3) : R := sqrt (vx p / X * (vx p / X) + vy p / Y * (vy p / Y)).
(** The solid with half length Z. *)
Definition ell_tube (X Y Z : R) (p : v3) : Prop := Rabs (vz p) <= Z /\ ell X Y p <= 1.
(** The same, moved outwards by [h] at the lids and at the ends of the shorter half axis (inwards when negative). *)
Definition ell_moved (X Y Z h : R) (p : v3) : Prop := Rabs (vz p) <= Z + h /\ ell X Y p <= 1 + h / Rmin X Y.
(** Its surface: the lids and the side. *)
Definition ell_lid (X Y Z : R) (up : bool) (p : v3) : Prop := ell X Y p <= 1 /\ vz p = (if up then Z else - Z).
Definition ell_side (X Y Z : R) (p : v3) : Prop := ell X Y p = 1 /\ Rabs (vz p) <= Z.
(** The direction of the outward normal on the side: the gradient of (x/X)^2 + (y/Y)^2. *)
Definition ell_gradient (X Y : R) (p : v3) : v3 := V3 (2 * vx p / (X * X)) (2 * vy p / (Y * Y)) 0.
(** The ray leaves the convex set S after the length [s]. *)
Definition leaves (S : v3 -> Prop) (p d : v3) (s : R) : Prop :=
  0 <= s /\ (forall u, 0 <= u <= s -> S (along p d u)) /\ (forall u, s < u -> ~ S (along p d u)).
(** The line enters S at [s] and stays there for [h] at least. *)
Definition enters (S : v3 -> Prop) (h : R) (p d : v3) (s : R) : Prop :=
  (forall u, s <= u <= s + h -> S (along p d u)) /\ (forall u, u < s -> ~ S (along p d u)).
(** The square of the length of a direction after the ellipse has been squeezed to the circle of the shorter half axis. *)
Definition slant (X Y : R) (d : v3) : R := (Rmin X Y / X * vx d) * (Rmin X Y / X * vx d) + (Rmin X Y / Y * vy d) * (Rmin X Y / Y * vy d).
(** Not deeper than half a tolerance below a lid or the side, or than the rounding lets the kernel see. *)
Definition shallow (X Y Z : R) (p : v3) : Prop :=
  Z - kHalfTolerance <= Rabs (vz p) \/ Rmin X Y - kHalfTolerance <= Rmin X Y * ell X Y p \/ 1 - 2 * / 2 ^ 52 <= ell X Y p * ell X Y p.
(** Within half a tolerance of the side, measured on the shorter half axis, and of a lid. *)
Definition ell_near_side (X Y : R) (p : v3) : Prop := Rmin X Y - kHalfTolerance <= Rmin X Y * ell X Y p <= Rmin X Y + kHalfTolerance.
Definition ell_near_lid (Z : R) (p : v3) : Prop := Z - kHalfTolerance <= Rabs (vz p) <= Z + kHalfTolerance.
