(** What an ellipsoid with cuts is, stated without the kernels. *)
From Coq Require Import Reals.
From Verif Require Import Real3.
Local Open Scope R_scope.

(** How far out, 1 on the ellipsoid with the semi-axes A, B and C. *)
Definition ball_at (A B C : R) (p : v3) : R := sqrt (vx p / A * (vx p / A) + vy p / B * (vy p / B) + vz p / C * (vz p / C)).
(** The solid between the cuts. *)
Definition es_solid (A B C zb zt : R) (p : v3) : Prop := zb <= vz p <= zt /\ ball_at A B C p <= 1.
(** The shortest semi-axis. *)
Definition es_short (A B C : R) : R := Rmin A (Rmin B C).
(** The solid squeezed to the ball of the shortest semi-axis, moved outwards there by [h] (inwards when negative). *)
Definition es_moved (A B C zb zt h : R) (p : v3) : Prop :=
  es_short A B C / C * (vz p - zt) <= h /\ es_short A B C / C * (zb - vz p) <= h /\ es_short A B C * (ball_at A B C p - 1) <= h.
(** Its surface: the cuts and the side. *)
Definition es_cut (A B C z : R) (p : v3) : Prop := vz p = z /\ ball_at A B C p <= 1.
Definition es_side (A B C zb zt : R) (p : v3) : Prop := ball_at A B C p = 1 /\ zb <= vz p <= zt.
(** The direction of the outward normal on the side: half the gradient of (x/A)^2 + (y/B)^2 + (z/C)^2. *)
Definition es_gradient (A B C : R) (p : v3) : v3 := V3 (vx p / (A * A)) (vy p / (B * B)) (vz p / (C * C)).
(** Not deeper than half a tolerance below a cut or the side after squeezing, or than [e] in the square. *)
Definition es_shallow (A B C zb zt e : R) (p : v3) : Prop :=
  es_short A B C / C * (zt - vz p) <= kHalfTolerance \/ es_short A B C / C * (vz p - zb) <= kHalfTolerance \/
  es_short A B C * (1 - ball_at A B C p) <= kHalfTolerance \/ es_short A B C * es_short A B C * (1 - ball_at A B C p * ball_at A B C p) <= e.
(** Within half a tolerance of the side and of a cut, after squeezing. *)
Definition es_near_side (A B C : R) (p : v3) : Prop := Rabs (es_short A B C * (ball_at A B C p - 1)) <= kHalfTolerance.
Definition es_near_cut (A B C zb zt : R) (p : v3) : Prop := Rabs (es_short A B C / C * Rmax (vz p - zt) (zb - vz p)) <= kHalfTolerance.
