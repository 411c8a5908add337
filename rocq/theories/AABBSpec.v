(** Vocabulary for boxes. *)
From Coq Require Import Reals.
From Verif Require Import Real3 AABBModel.
Local Open Scope R_scope.

(** Points of a box. *)
Definition in_box (b : aabb) (p : v3) : Prop :=
  vx (bmin b) <= vx p <= vx (bmax b) /\ vy (bmin b) <= vy p <= vy (bmax b) /\ vz (bmin b) <= vz p <= vz (bmax b).
Definition in_interior (b : aabb) (p : v3) : Prop :=
  vx (bmin b) < vx p < vx (bmax b) /\ vy (bmin b) < vy p < vy (bmax b) /\ vz (bmin b) < vz p < vz (bmax b).
(** Box with [e] added on every side. *)
Definition grown (e : v3) (b : aabb) : aabb := Box (vsub (bmin b) e) (vadd (bmax b) e).
(** Every point of [a] is in [b]. *)
Definition box_le (a b : aabb) : Prop := forall p, in_box a p -> in_box b p.
Definition proper (b : aabb) : Prop :=
  vx (bmin b) <= vx (bmax b) /\ vy (bmin b) <= vy (bmax b) /\ vz (bmin b) <= vz (bmax b).
Definition no_zero (d : v3) : Prop := vx d <> 0 /\ vy d <> 0 /\ vz d <> 0.
