(** Balls around the origin. *)
From Coq Require Import Reals.
From Verif Require Import Real3.
Local Open Scope R_scope.

Definition ball (r : R) (p : v3) : Prop := vdist p vzero <= r.
Definition sphere (r : R) (p : v3) : Prop := vdist p vzero = r.
(** [D] is the first place in [S] on the ray. *)
Definition first_in (S : v3 -> Prop) (p d : v3) (D : R) : Prop :=
  0 <= D /\ S (along p d D) /\ forall u, 0 <= u < D -> ~ S (along p d u).
(** The ray is in [S] up to [D] and never after. *)
Definition last_in (S : v3 -> Prop) (p d : v3) (D : R) : Prop :=
  0 <= D /\ (forall u, 0 <= u <= D -> S (along p d u)) /\ forall u, D < u -> ~ S (along p d u).
(** [q] is a corner-wise bound. *)
Definition in_box (lo hi p : v3) : Prop := vx lo <= vx p <= vx hi /\ vy lo <= vy p <= vy hi /\ vz lo <= vz p <= vz hi.
