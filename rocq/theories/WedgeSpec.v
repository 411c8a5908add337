(** Sectors of the plane, stated with angles. *)
From Coq Require Import Reals.
From Verif Require Import Real3.
Local Open Scope R_scope.

(** (x, y) lies in the direction of the angle [phi]; the origin lies in every direction. *)
Definition at_angle (phi x y : R) : Prop := exists r, 0 <= r /\ x = r * cos phi /\ y = r * sin phi.
(** The sector from the angle [s] to the angle [s + d]. *)
Definition sector (s d x y : R) : Prop := exists phi, s <= phi <= s + d /\ at_angle phi x y.
Definition dist2 (x y x' y' : R) : R := sqrt ((x - x') * (x - x') + (y - y') * (y - y')).
(** The half line in the direction of [phi]. *)
Definition half_line (phi x y : R) : Prop := at_angle phi x y.
(** The side of the line through the origin along [phi]: positive to the left. *)
Definition side (phi x y : R) : R := y * cos phi - x * sin phi.
(** The ray crosses the line along [phi] at [D] > 0, from the right to the left. *)
Definition crosses_left (phi x y dx dy D : R) : Prop :=
  0 < D /\ (forall u, u < D -> side phi (x + u * dx) (y + u * dy) < 0) /\ (forall u, D < u -> 0 < side phi (x + u * dx) (y + u * dy)).
Definition crosses_right (phi x y dx dy D : R) : Prop :=
  0 < D /\ (forall u, u < D -> 0 < side phi (x + u * dx) (y + u * dy)) /\ (forall u, D < u -> side phi (x + u * dx) (y + u * dy) < 0).
(** Not behind the origin, looking along [phi]. *)
Definition ahead (phi x y : R) : R := x * cos phi + y * sin phi.
(** Less than [t] away from the half line along [phi], and not behind the origin. *)
Definition near_line (t phi x y : R) : Prop :=
  0 <= ahead phi x y /\ exists x' y', half_line phi x' y' /\ dist2 x y x' y' < t.
(** [D] is where [P] happens, or [inf] when it never does. *)
Definition is_crossing (inf : R) (P : R -> Prop) (D : R) : Prop := P D \/ (D = inf /\ forall u, ~ P u).
