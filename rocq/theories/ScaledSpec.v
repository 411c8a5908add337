(** Scaled sets. *)
From Coq Require Import Reals.
From Verif Require Import Real3 OrbSpec.
Local Open Scope R_scope.

(** The image of [S] under the scaling by [k] along the axes. *)
Definition scaled (k : v3) (S : v3 -> Prop) (p : v3) : Prop := exists q, S q /\ p = V3 (vx k * vx q) (vy k * vy q) (vz k * vz q).
Definition proper (k : v3) : Prop := vx k <> 0 /\ vy k <> 0 /\ vz k <> 0.
Definition unit (d : v3) : Prop := vdot d d = 1.
(** A right distance to [S] up to [smax]: where the ray first meets [S], or [inf] and it does not meet [S] up to [smax]. *)
Definition misses (S : v3 -> Prop) (p d : v3) (smax : R) : Prop := forall u, 0 <= u <= smax -> ~ S (along p d u).
Definition right_in (inf : R) (S : v3 -> Prop) (p d : v3) (smax D : R) : Prop :=
  (D < inf /\ first_in S p d D) \/ (D = inf /\ misses S p d smax).
(** The ray stays in [S] up to [D] and there are places outside arbitrarily soon after. *)
Definition exits (S : v3 -> Prop) (p d : v3) (D : R) : Prop :=
  0 <= D /\ (forall u, 0 <= u < D -> S (along p d u)) /\ forall e, 0 < e -> exists u, D <= u < D + e /\ ~ S (along p d u).
Definition right_out (inf : R) (S : v3 -> Prop) (p d : v3) (smax D : R) : Prop :=
  (D < inf /\ exits S p d D) \/ (D = inf /\ forall u, 0 <= u <= smax -> S (along p d u)).
(** [n] is an outward direction of [S] at [p]. *)
Definition outward (S : v3 -> Prop) (p n : v3) : Prop := forall q, S q -> vdot n (vsub q p) <= 0.
