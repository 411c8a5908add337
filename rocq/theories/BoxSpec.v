(** A box with half lengths [b], centred at the origin. *)
From Coq Require Import Reals.
From Verif Require Import Real3 AABBModel AABBSpec.
Local Open Scope R_scope.

Definition centred (b : v3) : aabb := Box (vneg b) b.
Definition closed (b p : v3) : Prop := in_box (centred b) p.
Definition interior (b p : v3) : Prop := in_interior (centred b) p.
Definition sized (b : v3) : Prop := 0 <= vx b /\ 0 <= vy b /\ 0 <= vz b.
(** Half lengths increased by [e]. *)
Definition wider (e : R) (b : v3) : v3 := vadd b (V3 e e e).
(** On the surface: in the closed box, not in the interior. *)
Definition surface (b p : v3) : Prop := closed b p /\ ~ interior b p.
