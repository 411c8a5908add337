(** Half spaces [n.p + d <= 0] and their intersections. *)
From Coq Require Import Reals List.
From Verif Require Import Real3.
Local Open Scope R_scope.

(** Signed height of [p] over the plane with normal [n] and offset [d], and the half spaces under it. *)
Definition height (n : v3) (d : R) (p : v3) : R := vx n * vx p + vy n * vy p + vz n * vz p + d.
Definition under (n : v3) (d : R) (p : v3) : Prop := height n d p <= 0.
(** The intersection of half spaces given by (normal, offset). *)
Definition cut (H : list (v3 * R)) (p : v3) : Prop := forall n d, In (n, d) H -> under n d p.
(** The open intersection, and the union. *)
Definition cut_open (H : list (v3 * R)) (p : v3) : Prop := forall n d, In (n, d) H -> height n d p < 0.
Definition some_under (H : list (v3 * R)) (p : v3) : Prop := exists n d, In (n, d) H /\ under n d p.
(** Normals of length one; normals of length at most one. *)
Definition unit_normals (H : list (v3 * R)) : Prop := forall n d, In (n, d) H -> vdot n n = 1.
Definition short_normals (H : list (v3 * R)) : Prop := forall n d, In (n, d) H -> vdot n n <= 1.
(** [p] is at least [e] away from / with its [e]-ball inside [S]. *)
Definition clear_of (S : v3 -> Prop) (p : v3) (e : R) : Prop := forall q, S q -> e <= vdist p q.
Definition deep_in (S : v3 -> Prop) (p : v3) (e : R) : Prop := forall q, vdist p q <= e -> S q.
(** Places outside [S] closer than every [e] above [s]. *)
Definition escapes (S : v3 -> Prop) (p : v3) (s : R) : Prop := forall e, s < e -> exists q, vdist p q < e /\ ~ S q.
(** Every projection of [d] on the normals is zero or at least [c]. *)
Definition steady (c : R) (H : list (v3 * R)) (d : v3) : Prop :=
  forall n k, In (n, k) H -> vdot n d = 0 \/ c <= Rabs (vdot n d).
(** The ray stays in [S] up to [D] (for ever when it never leaves). *)
Definition stays (S : v3 -> Prop) (p d : v3) (D : R) : Prop := forall u, 0 <= u <= D -> S (along p d u).
(** Convex hull of four points. *)
Definition hull4 (a b c e p : v3) : Prop := exists i j k l, 0 <= i /\ 0 <= j /\ 0 <= k /\ 0 <= l /\ i + j + k + l = 1 /\
  p = vadd (vadd (vscale i a) (vscale j b)) (vadd (vscale k c) (vscale l e)).
(** Six times the signed volume of the tetrahedron. *)
Definition triple (a b c e : v3) : R := vdot (vcross (vsub b a) (vsub c a)) (vsub e a).
(** [D] is where the ray leaves [S]; [inf] when it stays up to [inf]. *)
Definition leaves (inf : R) (S : v3 -> Prop) (p d : v3) (D : R) : Prop :=
  (D < inf /\ 0 <= D /\ (forall u, 0 <= u <= D -> S (along p d u)) /\ forall u, D < u -> ~ S (along p d u)) \/
  (D = inf /\ stays S p d inf).
