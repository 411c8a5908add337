(** Convex hulls, and the eight corners of a trapezoid. *)
From Coq Require Import Reals Lra.
From stdpp Require Import base list.
From Verif Require Import Real3 PlanesSpec.
Import stdpp.list.
Local Open Scope R_scope.

(** Sums of points with weights; the convex hull. *)
Definition mix (ws : list R) (vs : list v3) : v3 := foldr vadd vzero (zip_with vscale ws vs).
Definition hull (vs : list v3) (p : v3) : Prop :=
  exists ws, length ws = length vs /\ Forall (Rle 0) ws /\ foldr Rplus 0 ws = 1 /\ p = mix ws vs.

Section Corners.
(** Half length in z; slopes of the line through the centres of the faces at -dz and +dz; at each of these faces the
    half length in y, half lengths in x at the lower and upper y, and the slope dx/dy of the middle line. *)
Variables (dz tc ts dy1 dx1 dx2 ta1 dy2 dx3 dx4 ta2 : R).
Definition low_corner (sy sx dx : R) : v3 := V3 (- (tc * dz) + sy * (ta1 * dy1) + sx * dx) (- (ts * dz) + sy * dy1) (- dz).
Definition high_corner (sy sx dx : R) : v3 := V3 (tc * dz + sy * (ta2 * dy2) + sx * dx) (ts * dz + sy * dy2) dz.
Definition eight : list v3 :=
  [low_corner (-1) (-1) dx1; low_corner (-1) 1 dx1; low_corner 1 (-1) dx2; low_corner 1 1 dx2;
   high_corner (-1) (-1) dx3; high_corner (-1) 1 dx3; high_corner 1 (-1) dx4; high_corner 1 1 dx4].
(** Four points in a plane: no volume. *)
Definition coplanar (a b c e : v3) : Prop := triple a b c e = 0.
(** Lengths of a solid; the side faces at -x and +x are flat. *)
Definition proper : Prop :=
  0 < dz /\ 0 < dy1 /\ 0 < dy2 /\ 0 <= dx1 /\ 0 <= dx2 /\ 0 <= dx3 /\ 0 <= dx4 /\ 0 < dx1 + dx3 /\ 0 < dx2 + dx4 /\
  coplanar (low_corner (-1) (-1) dx1) (low_corner 1 (-1) dx2) (high_corner (-1) (-1) dx3) (high_corner 1 (-1) dx4) /\
  coplanar (low_corner (-1) 1 dx1) (low_corner 1 1 dx2) (high_corner (-1) 1 dx3) (high_corner 1 1 dx4).
(** Area of the section at height [z] of the solid whose edges run straight between the corners. *)
Definition section_area (z : R) : R :=
  let u := (z + dz) / (2 * dz) in
  let dy := (1 - u) * dy1 + u * dy2 in
  2 * dy * ((1 - u) * (dx1 + dx2) + u * (dx3 + dx4)).
(** The walls of a proper trapezoid with outward unit normals: at -y, +y, -x, +x; the lids at +z, -z. *)
Definition wall (v : v3) (e : R) : v3 * R := (vscale (1 / vmag v) v, - (e / vmag v)).
Definition walls : list (v3 * R) :=
  let k := (dx2 - dx1) / (2 * dy1) in
  let g := (dy2 - dy1) / (2 * dz) in
  let h := (dx3 + dx4 - dx1 - dx2) / (4 * dz) in
  [wall (V3 0 (-1) (ts - g)) ((dy1 + dy2) / 2); wall (V3 0 1 (- (ts + g))) ((dy1 + dy2) / 2);
   wall (V3 (-1) (ta1 - k) (tc - h - (ta1 - k) * ts)) ((dx1 + dx2 + dx3 + dx4) / 4);
   wall (V3 1 (- (ta1 + k)) (- tc - h + (ta1 + k) * ts)) ((dx1 + dx2 + dx3 + dx4) / 4)].
Definition lids : list (v3 * R) := [(V3 0 0 1, - dz); (V3 0 0 (-1), - dz)].
End Corners.
(** No wall within [e] of the point, counted along its normal. *)
Definition aloof (H : list (v3 * R)) (e : R) (p : v3) : Prop := forall n k, In (n, k) H -> e < height n k p \/ height n k p <= - e.
(** [D] is where the ray enters [S]; [inf] when it does not. *)
Definition enters (inf : R) (S : v3 -> Prop) (p d : v3) (D : R) : Prop :=
  (D = inf /\ forall u, 0 <= u -> ~ S (along p d u)) \/
  (D < inf /\ 0 <= D /\ S (along p d D) /\ forall u, 0 <= u < D -> ~ S (along p d u)).
(** Area of a triangle, and of the quadrangle [a], [b], [c], [e] cut along [a]-[c]. *)
Definition triangle_area (a b c : v3) : R := vmag (vcross (vsub b a) (vsub c a)) / 2.
Definition quad_area (a b c e : v3) : R := triangle_area a b c + triangle_area a c e.
