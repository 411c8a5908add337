(** Tetrahedra: VecGeom/volumes/TetStruct.h, VecGeom/volumes/kernel/TetImplementation.h, source/UnplacedTet.cpp. *)
From Coq Require Import Reals Lra Lia Bool.
From stdpp Require Import base list option numbers tactics.
From Verif Require Import Real3 BoxModel AABBModel PlanesModel.
Import stdpp.list.
Local Open Scope R_scope.

(** TetStruct.h:22-26: vertices and face planes *)
Record tet := Tet { t_v0 : v3; t_v1 : v3; t_v2 : v3; t_v3 : v3; t_p0 : plane; t_p1 : plane; t_p2 : plane; t_p3 : plane;
                    t_volume : R; t_area : R }.
(** VecGeom/base/Vector3D.h:284-290 Unit; [kmin] is kMinimum of VecGeom/base/Math.h:43, the least normal double *)
Definition vunit (kmin : R) (v : v3) : v3 := vscale (/ R_sqrt.sqrt (vdot v v + kmin)) v.
(** TetStruct.h:82-90, one face through [a], [b], [c] with the opposite vertex [o] *)
Definition face_normal (kmin : R) (a b c o : v3) : v3 :=
  let n := vunit kmin (vcross (vsub b a) (vsub c a)) in
  if rgtb (vdot n (vsub o a)) 0 then vneg n else n.
(** TetStruct.h:92-106 *)
Definition face_plane (kmin : R) (a b c o : v3) : plane :=
  let n := face_normal kmin a b c o in Plane n (- vdot n a).
(** TetStruct.h:115-120 *)
Definition calc_capacity (a b c e : v3) : R :=
  Rabs (vdot (vsub b a) (vcross (vsub c a) (vsub e a))) / 6.
(** TetStruct.h:124-131 *)
Definition calc_area (a b c e : v3) : R :=
  (vmag (vcross (vsub b a) (vsub c a)) + vmag (vcross (vsub c b) (vsub e b)) +
   vmag (vcross (vsub e c) (vsub a c)) + vmag (vcross (vsub a e) (vsub b e))) * (1 / 2).
(** TetStruct.h:147-157: the answer is ignored by CalculateCached *)
Definition check_degeneracy (a b c e : v3) : bool :=
  if rltb (calc_capacity a b c e) (kTolerance * kTolerance * kTolerance) then true else
  let s0 := vmag (vcross (vsub b a) (vsub c a)) * (1 / 2) in
  let s1 := vmag (vcross (vsub c b) (vsub e b)) * (1 / 2) in
  let s2 := vmag (vcross (vsub e c) (vsub a c)) * (1 / 2) in
  let s3 := vmag (vcross (vsub a e) (vsub b e)) * (1 / 2) in
  rltb (Rmax (Rmax (Rmax s0 s1) s2) s3) (2 * kTolerance).
(** TetStruct.h:70-111 *)
Definition mk_tet (kmin : R) (a b c e : v3) : tet :=
  Tet a b c e (face_plane kmin a b c e) (face_plane kmin b c e a)
                  (face_plane kmin c e a b) (face_plane kmin e a b c)
      (calc_capacity a b c e) (calc_area a b c e).
Definition tet_planes (t : tet) : list plane := [t_p0 t; t_p1 t; t_p2 t; t_p3 t].
(** TetImplementation.h:77-82 *)
Definition max_dist (t : tet) (p : v3) : R :=
  Rmax (Rmax (Rmax (pl_dist (t_p0 t) p) (pl_dist (t_p1 t) p)) (pl_dist (t_p2 t) p)) (pl_dist (t_p3 t) p).
(** TetImplementation.h:37-44 and 62-87 *)
Definition tet_contains (t : tet) (p : v3) : bool := negb (rgtb (max_dist t p) kHalfTolerance).
(** TetImplementation.h:48-60 *)
Definition tet_inside (t : tet) (p : v3) : inside :=
  if rleb (max_dist t p) (- kHalfTolerance) then kInside
  else if rgtb (max_dist t p) kHalfTolerance then kOutside else kSurface.

Section Rays.
Variable inf : R.   (* VecGeom/base/Math.h:41 *)
(** TetImplementation.h:110-115, one turn: distance, distanceOut, absSafe *)
Definition in_step (p d : v3) (st : R * R * R) (pl : plane) : R * R * R :=
  let '(dist, out, abs_safe) := st in
  let cosa := nz (pl_proj pl d) in
  let safe := pl_dist pl p in
  let t := - safe / cosa in
  (if rltb cosa 0 then Rmax dist t else dist,
   if rgtb cosa 0 then Rmin out t else out,
   if rgtb cosa 0 then Rmin abs_safe (Rabs safe) else abs_safe).
(** TetImplementation.h:89-120 *)
Definition tet_to_in (t : tet) (p d : v3) : R :=
  let '(dist, out, abs_safe) := foldl (in_step p d) (- inf, inf, inf) (tet_planes t) in
  if rgeb dist out || rleb out kHalfTolerance || rleb abs_safe (- kHalfTolerance) then inf else dist.
(** TetImplementation.h:140-142, one turn *)
Definition out_step (p d : v3) (dist : R) (pl : plane) : R :=
  let cosa := nz (pl_proj pl d) in
  if rgtb cosa 0 then Rmin dist (- pl_dist pl p / cosa) else dist.
(** TetImplementation.h:122-144 *)
Definition tet_to_out (t : tet) (p d : v3) : R :=
  let safety := foldl (λ s pl, Rmax s (pl_dist pl p)) (- inf) (tet_planes t) in
  let dist := foldl (out_step p d) inf (tet_planes t) in
  if rgtb safety kHalfTolerance then -1 else dist.
(** TetImplementation.h:146-158 *)
Definition tet_safety_in (t : tet) (p : v3) : R :=
  let s := max_dist t p in if rleb (Rabs s) kHalfTolerance then 0 else s.
(** TetImplementation.h:160-172 *)
Definition tet_safety_out (t : tet) (p : v3) : R :=
  let s := - max_dist t p in if rleb (Rabs s) kHalfTolerance then 0 else s.
(** TetImplementation.h:182-186, one turn *)
Definition sum_step (p : v3) (n : v3) (pl : plane) : v3 :=
  if rleb (Rabs (pl_dist pl p)) kHalfTolerance then vadd n (pl_n pl) else n.
(** TetImplementation.h:199-202, one turn *)
Definition near_step (p : v3) (st : v3 * R) (pl : plane) : v3 * R :=
  if rgtb (pl_dist pl p) (snd st) then (pl_n pl, pl_dist pl p) else st.
(** TetImplementation.h:174-204: normal and valid *)
Definition tet_normal (kmin : R) (t : tet) (p : v3) : v3 * bool :=
  let n := foldl (sum_step p) vzero (tet_planes t) in
  let n := if rgtb (vdot n n) 1 then vunit kmin n else n in
  if rgtb (vdot n n) 0 then (n, true)
  else (fst (foldl (near_step p) (n, - inf) (tet_planes t)), false).
End Rays.
(** source/UnplacedTet.cpp:34-49 *)
Definition vmin (a b : v3) : v3 := V3 (Rmin (vx a) (vx b)) (Rmin (vy a) (vy b)) (Rmin (vz a) (vz b)).
Definition vmax (a b : v3) : v3 := V3 (Rmax (vx a) (vx b)) (Rmax (vy a) (vy b)) (Rmax (vz a) (vz b)).
Definition tet_extent (t : tet) : v3 * v3 :=
  (vmin (vmin (vmin (t_v0 t) (t_v1 t)) (t_v2 t)) (t_v3 t), vmax (vmax (vmax (t_v0 t) (t_v1 t)) (t_v2 t)) (t_v3 t)).
(** source/UnplacedTet.cpp:51-94; [r], [u], [v] are the three uniform numbers *)
Definition half_cross (a b c : v3) : R := 1 / 2 * vmag (vcross (vsub b a) (vsub c a)).
Definition tet_face (t : tet) (r : R) : nat :=
  let s0 := half_cross (t_v0 t) (t_v1 t) (t_v2 t) in
  let s1 := half_cross (t_v1 t) (t_v2 t) (t_v3 t) + s0 in
  let s2 := half_cross (t_v2 t) (t_v3 t) (t_v0 t) + s1 in
  let s3 := half_cross (t_v3 t) (t_v0 t) (t_v1 t) + s2 in
  let select := s3 * r in
  if rleb select s0 then 0%nat else if rleb select s1 then 1%nat else if rleb select s2 then 2%nat else 3%nat.
Definition tet_sample (t : tet) (r u v : R) : nat * v3 :=
  let k := tet_face t r in
  let '(a, b, c) := match k with
    | 0%nat => (t_v0 t, t_v1 t, t_v2 t) | 1%nat => (t_v1 t, t_v2 t, t_v3 t)
    | 2%nat => (t_v2 t, t_v3 t, t_v0 t) | _ => (t_v3 t, t_v0 t, t_v1 t) end in
  let '(u, v) := if rgtb (u + v) 1 then (1 - u, 1 - v) else (u, v) in
  (k, vadd (vadd (vscale (1 - u - v) a) (vscale u b)) (vscale v c)).
