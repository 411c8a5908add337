(** Model of the bounding box kernels of VecGeom/volumes/kernel/BoxImplementation.h, scalar
    instance with exact arithmetic.  [inf] is InfinityLength<Real_v>(). *)
From Coq Require Import Reals Bool.
From Verif Require Import Real3 AABBModel.
Local Open Scope R_scope.

(* BoxImplementation.h:295: corners[sign] and corners[1 - sign] *)
Definition corner (s : bool) (lo hi : R) : R := if s then hi else lo.
(* BoxImplementation.h:286-331; signs as in HybridNavigator2.h:117-120 and SimpleABBoxNavigator.h:62-65 *)
Definition kernel2 (inf : R) (b : aabb) (p inv : v3) (t0 t1 : R) : R :=
  let sx := rltb (vx inv) 0 in let sy := rltb (vy inv) 0 in let sz := rltb (vz inv) 0 in
  let tmin := (corner sx (vx (bmin b)) (vx (bmax b)) - vx p) * vx inv in
  let tymax := (corner (negb sy) (vy (bmin b)) (vy (bmax b)) - vy p) * vy inv in
  if rgtb tmin tymax then inf else
  let tmax := (corner (negb sx) (vx (bmin b)) (vx (bmax b)) - vx p) * vx inv in
  let tymin := (corner sy (vy (bmin b)) (vy (bmax b)) - vy p) * vy inv in
  if rgtb tymin tmax then inf else
  let tmin := Rmax tmin tymin in
  let tmax := Rmin tmax tymax in
  let tzmin := (corner sz (vz (bmin b)) (vz (bmax b)) - vz p) * vz inv in
  let tzmax := (corner (negb sz) (vz (bmin b)) (vz (bmax b)) - vz p) * vz inv in
  if rgtb tmin tzmax || rgtb tzmin tmax then inf else
  let tmin := Rmax tmin tzmin in
  let tmax := Rmin tmax tzmax in
  if negb (rleb tmin (t1 + kTolerance) && rgtb tmax (t0 - kTolerance)) then inf else tmin.

(* BoxImplementation.h:472-478 *)
Definition ab_safeties (b : aabb) (p : v3) : v3 :=
  vsub (vabs (vsub p (vscale (1 / 2) (vadd (bmax b) (bmin b))))) (vscale (1 / 2) (vsub (bmax b) (bmin b))).
(* BoxImplementation.h:463-515 *)
Definition ab_safety_sqr (b : aabb) (p : v3) : R :=
  let s := ab_safeties b p in
  let outx := rgtb (vx s) 0 in let outy := rgtb (vy s) 0 in let outz := rgtb (vz s) 0 in
  let sqr (o : bool) (x : R) := if o then x * x else 0 in
  if negb (outx || outy || outz) then - vmax s * vmax s else sqr outx (vx s) + sqr outy (vy s) + sqr outz (vz s).
(* BoxImplementation.h:522-583: the second result, safetymaxsqr; the first is the same as ABBoxSafetySqr *)
Definition ab_safety_max_sqr (b : aabb) (p : v3) : R :=
  let s := vadd (vabs (vsub p (vscale (1 / 2) (vadd (bmax b) (bmin b))))) (vscale (1 / 2) (vsub (bmax b) (bmin b))) in
  vdot s s.
