(** Model of AABB over the real numbers.  VecGeom/base/AABB.h, NonZero of VecGeom/base/Global.h. *)
From Coq Require Import Reals Bool.
From Verif Require Import Real3.
Local Open Scope R_scope.

(* AABB.h:226-227; Vector3D() is zero (Vector3D.h:46-51), so AABB() is the box of the origin *)
Record aabb := Box { bmin : v3; bmax : v3 }.
Definition aabb_default : aabb := Box vzero vzero.
(* Global.h:174-177; the sign of zero is positive *)
Definition kTiny : R := / 10 ^ 30.
Definition nonzero (x : R) : R := x + (if rltb x 0 then - kTiny else kTiny).
Definition vnonzero (d : v3) : v3 := V3 (nonzero (vx d)) (nonzero (vy d)) (nonzero (vz d)).
Definition vinv (d : v3) : v3 := V3 (1 / vx d) (1 / vy d) (1 / vz d).
(* Math.h:38, double precision *)
Definition kEpsilon : R := / 2 ^ 52.
(* Vector3D.h:259-280 Abs, Min, Max *)
Definition vmax (a : v3) : R := Rmax (Rmax (vx a) (vy a)) (vz a).
Definition vmin (a : v3) : R := Rmin (Rmin (vx a) (vy a)) (vz a).
Definition vabs (a : v3) : v3 := V3 (Rabs (vx a)) (Rabs (vy a)) (Rabs (vz a)).

(* AABB.h:44 *)
Definition bcenter (b : aabb) : v3 := vscale (1 / 2) (vadd (bmax b) (bmin b)).
(* AABB.h:48 *)
Definition bsize (b : aabb) : v3 := vsub (bmax b) (bmin b).
(* AABB.h:52-56 *)
Definition barea (b : aabb) : R :=
  let e := bsize b in 2 * (vx e * vy e + vy e * vz e + vz e * vx e).
(* AABB.h:60-65 *)
Definition bexpand (b : aabb) (s : R) : aabb :=
  let h := s * (1 / 2) in
  Box (vsub (bmin b) (V3 h h h)) (vadd (bmax b) (V3 h h h)).
(* AABB.h:69-72 *)
Definition bcontains (b : aabb) (p : v3) : bool :=
  rgeb (vx p) (vx (bmin b)) && rleb (vx p) (vx (bmax b)) && rgeb (vy p) (vy (bmin b)) && rleb (vy p) (vy (bmax b))
  && rgeb (vz p) (vz (bmin b)) && rleb (vz p) (vz (bmax b)).
(* AABB.h:81 *)
Definition bsafety (b : aabb) (p : v3) : R := vmax (vsub (vabs (vsub p (bcenter b))) (vscale (1 / 2) (bsize b))).
(* AABB.h:136-155 *)
Definition bintersection (b : aabb) (p invdir : v3) : R * R :=
  let t0 := vmul (vsub (bmin b) p) invdir in
  let t1 := vmul (vsub (bmax b) p) invdir in
  let lo a c := if rgtb a c then c else a in
  let hi a c := if rgtb a c then a else c in
  (vmax (V3 (lo (vx t0) (vx t1)) (lo (vy t0) (vy t1)) (lo (vz t0) (vz t1))),
   vmin (V3 (hi (vx t0) (vx t1)) (hi (vy t0) (vy t1)) (hi (vz t0) (vz t1))) * (1 + 2 * kEpsilon)).
(* AABB.h:106-111; [inf] is kInfLength *)
Definition bdistance_inv (inf : R) (b : aabb) (p invdir : v3) : R :=
  let '(tmin, tmax) := bintersection b p invdir in if rltb tmin tmax && rgtb tmax 0 then tmin else inf.
(* AABB.h:91-96, 121-126 *)
Definition bdistance (inf : R) (b : aabb) (p dir : v3) : R := bdistance_inv inf b p (vinv (vnonzero dir)).
(* AABB.h:175-180 and 162-167 *)
Definition bline_inv (b : aabb) (p invdir : v3) : bool :=
  let '(tmin, tmax) := bintersection b p invdir in rleb tmin tmax && rgeb tmax 0.
Definition bline (b : aabb) (p dir : v3) : bool := bline_inv b p (vinv (vnonzero dir)).
(* AABB.h:205-210 and 190-195 *)
Definition bhit_inv (b : aabb) (p invdir : v3) (step : R) : bool :=
  let '(tmin, tmax) := bintersection b p invdir in rleb tmin tmax && rgeb tmax 0 && rltb tmin step.
Definition bhit (b : aabb) (p dir : v3) (step : R) : bool := bhit_inv b p (vinv (vnonzero dir)) step.
(* AABB.h:216-223 *)
Definition bunion (a b : aabb) : aabb :=
  Box (V3 (Rmin (vx (bmin a)) (vx (bmin b))) (Rmin (vy (bmin a)) (vy (bmin b))) (Rmin (vz (bmin a)) (vz (bmin b))))
      (V3 (Rmax (vx (bmax a)) (vx (bmax b))) (Rmax (vy (bmax a)) (vy (bmax b))) (Rmax (vz (bmax a)) (vz (bmax b)))).
