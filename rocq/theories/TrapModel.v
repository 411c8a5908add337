(** Trapezoids: VecGeom/volumes/TrapezoidStruct.h, VecGeom/volumes/kernel/TrapezoidImplementation.h,
    VecGeom/volumes/UnplacedTrapezoid.h, source/UnplacedTrapezoid.cpp.
    Scalar kernels with the plane shell (VECGEOM_PLANESHELL_DISABLE undefined); Sign is [rsign] of BoxModel.
    The virtual table, printing, meshes and the CUDA parts are left out. *)
From Coq Require Import Reals Lra Lia Bool.
From stdpp Require Import base list option numbers tactics.
From Verif Require Import Real3 BoxModel AABBModel PlanesModel.
Import stdpp.list.
Local Open Scope R_scope.

(** VecGeom/base/Vector3D.h:188, 198 Length and Normalize *)
Definition unitize (v : v3) : v3 := vscale (1 / vmag v) v.

(** VecGeom/volumes/UnplacedTrapezoid.h:42 TrapCorners *)
Record corners := Corners { c0 : v3; c1 : v3; c2 : v3; c3 : v3; c4 : v3; c5 : v3; c6 : v3; c7 : v3 }.
(** TrapezoidStruct.h:41-65; the planes 0 to 3 are -Y, +Y, -X, +X; [tz_areas] are sideAreas 0 to 5; the first four
    entries of normals are those of the planes and the other two constant, so they are not kept apart *)
Record trap := Trap {
  tz_dz : R; tz_theta : R; tz_phi : R; tz_dy1 : R; tz_dx1 : R; tz_dx2 : R; tz_ta1 : R;
  tz_dy2 : R; tz_dx3 : R; tz_dx4 : R; tz_ta2 : R;
  tz_tc : R; tz_ts : R;
  tz_planes : list plane; tz_areas : list R }.

(** source/UnplacedTrapezoid.cpp:445-464 *)
Definition to_corners (t : trap) : corners :=
  let dxdyDy1 := tz_ta1 t * tz_dy1 t in
  let dxdyDy2 := tz_ta2 t * tz_dy2 t in
  let dxdzDz := tz_tc t * tz_dz t in
  let dydzDz := tz_ts t * tz_dz t in
  Corners
    (V3 (- dxdzDz - dxdyDy1 - tz_dx1 t) (- dydzDz - tz_dy1 t) (- tz_dz t))
    (V3 (- dxdzDz - dxdyDy1 + tz_dx1 t) (- dydzDz - tz_dy1 t) (- tz_dz t))
    (V3 (- dxdzDz + dxdyDy1 - tz_dx2 t) (- dydzDz + tz_dy1 t) (- tz_dz t))
    (V3 (- dxdzDz + dxdyDy1 + tz_dx2 t) (- dydzDz + tz_dy1 t) (- tz_dz t))
    (V3 (dxdzDz - dxdyDy2 - tz_dx3 t) (dydzDz - tz_dy2 t) (tz_dz t))
    (V3 (dxdzDz - dxdyDy2 + tz_dx3 t) (dydzDz - tz_dy2 t) (tz_dz t))
    (V3 (dxdzDz + dxdyDy2 - tz_dx4 t) (dydzDz + tz_dy2 t) (tz_dz t))
    (V3 (dxdzDz + dxdyDy2 + tz_dx4 t) (dydzDz + tz_dy2 t) (tz_dz t)).

(** source/UnplacedTrapezoid.cpp:577-582, 606 the plane of a face *)
Definition face_plane (p1 p2 p3 p4 : v3) : plane :=
  let n := unitize (vcross (vsub p3 p1) (vsub p4 p2)) in
  let centr := vscale (1 / 4) (vadd (vadd (vadd p1 p2) p3) p4) in
  Plane n (- vdot n centr).
(** source/UnplacedTrapezoid.cpp:585-603: the answer of MakeAPlane; [ndebug] is that of NDEBUG *)
Definition face_good (ndebug : bool) (p1 p2 p3 p4 : v3) : bool :=
  let n := unitize (vcross (vsub p3 p1) (vsub p4 p2)) in
  let centr := vscale (1 / 4) (vadd (vadd (vadd p1 p2) p3) p4) in
  let resid p := Rabs (vdot n (vsub p centr)) in
  if ndebug then true else
  negb (rgtb (Rmax (Rmax (resid p1) (resid p2)) (Rmax (resid p3) (resid p4))) (1000 * kTolerance)).
(** source/UnplacedTrapezoid.cpp:615 *)
Definition face_area (p1 p2 p3 p4 : v3) : R :=
  1 / 2 * (vmag (vcross (vsub p2 p1) (vsub p3 p1)) + vmag (vcross (vsub p3 p1) (vsub p4 p1))).
(** source/UnplacedTrapezoid.cpp:628-674 with corners: the solid and the answer, which is that of the last face only *)
Definition make_planes_at (ndebug : bool) (t : trap) (c : corners) : trap * bool :=
  (Trap (tz_dz t) (tz_theta t) (tz_phi t) (tz_dy1 t) (tz_dx1 t) (tz_dx2 t) (tz_ta1 t) (tz_dy2 t) (tz_dx3 t) (tz_dx4 t) (tz_ta2 t)
     (tz_tc t) (tz_ts t)
     [face_plane (c0 c) (c1 c) (c5 c) (c4 c); face_plane (c2 c) (c6 c) (c7 c) (c3 c);
      face_plane (c0 c) (c4 c) (c6 c) (c2 c); face_plane (c1 c) (c3 c) (c7 c) (c5 c)]
     [face_area (c0 c) (c1 c) (c5 c) (c4 c); face_area (c2 c) (c6 c) (c7 c) (c3 c);
      face_area (c0 c) (c4 c) (c6 c) (c2 c); face_area (c1 c) (c3 c) (c7 c) (c5 c);
      2 * (tz_dx1 t + tz_dx2 t) * tz_dy1 t; 2 * (tz_dx3 t + tz_dx4 t) * tz_dy2 t],
   let good := face_good ndebug (c0 c) (c1 c) (c5 c) (c4 c) in
   let good := face_good ndebug (c2 c) (c6 c) (c7 c) (c3 c) in
   let good := face_good ndebug (c0 c) (c4 c) (c6 c) (c2 c) in
   face_good ndebug (c1 c) (c3 c) (c7 c) (c5 c)).
(** source/UnplacedTrapezoid.cpp:620-626 *)
Definition make_planes (t : trap) : trap := fst (make_planes_at true t (to_corners t)).

(** VecGeom/base/PlaneShell.h:57-64: planes before MakePlanes; the areas are not set by the constructor *)
Definition zero_planes : list plane := repeat (Plane vzero 0) 4.
(** TrapezoidStruct.h:72-78 with CalculateCached of 89-94 *)
Definition trap_struct (dz theta phi dy1 dx1 dx2 ta1 dy2 dx3 dx4 ta2 : R) : trap :=
  Trap dz theta phi dy1 dx1 dx2 ta1 dy2 dx3 dx4 ta2 (tan theta * cos phi) (tan theta * sin phi) zero_planes [].
(** VecGeom/volumes/UnplacedTrapezoid.h:56-64 *)
Definition mk_trap (dz theta phi dy1 dx1 dx2 alpha1 dy2 dx3 dx4 alpha2 : R) : trap :=
  make_planes (trap_struct dz theta phi dy1 dx1 dx2 (tan alpha1) dy2 dx3 dx4 (tan alpha2)).
(** source/UnplacedTrapezoid.cpp:146-153, like a Trd with one y *)
Definition mk_trap_trd1 (dx1 dx2 dy dz : R) : trap := make_planes (trap_struct dz 0 0 dy dx1 dx1 0 dy dx2 dx2 0).
(** source/UnplacedTrapezoid.cpp:155-161, like a Trd: the planes are made twice *)
Definition mk_trap_trd2 (dx1 dx2 dy1 dy2 dz : R) : trap := make_planes (mk_trap dz 0 0 dy1 dx1 dx1 0 dy2 dx2 dx2 0).
(** source/UnplacedTrapezoid.cpp:163-173, like a parallelepiped *)
Definition mk_trap_para (dx dy dz alpha theta phi : R) : trap :=
  let s := trap_struct dz theta phi dy dx dx alpha dy dx dx alpha in
  make_planes (Trap (tz_dz s) (tz_theta s) (tz_phi s) (tz_dy1 s) (tz_dx1 s) (tz_dx2 s) (tan alpha) (tz_dy2 s) (tz_dx3 s) (tz_dx4 s)
    (tan alpha) (tz_tc s) (tz_ts s) (tz_planes s) (tz_areas s)).
(** source/UnplacedTrapezoid.cpp:174-189, like a box *)
Definition mk_trap_box (xbox ybox zbox : R) : trap := make_planes (trap_struct zbox 0 0 ybox xbox xbox 0 ybox xbox xbox 0).
(** source/UnplacedTrapezoid.cpp:494-522 with the constructor of 126-132; theta and phi are the angles that atan and
    atan2 give, [phi] being an argument here since the standard library has no atan2.  A zero half length in z or y is
    divided by: [None]. *)
Definition mk_trap_corners (ndebug : bool) (phi : R) (c : corners) : option (trap * bool) :=
  let dz := vz (c7 c) in
  let dy1 := 1 / 2 * (vy (c2 c) - vy (c0 c)) in
  let dx1 := 1 / 2 * (vx (c1 c) - vx (c0 c)) in
  let dx2 := 1 / 2 * (vx (c3 c) - vx (c2 c)) in
  let ta1 := 1 / 4 * (vx (c2 c) + vx (c3 c) - vx (c1 c) - vx (c0 c)) / dy1 in
  let dy2 := 1 / 2 * (vy (c6 c) - vy (c4 c)) in
  let dx3 := 1 / 2 * (vx (c5 c) - vx (c4 c)) in
  let dx4 := 1 / 2 * (vx (c7 c) - vx (c6 c)) in
  let ta2 := 1 / 4 * (vx (c6 c) + vx (c7 c) - vx (c5 c) - vx (c4 c)) / dy2 in
  let tc := (vx (c4 c) + dy2 * ta2 + dx3) * (1 / dz) in
  let ts := (vy (c4 c) + dy2) * (1 / dz) in
  if reqb dz 0 || reqb dy1 0 || reqb dy2 0 then None else
  Some (make_planes_at ndebug (Trap dz (atan (R_sqrt.sqrt (ts * ts + tc * tc))) phi dy1 dx1 dx2 ta1 dy2 dx3 dx4 ta2 tc ts zero_planes []) c).

(** UnplacedTrapezoid.h:115-123 *)
Definition get_theta (t : trap) : R :=
  if rltb (tz_theta t) 0 || rgeb (tz_theta t) (PI / 2) then atan (Rabs (tan (tz_theta t))) else tz_theta t.
(** UnplacedTrapezoid.h:127-135, for angles in the range; outside of it the code takes atan2 of the cached values *)
Definition get_phi (t : trap) : option R := if rltb (tz_phi t) (- PI) || rgeb (tz_phi t) PI then None else Some (tz_phi t).
(** UnplacedTrapezoid.h:240 SetDz and 260-290 the others: no plane is made *)
Definition set_dz (t : trap) (v : R) : trap :=
  Trap v (tz_theta t) (tz_phi t) (tz_dy1 t) (tz_dx1 t) (tz_dx2 t) (tz_ta1 t) (tz_dy2 t) (tz_dx3 t) (tz_dx4 t) (tz_ta2 t)
    (tz_tc t) (tz_ts t) (tz_planes t) (tz_areas t).
Definition set_dx1 (t : trap) (v : R) : trap :=
  Trap (tz_dz t) (tz_theta t) (tz_phi t) (tz_dy1 t) v (tz_dx2 t) (tz_ta1 t) (tz_dy2 t) (tz_dx3 t) (tz_dx4 t) (tz_ta2 t)
    (tz_tc t) (tz_ts t) (tz_planes t) (tz_areas t).
(** UnplacedTrapezoid.h:244-249 *)
Definition set_theta (t : trap) (v : R) : trap :=
  make_planes (Trap (tz_dz t) v (tz_phi t) (tz_dy1 t) (tz_dx1 t) (tz_dx2 t) (tz_ta1 t) (tz_dy2 t) (tz_dx3 t) (tz_dx4 t) (tz_ta2 t)
    (tan v * cos (tz_phi t)) (tan v * sin (tz_phi t)) (tz_planes t) (tz_areas t)).
(** UnplacedTrapezoid.h:253-258 *)
Definition set_phi (t : trap) (v : R) : trap :=
  make_planes (Trap (tz_dz t) (tz_theta t) v (tz_dy1 t) (tz_dx1 t) (tz_dx2 t) (tz_ta1 t) (tz_dy2 t) (tz_dx3 t) (tz_dx4 t) (tz_ta2 t)
    (tan (tz_theta t) * cos v) (tan (tz_theta t) * sin v) (tz_planes t) (tz_areas t)).

(** source/UnplacedTrapezoid.cpp:191-220 *)
Definition capacity (t : trap) : R :=
  tz_dz t * ((tz_dx1 t + tz_dx2 t + tz_dx3 t + tz_dx4 t) * (tz_dy1 t + tz_dy2 t) +
             (tz_dx4 t + tz_dx3 t - tz_dx2 t - tz_dx1 t) * (tz_dy2 t - tz_dy1 t) / 3).
(** source/UnplacedTrapezoid.cpp:258-294 *)
Definition surface_area (t : trap) : R :=
  let ba := V3 (tz_dx1 t - tz_dx2 t + tz_ta1 t * 2 * tz_dy1 t) (2 * tz_dy1 t) 0 in
  let bc := V3 (2 * tz_dz t * tz_tc t - (tz_dx4 t - tz_dx2 t) + tz_ta2 t * tz_dy2 t - tz_ta1 t * tz_dy1 t)
               (2 * tz_dz t * tz_ts t + tz_dy2 t - tz_dy1 t) (2 * tz_dz t) in
  let dc := V3 (- tz_dx4 t + tz_dx3 t + 2 * tz_ta2 t * tz_dy2 t) (2 * tz_dy2 t) 0 in
  let da := V3 (-2 * tz_dz t * tz_tc t - (tz_dx1 t - tz_dx3 t) - tz_ta1 t * tz_dy1 t + tz_ta2 t * tz_dy2 t)
               (-2 * tz_dz t * tz_ts t - tz_dy1 t + tz_dy2 t) (-2 * tz_dz t) in
  let ef := V3 (tz_dx2 t - tz_dx1 t + 2 * tz_ta1 t * tz_dy1 t) (2 * tz_dy1 t) 0 in
  let eh := V3 (2 * tz_dz t * tz_tc t + tz_dx3 t - tz_dx1 t + tz_ta1 t * tz_dy1 t - tz_ta2 t * tz_dy2 t)
               (2 * tz_dz t * tz_ts t - tz_dy2 t + tz_dy1 t) (2 * tz_dz t) in
  let gh := V3 (tz_dx3 t - tz_dx4 t - 2 * tz_ta2 t * tz_dy2 t) (-2 * tz_dy2 t) 0 in
  let gf := V3 (-2 * tz_dz t * tz_tc t + tz_dx2 t - tz_dx4 t + tz_ta1 t * tz_dy1 t - tz_ta2 t * tz_dy2 t)
               (-2 * tz_dz t * tz_ts t + tz_dy1 t - tz_dy2 t) (-2 * tz_dz t) in
  2 * tz_dy1 t * (tz_dx1 t + tz_dx2 t) + 2 * tz_dy2 t * (tz_dx3 t + tz_dx4 t) +
  (tz_dx1 t + tz_dx3 t) * R_sqrt.sqrt (4 * tz_dz t * tz_dz t + (tz_dy2 t - tz_dy1 t - 2 * tz_dz t * tz_ts t) ^ 2) +
  (tz_dx2 t + tz_dx4 t) * R_sqrt.sqrt (4 * tz_dz t * tz_dz t + (tz_dy2 t - tz_dy1 t + 2 * tz_dz t * tz_ts t) ^ 2) +
  1 / 2 * (vmag (vcross ba bc) + vmag (vcross dc da) + vmag (vcross ef eh) + vmag (vcross gh gf)).

(** source/UnplacedTrapezoid.cpp:466-491; the divisions are by components of the planes *)
Definition corner_y (dz : R) (ply : plane) (s : R) : R := - (pl_d ply + s * dz * vz (pl_n ply)) / vy (pl_n ply).
Definition corner_x (dz : R) (ply plx : plane) (s : R) : R :=
  ((vy (pl_n plx) / vy (pl_n ply)) * (pl_d ply + s * dz * vz (pl_n ply)) - (pl_d plx + s * dz * vz (pl_n plx))) / vx (pl_n plx).
Definition plane_corners (t : trap) : option corners :=
  match tz_planes t with
  | [pl0; pl1; pl2; pl3] =>
    let c (ply plx : plane) (s : R) := V3 (corner_x (tz_dz t) ply plx s) (corner_y (tz_dz t) ply s) (s * tz_dz t) in
    Some (Corners (c pl0 pl2 (-1)) (c pl0 pl3 (-1)) (c pl1 pl2 (-1)) (c pl1 pl3 (-1))
                  (c pl0 pl2 1) (c pl0 pl3 1) (c pl1 pl2 1) (c pl1 pl3 1))
  | _ => None
  end.
(** source/UnplacedTrapezoid.cpp:296-336 *)
Definition extreme (f : R → R → R) (g : v3 → R) (c : corners) : R :=
  f (f (f (g (c0 c)) (g (c1 c))) (f (g (c2 c)) (g (c3 c)))) (f (f (g (c4 c)) (g (c5 c))) (f (g (c6 c)) (g (c7 c)))).
Definition trap_extent (t : trap) : option (v3 * v3) :=
  c ← plane_corners t;
  Some (V3 (extreme Rmin vx c) (extreme Rmin vy c) (- tz_dz t), V3 (extreme Rmax vx c) (extreme Rmax vy c) (tz_dz t)).

(** source/UnplacedTrapezoid.cpp:380-411; [ch], [l1], [l2] are the three numbers drawn: from [0, aOne + aTwo), [0, 1) and [0, l1) *)
Definition point_on_plane (p0 p1 p2 p3 : v3) (ch l1 l2 : R) : v3 :=
  let t := vsub p1 p0 in
  let u := vsub p2 p1 in
  let v := vsub p3 p2 in
  let w := vsub p0 p3 in
  let aOne := 1 / 2 * vmag (vcross w v) in
  if rgeb ch 0 && rltb ch aOne then vadd (vadd p2 (vscale l1 v)) (vscale l2 w)
  else vadd (vadd p0 (vscale l1 t)) (vscale l2 u).
(** source/UnplacedTrapezoid.cpp:338-378; [u] is the first number drawn, in [0, 1): the face chosen; [None] is the end
    marked "should never get here" *)
Definition sample_face (t : trap) (c : corners) (u : R) : option (v3 * v3 * v3 * v3) :=
  let chose := u * surface_area t in
  let faces := [(c0 c, c1 c, c5 c, c4 c); (c2 c, c6 c, c7 c, c3 c); (c0 c, c4 c, c6 c, c2 c);
                (c1 c, c3 c, c7 c, c5 c); (c0 c, c2 c, c3 c, c1 c); (c4 c, c5 c, c7 c, c6 c)] in
  (fix go (l : list ((v3 * v3 * v3 * v3) * R)) (sum : R) : option (v3 * v3 * v3 * v3) :=
     match l with
     | [] => None
     | (f, a) :: l => if rgeb chose sum && rltb chose (sum + a) then Some f else go l (sum + a)
     end) (combine faces (tz_areas t)) 0.

Section Kernels.
Variable inf : R.   (* VecGeom/base/Math.h:41 kInfLength *)
Variable t : trap.
(** TrapezoidImplementation.h:95-132; [for_inside] is the template parameter *)
Definition trap_kernel (for_inside : bool) (p : v3) : bool * bool :=
  let co := rgtb (Rabs (vz p)) (if for_inside then tz_dz t + kHalfTolerance else tz_dz t) in
  let ci := if for_inside then rltb (Rabs (vz p)) (tz_dz t - kHalfTolerance) else false in
  shell_kernel for_inside (tz_planes t) p ci co.
(** TrapezoidImplementation.h:68-75 *)
Definition trap_contains (p : v3) : bool := negb (snd (trap_kernel false p)).
(** TrapezoidImplementation.h:79-93 *)
Definition trap_inside (p : v3) : inside :=
  let '(ci, co) := trap_kernel true p in
  let i := kSurface in
  let i := if co then kOutside else i in
  if ci then kInside else i.
(** TrapezoidImplementation.h:147-186 *)
Definition trap_to_in (p d : v3) : R :=
  let signZdir := rsign (vz d) in
  let max := signZdir * tz_dz t - vz p in
  if rltb (signZdir * max) (0 + kHalfTolerance) then inf else
  let invdir := 1 / nz (vz d) in
  let smax := max * invdir in
  let smin := - (signZdir * tz_dz t + vz p) * invdir in
  shell_to_in inf (tz_planes t) p d smin smax.
(** TrapezoidImplementation.h:240-268 *)
Definition trap_to_out (p d : v3) : R :=
  if rgtb (Rabs (vz p)) (tz_dz t + kHalfTolerance) then -1 else
  let distz := (rsign (vz d) * tz_dz t - vz p) / nz (vz d) in
  let distance := if negb (reqb (vz d) 0) then distz else inf in
  let disttoplanes := shell_to_out inf (tz_planes t) p d in
  if rltb disttoplanes distance then disttoplanes else distance.
(** TrapezoidImplementation.h:311-319 *)
Definition trap_safety_in (p : v3) : R := shell_safety_in (tz_planes t) p (Rabs (vz p) - tz_dz t).
(** TrapezoidImplementation.h:336-350 *)
Definition trap_safety_out (p : v3) : R := shell_safety_out (tz_planes t) p (tz_dz t - Rabs (vz p)).
(** TrapezoidImplementation.h:371-426 *)
Definition trap_normal (p : v3) : option (v3 * bool) :=
  '(safety, normal) ← shell_normal inf (tz_planes t) p vzero;
  let safz := rsign (vz p) * vz p - tz_dz t in
  let zn := V3 0 0 (rsign (vz p)) in
  let normal := if rltb (Rabs (safz - safety)) kHalfTolerance && rgeb safz (- kHalfTolerance) then vadd normal zn else normal in
  let normal := if rgtb safz safety && rgeb safz (- kHalfTolerance) then zn else normal in
  let safety := if rgtb safz safety then safz else safety in
  let valid := rleb (Rabs safety) (1000 * kTolerance) in
  Some (if rgtb (vdot normal normal) 1 then unitize normal else normal, valid).
End Kernels.
