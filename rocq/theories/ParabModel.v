(** Paraboloids: VecGeom/volumes/ParaboloidStruct.h, VecGeom/volumes/kernel/ParaboloidImplementation.h,
    VecGeom/volumes/UnplacedParaboloid.h, source/UnplacedParaboloid.cpp.
    Scalar kernels with exact arithmetic; cos, sin and sqrt exact; NonZero is [nz] of PlanesModel.  Masks are bools, MaskFull is
    the bool itself.  Printing, cloning, placing and the CUDA parts are left out. *)
From Coq Require Import Reals Lra Lia Bool.
From stdpp Require Import base list option numbers tactics.
From Verif Require Import Real3 AABBModel BoxModel PlanesModel.
Import stdpp.list.
Local Open Scope R_scope.

(** ParaboloidStruct.h:19-36; fA2, fB2 and fInvB are read by nobody and left out *)
Record parab := Parab {
  pb_rlo : R; pb_rhi : R; pb_dz : R; pb_dx : R; pb_dy : R; pb_A : R; pb_invA : R; pb_B : R; pb_k1 : R; pb_k2 : R;
  pb_rlo2 : R; pb_rhi2 : R }.
(** ParaboloidStruct.h:51-55, 59-73, 77-81 *)
Definition mk_parab (rlo rhi dz : R) : parab :=
  let rlo2 := rlo * rlo in
  let rhi2 := rhi * rhi in
  let dd := 1 / (rhi2 - rlo2) in
  let A := 2 * dz * dd in
  let B := - dz * (rlo2 + rhi2) * dd in
  Parab rlo rhi dz (Rmax rhi rlo) (Rmax rhi rlo) A (1 / A) B ((rhi2 - rlo2) * (1 / 2) / dz) ((rhi2 + rlo2) * (1 / 2)) rlo2 rhi2.
(** ParaboloidStruct.h:88-100 *)
Definition pb_set (t : parab) (rlo rhi dz : R) : parab :=
  if rltb rlo 0 || rltb rhi 0 || rleb dz 0 then t else mk_parab rlo rhi dz.
(** ParaboloidStruct.h:105, 110, 115 *)
Definition pb_set_rlo (t : parab) (v : R) : parab := pb_set t v (pb_rhi t) (pb_dz t).
Definition pb_set_rhi (t : parab) (v : R) : parab := pb_set t (pb_rlo t) v (pb_dz t).
Definition pb_set_dz (t : parab) (v : R) : parab := pb_set t (pb_rlo t) (pb_rhi t) v.

Section Kernels.
(** VecGeom/base/Math.h:41 kInfLength *)
Variable inf : R.
Variable t : parab.
(** VecGeom/base/Vector3D.h:144 *)
Definition pb_r2 (p : v3) : R := vx p * vx p + vy p * vy p.
(** ParaboloidImplementation.h:83-85, 146-147, 234-236: beyond the parabolic surface, in squared radii *)
Definition pb_diff (p : v3) : R := pb_r2 p - (pb_k1 t * vz p + pb_k2 t).
(** ParaboloidImplementation.h:111, 293, 354: the same, along z *)
Definition pb_value (p : v3) : R := pb_A t * pb_r2 p + pb_B t - vz p.
(** ParaboloidImplementation.h:75-90: completely inside, completely outside *)
Definition pb_kernel (fi : bool) (p : v3) : bool * bool :=
  let out := rgtb (Rabs (vz p)) (pb_dz t + kTolerance) || rgtb (pb_diff p) kTolerance in
  if out then (false, out) else (fi && (rltb (Rabs (vz p)) (pb_dz t - kTolerance) && rltb (pb_diff p) (- kTolerance)), out).
(** ParaboloidImplementation.h:50-56 *)
Definition pb_contains (p : v3) : bool := negb (snd (pb_kernel false p)).
(** ParaboloidImplementation.h:61-72 *)
Definition pb_inside (p : v3) : inside :=
  let '(inn, out) := pb_kernel true p in if inn then kInside else if out then kOutside else kSurface.
(** ParaboloidImplementation.h:93-102 *)
Definition pb_on_z (up : bool) (p : v3) : bool :=
  if up then rltb (Rabs (vz p - pb_dz t)) kTolerance && rltb (pb_r2 p) (pb_rhi2 t + kHalfTolerance)
  else rltb (Rabs (vz p + pb_dz t)) kTolerance && rltb (pb_r2 p) (pb_rlo2 t + kHalfTolerance).
(** ParaboloidImplementation.h:105-114 *)
Definition pb_on_side (p : v3) : bool := rgtb (pb_value p) (- kTolerance) && rltb (pb_value p) kTolerance.
(** ParaboloidImplementation.h:161, 249 *)
Definition pb_gradient (p : v3) : v3 := V3 (vx p) (vy p) (- pb_k1 t * (1 / 2)).
(** ParaboloidImplementation.h:128-135: the offset *)
Definition pb_offset (p d : v3) : R :=
  let rsph := 3 / 2 * Rmax (pb_dx t) (pb_dz t) in
  if rgtb (vdot p p) (1024 * rsph * rsph) && rltb (vdot d p) 0 then vmag p - 2 * rsph else 0.
(** ParaboloidImplementation.h:198-203, 265-270: the equation a u^2 - 2 b u + c = 0 of the parabolic surface along the ray *)
Definition pb_qa (d : v3) : R := pb_A t * pb_r2 d.
Definition pb_qb (p d : v3) : R := 1 / 2 * vz d - pb_A t * (vx p * vx d + vy p * vy d).
Definition pb_qc (p : v3) : R := pb_B t + pb_A t * pb_r2 p - vz p.
Definition pb_qd (p d : v3) : R := pb_qb p d * pb_qb p d - pb_qa d * pb_qc p.
(** ParaboloidImplementation.h:196-212 *)
Definition pb_side_in (p d : v3) (offset distance : R) : R :=
  if rgtb (vz p) (pb_dz t) && rltb (pb_r2 p) (pb_rhi2 t) then distance else
  let b := pb_qb p d in
  let d2 := pb_qd p d in
  if rltb d2 0 then distance else
  let dist := if rleb b 0 then (b - R_sqrt.sqrt d2) / nz (pb_qa d) else pb_qc p / nz (b + R_sqrt.sqrt d2) in
  let zhit := vz p + dist * vz d in
  if rleb (Rabs zhit) (pb_dz t) && rgtb dist 0 then dist + offset else distance.
(** ParaboloidImplementation.h:117-213; [p] is the moved point.  When a ray meets the rim of the upper lid (line 182), the test
    of the side runs too. *)
Definition pb_to_in (point d : v3) : R :=
  let offset := pb_offset point d in
  let p := vadd point (vscale offset d) in
  let absz := Rabs (vz p) in
  if rgtb absz (pb_dz t) && rgeb (vz p * vz d) 0 then inf else
  if rltb absz (pb_dz t - kTolerance) && rltb (pb_diff p) (- kTolerance) then -1 else
  if (pb_on_z true point && rltb (vz d) 0) || (pb_on_z false point && rgtb (vz d) 0) then 0 else
  if rgtb (pb_diff p) (- kTolerance) && rltb (pb_diff p) kTolerance && rltb (vdot d (pb_gradient p)) 0 then 0 else
  if rltb absz (pb_dz t) then pb_side_in p d offset inf else
  let bottom := rltb (vz p) (- pb_dz t) && rgtb (vz d) 0 in
  let top := rgtb (vz p) (pb_dz t) && rltb (vz d) 0 in
  let distz := if bottom then (- pb_dz t - vz p) / nz (vz d) else if top then (pb_dz t - vz p) / nz (vz d) else inf in
  let r2 := pb_r2 (along p d distz) in
  let distance := if top && rleb r2 (pb_rhi2 t) then distz + offset else inf in
  if top && rltb r2 (pb_rhi2 t) then distance else
  if bottom && rleb r2 (pb_rlo2 t) then distz + offset else
  pb_side_in p d offset distance.
(** ParaboloidImplementation.h:216-277 *)
Definition pb_to_out (p d : v3) : R :=
  if rgtb (Rabs (vz p)) (pb_dz t + kTolerance) then -1 else
  if rgtb (pb_diff p) kHalfTolerance then -1 else
  if (pb_on_z true p && rgtb (vz d) 0) || (pb_on_z false p && rltb (vz d) 0) then 0 else
  if rgtb (pb_diff p) (- kTolerance) && rltb (pb_diff p) kTolerance && rgtb (vdot d (pb_gradient p)) 0 then 0 else
  let inv := 1 / nz (vz d) in
  let distz := if rltb (vz d) 0 then - (pb_dz t + vz p) * inv else (pb_dz t - vz p) * inv in
  let b := pb_qb p d in
  let d2 := pb_qd p d in
  let dist := if rgeb d2 0 then (if rgtb b 0 then (b + R_sqrt.sqrt d2) * (1 / nz (pb_qa d)) else pb_qc p / nz (b - R_sqrt.sqrt d2)) else inf in
  Rmin dist distz.
(** ParaboloidImplementation.h:298-300, 359-361 *)
Definition pb_on_lid (p : v3) : bool :=
  rltb (Rabs (Rabs (vz p) - pb_dz t)) kTolerance && (rltb (pb_r2 p) (pb_rhi2 t + kHalfTolerance) || rltb (pb_r2 p) (pb_rlo2 t + kHalfTolerance)).
(** ParaboloidImplementation.h:280-335 *)
Definition pb_safety_in (p : v3) : R :=
  let absz := Rabs (vz p) in
  let safez := absz - pb_dz t in
  if rltb absz (pb_dz t - kTolerance) && rltb (pb_value p) (- kHalfTolerance) then -1 else
  if pb_on_lid p then 0 else
  if pb_on_side p then 0 else
  let r0sq := (vz p - pb_B t) * pb_invA t in
  if rltb r0sq 0 then safez else
  let dr := R_sqrt.sqrt (pb_r2 p) - R_sqrt.sqrt r0sq in
  if rltb dr (/ 100000000) then safez else
  let talf := (Ropp 2) * pb_A t * R_sqrt.sqrt r0sq in
  let salf := talf / R_sqrt.sqrt (1 + talf * talf) in
  Rmax (Rabs (dr * salf)) safez.
(** ParaboloidImplementation.h:338-392 *)
Definition pb_safety_out (p : v3) : R :=
  let absz := Rabs (vz p) in
  let safz := pb_dz t - absz in
  if rgtb absz (pb_dz t + kTolerance) then -1 else
  if rgtb (pb_value p) kHalfTolerance then -1 else
  if pb_on_lid p then 0 else
  if pb_on_side p then 0 else
  let r0sq := (vz p - pb_B t) * pb_invA t in
  if rltb r0sq 0 then 0 else
  let z0 := pb_A t * pb_r2 p + pb_B t in
  let dr := R_sqrt.sqrt (pb_r2 p) - R_sqrt.sqrt r0sq in
  if rgtb dr (- / 100000000) then 0 else
  let dz := Rabs (vz p - z0) in
  Rmin (- dr * dz / R_sqrt.sqrt (dr * dr + dz * dz)) safz.
(** VecGeom/base/Vector3D.h:202; [None] for the zero vector, where the division gives no number *)
Definition pb_normalized (v : v3) : option v3 := if reqb (vdot v v) 0 then None else Some (vscale (1 / vmag v) v).
(** ParaboloidImplementation.h:395-453, called from UnplacedParaboloid.h:152-157; the answer first.  The normal of lines 412-414
    is local to its block and lost: the one of line 406 is used.  Line 441 may take the root of a negative number; what comes
    out then is not below [safz]. *)
Definition pb_normal (p : v3) : bool * option v3 :=
  let np := V3 0 0 (rsign (- pb_A t)) in
  let onz := pb_on_z true p || pb_on_z false p in
  let side := pb_on_side p in
  let nz0 := if pb_on_z false p then -1 else if pb_on_z true p then 1 else 0 in
  let n := V3 0 0 nz0 in
  let n := if side then vsub n np else n in
  if onz || side then (true, pb_normalized n) else
  let z := if rltb (vz p) 0 then -1 else if rgtb (vz p) 0 then 1 else 0 in
  let safz := pb_dz t - Rabs (vz p) in
  let under := (vz p - pb_B t) * pb_invA t in
  let safr := Rabs (R_sqrt.sqrt (pb_r2 p) - R_sqrt.sqrt under) in
  let use := rgeb safz 0 && rgeb under 0 && rltb safr safz in
  (false, pb_normalized (if use then np else V3 0 0 z)).
End Kernels.

Section Measures.
Variable t : parab.
(** source/UnplacedParaboloid.cpp:36-39 *)
Definition pb_capacity : R := PI * pb_dz t * (pb_rlo t * pb_rlo t + pb_rhi t * pb_rhi t).
(** source/UnplacedParaboloid.cpp:42-65 *)
Definition pb_surface_area : R :=
  let h1 := - pb_B t + pb_dz t in
  let h2 := - pb_B t - pb_dz t in
  let A1 := pb_rhi2 t + 4 * h1 * h1 in
  let A1 := A1 * (A1 * A1) in
  let A1 := PI * pb_rhi t / 6 / (h1 * h1) * (R_sqrt.sqrt A1 - pb_rhi2 t * pb_rhi t) in
  let A2 := pb_rlo2 t + 4 * (h2 * h2) in
  let A2 := A2 * (A2 * A2) in
  let A2 := if negb (reqb h2 0) then PI * pb_rlo t / 6 / (h2 * h2) * (R_sqrt.sqrt A2 - pb_rlo2 t * pb_rlo t) else 0 in
  A1 - A2 + (pb_rlo2 t + pb_rhi2 t) * PI.
(** source/UnplacedParaboloid.cpp:68-76 *)
Definition pb_extent : v3 * v3 := (V3 (- pb_dx t) (- pb_dy t) (- pb_dz t), V3 (pb_dx t) (pb_dy t) (pb_dz t)).
(** source/UnplacedParaboloid.cpp:78-103; [u] are the numbers drawn, each in the unit interval *)
Definition pb_sample (u : nat -> R) : v3 :=
  let A := pb_surface_area in
  let z := u 0%nat in
  let phi := 2 * PI * u 1%nat in
  if rgeb (PI * (pb_rlo2 t + pb_rhi2 t) / A) z then
    if rgtb (PI * pb_rlo2 t / A) z then
      let rho := pb_rlo t * R_sqrt.sqrt (u 2%nat) in V3 (rho * cos phi) (rho * sin phi) (- pb_dz t)
    else
      let rho := pb_rhi t * R_sqrt.sqrt (u 2%nat) in V3 (rho * cos phi) (rho * sin phi) (pb_dz t)
  else
    let z := u 2%nat * 2 * pb_dz t - pb_dz t in
    let r := R_sqrt.sqrt (z * pb_invA t - pb_B t * pb_invA t) in
    V3 (r * cos phi) (r * sin phi) z.
(** source/UnplacedParaboloid.cpp:165-177: vertex j of row i of the mesh with n segments; the sums of steps are products *)
Definition pb_vertex (n i j : nat) : v3 :=
  let z := - pb_dz t + INR i * (2 * pb_dz t / INR n) in
  let phi := INR j * (2 * PI / INR n) in
  let r := R_sqrt.sqrt (Rabs ((z - pb_B t) / pb_A t)) in
  V3 (r * cos phi) (r * sin phi) z.
End Measures.
