(** Tubes: VecGeom/volumes/TubeStruct.h, VecGeom/volumes/kernel/TubeImplementation.h,
    VecGeom/volumes/kernel/shapetypes/TubeTypes.h, VecGeom/volumes/UnplacedTube.h, source/UnplacedTube.cpp.
    Scalar kernels with exact arithmetic, cos and sin exact; NonZero is [nz] of PlanesModel, which lets numbers of at least
    2^-46 absorb the tiny summand.  vecCore::EarlyReturnAllowed is true, masks are bools, TUBE_SAFETY_OLD is defined
    (TubeImplementation.h:14).  The wedge is the one of WedgeModel.
    The mesh, the virtual table, printing, placing and the CUDA parts are left out. *)
From Coq Require Import Reals Lra Lia Bool.
From stdpp Require Import base list option numbers tactics.
From Verif Require Import Real3 AABBModel BoxModel PlanesModel ConeModel WedgeModel TetModel TrdModel.
Import stdpp.list.
Local Open Scope R_scope.

(** TubeStruct.h:17-39; fTolIz and the four tolerant radii (33, 35-38) are read by no kernel and left out *)
Record tube := Tube {
  tb_rmin : R; tb_rmax : R; tb_z : R; tb_sphi : R; tb_dphi : R;
  tb_rmin2 : R; tb_rmax2 : R; tb_a1x : R; tb_a1y : R; tb_a2x : R; tb_a2y : R;
  tb_Irmin2 : R; tb_Ormin2 : R; tb_Irmax2 : R; tb_Ormax2 : R; tb_Oz : R; tb_max : R;
  tb_wedge : wedge }.
(** TubeStruct.h:43-49 *)
Definition updated_z (t : tube) : tube :=
  Tube (tb_rmin t) (tb_rmax t) (tb_z t) (tb_sphi t) (tb_dphi t) (tb_rmin2 t) (tb_rmax2 t) (tb_a1x t) (tb_a1y t) (tb_a2x t) (tb_a2y t)
    (tb_Irmin2 t) (tb_Ormin2 t) (tb_Irmax2 t) (tb_Ormax2 t) (tb_z t + kHalfTolerance) (Rmax (tb_rmax t) (tb_z t)) (tb_wedge t).
(** TubeStruct.h:51-59 *)
Definition updated_rmin (t : tube) : tube :=
  let o := tb_rmin t - kHalfTolerance in
  let i := tb_rmin t + kHalfTolerance in
  Tube (tb_rmin t) (tb_rmax t) (tb_z t) (tb_sphi t) (tb_dphi t) (tb_rmin t * tb_rmin t) (tb_rmax2 t) (tb_a1x t) (tb_a1y t) (tb_a2x t) (tb_a2y t)
    (i * i) (o * o) (tb_Irmax2 t) (tb_Ormax2 t) (tb_Oz t) (tb_max t) (tb_wedge t).
(** TubeStruct.h:61-70 *)
Definition updated_rmax (t : tube) : tube :=
  let o := tb_rmax t + kHalfTolerance in
  let i := tb_rmax t - kHalfTolerance in
  Tube (tb_rmin t) (tb_rmax t) (tb_z t) (tb_sphi t) (tb_dphi t) (tb_rmin2 t) (tb_rmax t * tb_rmax t) (tb_a1x t) (tb_a1y t) (tb_a2x t) (tb_a2y t)
    (tb_Irmin2 t) (tb_Ormin2 t) (i * i) (o * o) (tb_Oz t) (Rmax (tb_rmax t) (tb_z t)) (tb_wedge t).
(** TubeStruct.h:80-85, 152-162: both along vectors *)
Definition set_along (t : tube) (phi1 phi2 : R) : tube :=
  Tube (tb_rmin t) (tb_rmax t) (tb_z t) (tb_sphi t) (tb_dphi t) (tb_rmin2 t) (tb_rmax2 t) (cos phi1) (sin phi1) (cos phi2) (sin phi2)
    (tb_Irmin2 t) (tb_Ormin2 t) (tb_Irmax2 t) (tb_Ormax2 t) (tb_Oz t) (tb_max t) (tb_wedge t).
(** TubeStruct.h:152-162 *)
Definition tube_cached (t : tube) : tube :=
  let t := updated_rmax (updated_rmin (updated_z t)) in
  set_along t (tb_sphi t) (tb_sphi t + tb_dphi t).
(** TubeStruct.h:166-174; the members that the initialiser leaves open are zero here *)
Definition tube_struct (rmin rmax z sphi dphi : R) : tube :=
  tube_cached (Tube (if rltb rmin 0 then 0 else rmin) rmax z sphi dphi 0 0 0 0 0 0 0 0 0 0 0 0 (mk_wedge dphi sphi)).
(** TubeStruct.h:88-94, 96-102, 104-110 *)
Definition set_rmin (t : tube) (v : R) : tube :=
  updated_rmin (Tube v (tb_rmax t) (tb_z t) (tb_sphi t) (tb_dphi t) (tb_rmin2 t) (tb_rmax2 t) (tb_a1x t) (tb_a1y t) (tb_a2x t) (tb_a2y t)
    (tb_Irmin2 t) (tb_Ormin2 t) (tb_Irmax2 t) (tb_Ormax2 t) (tb_Oz t) (tb_max t) (tb_wedge t)).
Definition set_rmax (t : tube) (v : R) : tube :=
  updated_rmax (Tube (tb_rmin t) v (tb_z t) (tb_sphi t) (tb_dphi t) (tb_rmin2 t) (tb_rmax2 t) (tb_a1x t) (tb_a1y t) (tb_a2x t) (tb_a2y t)
    (tb_Irmin2 t) (tb_Ormin2 t) (tb_Irmax2 t) (tb_Ormax2 t) (tb_Oz t) (tb_max t) (tb_wedge t)).
Definition set_dz (t : tube) (v : R) : tube :=
  updated_z (Tube (tb_rmin t) (tb_rmax t) v (tb_sphi t) (tb_dphi t) (tb_rmin2 t) (tb_rmax2 t) (tb_a1x t) (tb_a1y t) (tb_a2x t) (tb_a2y t)
    (tb_Irmin2 t) (tb_Ormin2 t) (tb_Irmax2 t) (tb_Ormax2 t) (tb_Oz t) (tb_max t) (tb_wedge t)).
(** Part of the two setters of the angles: fSphi and fDphi *)
Definition store_angles (t : tube) (s d : R) : tube :=
  Tube (tb_rmin t) (tb_rmax t) (tb_z t) s d (tb_rmin2 t) (tb_rmax2 t) (tb_a1x t) (tb_a1y t) (tb_a2x t) (tb_a2y t)
    (tb_Irmin2 t) (tb_Ormin2 t) (tb_Irmax2 t) (tb_Ormax2 t) (tb_Oz t) (tb_max t) (tb_wedge t).
(** TubeStruct.h:112-127 *)
Definition set_sphi (t : tube) (s : R) : tube :=
  let s := checked_sphi (tb_dphi t) s in
  set_along (store_angles t s (tb_dphi t)) s (s + tb_dphi t).
(** TubeStruct.h:130-149; kAngTolerance is VecGeom/base/Math.h:30.  The first along vector stays. *)
Definition set_dphi (t : tube) (d : R) : tube :=
  let '(s, d) := if rgeb d (2 * PI - 5 / 10 * / 1000000000) then (0, 2 * PI) else if rgtb d 0 then (tb_sphi t, d) else (tb_sphi t, tb_dphi t) in
  let t := store_angles t s d in
  Tube (tb_rmin t) (tb_rmax t) (tb_z t) (tb_sphi t) (tb_dphi t) (tb_rmin2 t) (tb_rmax2 t) (tb_a1x t) (tb_a1y t) (cos (s + d)) (sin (s + d))
    (tb_Irmin2 t) (tb_Ormin2 t) (tb_Irmax2 t) (tb_Ormax2 t) (tb_Oz t) (tb_max t) (tb_wedge t).

(** TubeTypes.h:147 *)
Inductive angle_type := kNoAngle | kSmallerThanPi | kOnePi | kBiggerThanPi | kUnknownAngle.
(** TubeTypes.h:39-61; the types with one sector size each are [NonHollow] and [Hollow] of it, NonHollowTube and HollowTube
    are those of kNoAngle *)
Inductive tube_type := UniversalTube | NonHollow (a : angle_type) | Hollow (a : angle_type).
(** TubeTypes.h:149-191 *)
Definition sector_type (k : tube_type) : angle_type := match k with UniversalTube => kUnknownAngle | NonHollow a | Hollow a => a end.
(** TubeTypes.h:69-101 *)
Definition tube_phi (k : tube_type) (t : tube) : bool :=
  match sector_type k with kNoAngle => false | kUnknownAngle => rltb (tb_dphi t) (2 * PI) | _ => true end.
(** TubeTypes.h:104-144; the hollow types are kUnknown *)
Definition tube_hole (k : tube_type) (t : tube) : bool := match k with NonHollow _ => false | _ => rgtb (tb_rmin t) 0 end.

Section Kernel.
(** VecGeom/base/Math.h:41 kInfLength *)
Variable inf : R.
Variable k : tube_type.
Variable t : tube.
(** TubeImplementation.h:58-99, with onSurfaceT = false *)
Definition in_sector (include : bool) (x y : R) : bool :=
  let smaller := match sector_type k with kUnknownAngle => rleb (tb_dphi t) PI | kOnePi | kSmallerThanPi => true | _ => false end in
  let start := - x * tb_a1y t + y * tb_a1x t in
  let end_ := - tb_a2x t * y + tb_a2y t * x in
  let h := if include then - kHalfTolerance else kHalfTolerance in
  if smaller then rgeb start h && rgeb end_ h else rgeb start h || rgeb end_ h.
(** TubeImplementation.h:101-158; the distance when [ok] *)
Definition circle_hit (largest check : bool) (b c : R) (pos dir : v3) : option R :=
  let delta := b * b - c in
  let ok := rgtb delta 0 || (largest && reqb delta 0) in
  let delta := if ok then delta else 0 in
  let delta := R_sqrt.sqrt delta in
  let delta := if largest then delta else - delta in
  let dist := - b + delta in
  if negb (ok && rgeb dist (-2 * kTolerance)) then None else
  if check then
    let hitz := vz pos + dist * vz dir in
    if negb (rleb (Rabs hitz) (tb_z t)) then None else
    if tube_phi k t && negb (in_sector true (vx pos + dist * vx dir) (vy pos + dist * vy dir)) then None else Some dist
  else Some dist.
(** TubeImplementation.h:191-196 *)
Definition perp_dist (px py vx vy : R) : R := px * vy - py * vx.
(** TubeImplementation.h:201-237 with inside = false, as SafetyToIn calls it (884) *)
Definition phi_safety (p : v3) : R :=
  let safety := if match sector_type k with kUnknownAngle => rgtb (tb_dphi t) PI | kBiggerThanPi => true | _ => false end
                then R_sqrt.sqrt (vx p * vx p + vy p * vy p) else inf in
  let phi1 := perp_dist (vx p) (vy p) (tb_a1x t) (tb_a1y t) in
  match sector_type k with
  | kOnePi => if rgtb (Rabs phi1) kHalfTolerance then Rabs phi1 else safety
  | _ =>
    let safety := if rgtb phi1 (- kHalfTolerance) && rltb phi1 safety then phi1 else safety in
    let phi2 := perp_dist (vx p) (vy p) (tb_a2x t) (tb_a2y t) * -1 in
    if rgtb phi2 (- kHalfTolerance) && rltb phi2 safety then phi2 else safety
  end.
(** TubeImplementation.h:254-300; the distance when [ok] *)
Definition plane_hit (positive check : bool) (ax ay nx ny : R) (pos dir : v3) : option R :=
  let dn := vx dir * nx + vy dir * ny in
  let ok := if check then rgtb dn 0 else rltb dn 0 in
  let xy := vy dir * ax - vx dir * ay in
  let dist := (ay * vx pos - ax * vy pos) / nz xy in
  let ok := ok && rgtb (dist * Rabs dn) (- kHalfTolerance) in
  let hitx := vx pos + dist * vx dir in
  let hity := vy pos + dist * vy dir in
  let ok :=
    if check then
      let hitz := vz pos + dist * vz dir in
      let r2 := hitx * hitx + hity * hity in
      let ok := ok && (rleb (Rabs hitz) (tb_Oz t) && rgeb r2 (tb_Ormin2 t) && rleb r2 (tb_Ormax2 t)) in
      if positive then ok && rgtb (hitx * ax + hity * ay) 0 else ok
    else if positive then ok && rgeb (hitx * ax + hity * ay) 0 else ok in
  if ok then Some dist else None.
(** TubeImplementation.h:302-312 *)
Definition on_tube (inner : bool) (p : v3) : bool :=
  let rho := vx p * vx p + vy p * vy p in
  if inner then rgeb rho (tb_Ormin2 t) && rleb rho (tb_Irmin2 t) && rltb (Rabs (vz p)) (tb_z t + kTolerance)
  else rgeb rho (tb_Irmax2 t) && rleb rho (tb_Ormax2 t) && rltb (Rabs (vz p)) (tb_z t + kTolerance).
(** TubeImplementation.h:314-324 *)
Definition tube_norm (inner : bool) (p : v3) : v3 := if inner then V3 (- vx p) (- vy p) 0 else V3 (vx p) (vy p) 0.
(** TubeImplementation.h:326-332 *)
Definition moving_inside (inner : bool) (p d : v3) : bool := on_tube inner p && rleb (vdot d (tube_norm inner p)) 0.

(** TubeImplementation.h:348-404: completelyinside, completelyoutside *)
Definition tube_kernel (fi : bool) (p : v3) : bool * bool :=
  let absz := Rabs (vz p) in
  let out := rgtb absz (plus_tol fi (tb_z t) kHalfTolerance) in
  let inn := fi && rltb absz (minus_tol fi (tb_z t) kHalfTolerance) in
  if out then (inn, out) else
  let r2 := vx p * vx p + vy p * vy p in
  let out := out || rgtb r2 (plus_tol_sq fi (tb_rmax t) kTolerance) in
  let inn := inn && rltb r2 (minus_tol_sq fi (tb_rmax t) kTolerance) in
  if out then (inn, out) else
  let hole := tube_hole k t in
  let out := out || (hole && rleb r2 (minus_tol_sq fi (tb_rmin t) kTolerance)) in
  let inn := inn && (negb hole || rgtb r2 (plus_tol_sq fi (tb_rmin t) kTolerance)) in
  if out then (inn, out) else
  if tube_phi k t then
    let w := wedge_kernel (tb_wedge t) fi (vx p) (vy p) in
    (inn && fst w, out || snd w)
  else (inn, out).
(** TubeImplementation.h:406-415 *)
Definition tube_contains (p : v3) : bool := negb (snd (tube_kernel false p)).
(** TubeImplementation.h:417-428 *)
Definition tube_inside (p : v3) : inside :=
  let '(inn, out) := tube_kernel true p in if inn then kInside else if out then kOutside else kSurface.
(** TubeImplementation.h:860-889, called from 825-841 *)
Definition tube_safety_in (p : v3) : R :=
  let safety := Rabs (vz p) - tb_z t in
  let r := R_sqrt.sqrt (vx p * vx p + vy p * vy p) in
  let safermax := r - tb_rmax t in
  let safety := if rgtb safermax safety then safermax else safety in
  let safermin := tb_rmin t - r in
  let safety := if tube_hole k t && rgtb safermin safety then safermin else safety in
  if negb (tube_phi k t) then safety else
  let insector := in_sector false (vx p) (vy p) in
  if insector then safety else
  let safephi := phi_safety p in
  if rltb safephi inf && rgtb safephi safety then safephi else safety.
(** TubeImplementation.h:891-913, called from 843-858 *)
Definition tube_safety_out (p : v3) : R :=
  let safety := tb_z t - Rabs (vz p) in
  let r := R_sqrt.sqrt (vx p * vx p + vy p * vy p) in
  let safermax := tb_rmax t - r in
  let safety := if rltb safermax safety then safermax else safety in
  let safermin := r - tb_rmin t in
  let safety := if tube_hole k t && rltb safermin safety then safermin else safety in
  if negb (tube_phi k t) then safety else
  let safephi := wedge_safety_out (tb_wedge t) (vx p) (vy p) in
  if rltb safephi safety then safephi else safety.
(** Assigns a candidate when it is there and shorter: TubeImplementation.h:602, 617, 631, 703, 715, 740 and the like *)
Definition shorter (distance : R) (c : option R) : R := match c with Some d => if rltb d distance then d else distance | None => distance end.
(** TubeImplementation.h:459-636 *)
Definition tube_to_in_kernel (p d : v3) : R :=
  let distz := Rabs (vz p) - tb_z t in
  let done := rgtb distz kHalfTolerance && rgeb (vz p * vz d) 0 in
  let rsq := vx p * vx p + vy p * vy p in
  let rdotn := vx p * vx d + vy p * vy d in
  let done := done || (rgtb rsq (tb_Irmax2 t) && rgeb rdotn 0) in
  if done then inf else
  let phi := tube_phi k t in
  let hole := tube_hole k t in
  let inside := rltb distz (- kHalfTolerance) && rltb rsq (tb_Irmax2 t) && (negb hole || rgtb rsq (tb_Irmin2 t)) &&
    (negb phi || in_sector false (vx p) (vy p)) in
  if inside then -1 else
  let distz := distz / nz (Rabs (vz d)) in
  let hitx := vx p + distz * vx d in
  let hity := vy p + distz * vy d in
  let r2 := hitx * hitx + hity * hity in
  let okz := rgtb distz (- kHalfTolerance) && rltb (vz p * vz d) 0 && rleb r2 (tb_rmax2 t) && (negb hole || rleb (tb_rmin2 t) r2) &&
    (negb phi || in_sector true hitx hity) in
  if okz then distz else
  let moving := moving_inside false p d || (hole && moving_inside true p d) in
  if moving && (negb phi || in_sector true (vx p) (vy p)) then 0 else
  let invnsq := 1 / nz (1 - vz d * vz d) in
  let b := invnsq * rdotn in
  let rest :=
    let distance := if hole then shorter inf (circle_hit true true b (invnsq * (rsq - tb_rmin2 t)) p d) else inf in
    if negb phi then distance else
    let w := tb_wedge t in
    match sector_type k with
    | kOnePi => shorter distance (plane_hit false true (tb_a1x t) (tb_a1y t) (wd_n1x w) (wd_n1y w) p d)
    | _ =>
      let distance := shorter distance (plane_hit true true (tb_a1x t) (tb_a1y t) (wd_n1x w) (wd_n1y w) p d) in
      shorter distance (plane_hit true true (tb_a2x t) (tb_a2y t) (wd_n2x w) (wd_n2y w) p d)
    end in
  match circle_hit false true b (invnsq * (rsq - tb_rmax2 t)) p d with
  | Some dist => if rltb dist inf then dist else rest
  | None => rest
  end.
(** TubeImplementation.h:430-457 *)
Definition tube_to_in (p d : v3) : R :=
  let far := vmag p in
  let cond := rgtb far (100 * tb_max t) in
  let move := if cond then far - 100 * tb_max t else 0 in
  let p := if cond then vadd p (vscale move d) else p in
  tube_to_in_kernel p d + move.
(** TubeImplementation.h:638-776 *)
Definition tube_to_out (p d : v3) : R :=
  let distz := tb_z t - Rabs (vz p) in
  if rltb distz (- kHalfTolerance) then -1 else
  let rsq := vx p * vx p + vy p * vy p in
  let rdotn := vx d * vx p + vy d * vy p in
  let crmax := rsq - tb_rmax2 t in
  if rgtb crmax (2 * kTolerance * tb_rmax t) then -1 else
  let hole := tube_hole k t in
  let crmin := if hole then rsq - tb_rmin2 t else rsq in
  if hole && rltb crmin (-2 * kTolerance * tb_rmin t) then -1 else
  let phi := tube_phi k t in
  if phi && snd (wedge_kernel (tb_wedge t) true (vx p) (vy p)) then -1 else
  let invdirz := 1 / nz (vz d) in
  let distz := if rltb (vz d) 0 then (- tb_z t - vz p) * invdirz else (tb_z t - vz p) * invdirz in
  let distance := if negb (reqb (vz d) 0) && rltb distz inf then distz else inf in
  let invnsq := 1 / nz (1 - vz d * vz d) in
  let b := invnsq * rdotn in
  let distance := if hole then shorter distance (circle_hit false false b (crmin * invnsq) p d) else distance in
  let distance := shorter distance (circle_hit true false b (crmax * invnsq) p d) in
  if negb phi then distance else
  let w := tb_wedge t in
  match sector_type k with
  | kSmallerThanPi =>
    let distance := shorter distance (plane_hit false false (tb_a1x t) (tb_a1y t) (wd_n1x w) (wd_n1y w) p d) in
    shorter distance (plane_hit false false (tb_a2x t) (tb_a2y t) (wd_n2x w) (wd_n2y w) p d)
  | kOnePi => shorter distance (plane_hit false false (tb_a2x t) (tb_a2y t) (wd_n2x w) (wd_n2x w) p d)
  | _ =>
    let distance := shorter distance (plane_hit true false (tb_a1x t) (tb_a1y t) (wd_n1x w) (wd_n1y w) p d) in
    shorter distance (plane_hit true false (tb_a2x t) (tb_a2y t) (wd_n2x w) (wd_n2y w) p d)
  end.
End Kernel.

Section Normals.
(** VecGeom/base/Math.h:41 kInfLength and 43 kMinimum *)
Variables inf kmin : R.
Variable t : tube.
Definition wedge_n1 : v3 := V3 (wd_n1x (tb_wedge t)) (wd_n1y (tb_wedge t)) 0.
Definition wedge_n2 : v3 := V3 (wd_n2x (tb_wedge t)) (wd_n2y (tb_wedge t)) 0.
(** TubeImplementation.h:915-964; distances of 923 and 926 are never negative *)
Definition tube_approx_normal (p : v3) : v3 :=
  let radius := R_sqrt.sqrt (vx p * vx p + vy p * vy p) in
  let distRMax := Rabs (radius - tb_rmax t) in
  let hole := negb (reqb (tb_rmin t) 0) in
  let distRMin := if hole then Rabs (tb_rmin t - radius) else inf in
  let distMin := Rmin distRMin distRMax in
  let cut := negb (reqb (tb_dphi t) (2 * PI)) in
  let d1 := vx p * wd_n1x (tb_wedge t) + vy p * wd_n1y (tb_wedge t) in
  let d2 := vx p * wd_n2x (tb_wedge t) + vy p * wd_n2y (tb_wedge t) in
  let distPhi1 := if cut then (if rltb d1 0 then inf else d1) else inf in
  let distPhi2 := if cut then (if rltb d2 0 then inf else d2) else inf in
  let distMin := if cut then Rmin distMin (Rmin distPhi1 distPhi2) else distMin in
  let distZ := if rltb (vz p) 0 then Rabs (vz p + tb_z t) else Rabs (vz p - tb_z t) in
  let distMin := Rmin distMin distZ in
  let norm := vzero in
  let norm := if negb (reqb (tb_dphi t) 0) && reqb distMin distPhi1 then vneg wedge_n1 else norm in
  let norm := if negb (reqb (tb_dphi t) 0) && reqb distMin distPhi2 then vneg wedge_n2 else norm in
  let norm := if reqb distMin distZ && rltb (vz p) 0 then V3 0 0 (-1) else norm in
  let norm := if reqb distMin distZ && rgeb (vz p) 0 then V3 0 0 1 else norm in
  if rltb (Rabs (vz p)) (tb_z t + kTolerance) then
    let temp := V3 (vx p) (vy p) 0 in
    let norm := if reqb distMin distRMax then vunit kmin temp else norm in
    if hole && reqb distMin distRMin then vneg (vunit kmin temp) else norm
  else norm.
(** TubeImplementation.h:966-1046, as called from source/UnplacedTube.cpp:180-186; the normal and the answer *)
Definition tube_normal (p : v3) : v3 * bool :=
  let '(inn, out) := tube_kernel UniversalTube t true p in
  if inn || out then (tube_approx_normal p, false) else
  let x2y2 := R_sqrt.sqrt (vx p * vx p + vy p * vy p) in
  let inZ := rltb (vz p) (tb_z t + kTolerance) && rgtb (vz p) (- tb_z t - kTolerance) in
  let inR := rgeb x2y2 (tb_rmin t - kTolerance) && rleb x2y2 (tb_rmax t + kTolerance) in
  let add (b : bool) (n : v3) (acc : nat * v3) := if b then (Datatypes.S (fst acc), vadd (snd acc) n) else acc in
  let acc := (0%nat, vzero) in
  let acc := add (inR && rleb (Rabs (vz p - tb_z t)) kTolerance) (V3 0 0 1) acc in
  let acc := add (inR && rleb (Rabs (vz p + tb_z t)) kTolerance) (V3 0 0 (-1)) acc in
  let acc := add (rgtb (tb_rmin t) 0 && inZ && rleb (Rabs (x2y2 - tb_rmin t)) kTolerance) (V3 (- vx p * (1 / x2y2)) (- vy p * (1 / x2y2)) 0) acc in
  let acc := add (inZ && rleb (Rabs (x2y2 - tb_rmax t)) kTolerance) (V3 (vx p * (1 / x2y2)) (vy p * (1 / x2y2)) 0) acc in
  let acc := add (rltb (tb_dphi t) (2 * PI) && inR && on_surface1 (tb_wedge t) (vx p) (vy p)) (vneg wedge_n1) acc in
  let acc := add (rltb (tb_dphi t) (2 * PI) && inR && on_surface2 (tb_wedge t) (vx p) (vy p)) (vneg wedge_n2) acc in
  let n := fst acc in
  (if (1 <? n)%nat then vscale (1 / R_sqrt.sqrt (INR n)) (snd acc) else snd acc, negb (Nat.eqb n 0)).
End Normals.

Section Measures.
Variable t : tube.
(** UnplacedTube.h:84, 92 *)
Definition tube_capacity : R := tb_z t * (tb_rmax2 t - tb_rmin2 t) * tb_dphi t.
(** UnplacedTube.h:100-104, 106-111, 113-118, 120-125 *)
Definition top_area : R := 2 * (1 / 2) * (tb_rmax2 t - tb_rmin2 t) * tb_dphi t.
Definition phi_area : R := if rltb (tb_dphi t) (2 * PI) then 4 * tb_z t * (tb_rmax t - tb_rmin t) else 0.
Definition rin_area : R := 2 * tb_z t * tb_rmin t * tb_dphi t.
Definition rout_area : R := 2 * tb_z t * tb_rmax t * tb_dphi t.
(** UnplacedTube.h:94-98 *)
Definition tube_area : R := top_area + phi_area + rout_area + rin_area.
(** source/UnplacedTube.cpp:123-128 *)
Definition tube_shares : list R := [(1 / 2) * top_area; (1 / 2) * top_area; (1 / 2) * phi_area; (1 / 2) * phi_area; rin_area; rout_area].
(** source/UnplacedTube.cpp:130-141; [r] drawn from [0, 1), [pick] is the loop of 136-137 *)
Definition tube_choose (r : R) : option nat := pick (r * foldl Rplus 0 tube_shares) tube_shares.
(** source/UnplacedTube.cpp:144-178; the numbers drawn are those of ChooseSurface, then rVal, phiVal, zVal, and once more
    for the lids *)
Definition tube_sample (r ur uphi uz ur2 : R) : option v3 :=
  i ← tube_choose r;
  let rVal := tb_rmin t + (tb_rmax t - tb_rmin t) * ur in
  let phiVal := tb_sphi t + (tb_sphi t + tb_dphi t - tb_sphi t) * uphi in
  let zVal := uz * 2 * tb_z t - tb_z t in
  let disc := R_sqrt.sqrt (tb_rmin t * tb_rmin t + (tb_rmax t * tb_rmax t - tb_rmin t * tb_rmin t) * ur2) in
  let '(rVal, phiVal, zVal) :=
    match i with
    | 0%nat => (disc, phiVal, tb_z t)
    | 1%nat => (disc, phiVal, - tb_z t)
    | 2%nat => (rVal, tb_sphi t, zVal)
    | 3%nat => (rVal, tb_sphi t + tb_dphi t, zVal)
    | 4%nat => (tb_rmin t, phiVal, zVal)
    | _ => (tb_rmax t, phiVal, zVal)
    end in
  Some (V3 (rVal * cos phiVal) (rVal * sin phiVal) zVal).
(** source/UnplacedTube.cpp:200-210 *)
Definition tube_convex : bool := reqb (tb_rmin t) 0 && (rleb (tb_dphi t) PI || reqb (tb_dphi t) (2 * PI)).
(** source/UnplacedTube.cpp:213-266 *)
Definition tube_extent : v3 * v3 :=
  let lo := V3 (- tb_rmax t) (- tb_rmax t) (- tb_z t) in
  let hi := V3 (tb_rmax t) (tb_rmax t) (tb_z t) in
  if reqb (tb_dphi t) (2 * PI) then (lo, hi) else
  let Rin := (1 / 2) * (tb_rmax t + tb_rmin t) in
  let out0 := negb (wedge_contains (tb_wedge t) Rin 0) in
  let out90 := negb (wedge_contains (tb_wedge t) 0 Rin) in
  let out180 := negb (wedge_contains (tb_wedge t) (- Rin) 0) in
  let out270 := negb (wedge_contains (tb_wedge t) 0 (- Rin)) in
  if negb (out0 || out90 || out180 || out270) then (lo, hi) else
  let e := tb_sphi t + tb_dphi t in
  let Cx := tb_rmax t * cos (tb_sphi t) in let Dx := tb_rmax t * cos e in
  let Cy := tb_rmax t * sin (tb_sphi t) in let Dy := tb_rmax t * sin e in
  let hx := if out0 then Rmax Cx Dx else vx hi in
  let hy := if out90 then Rmax Cy Dy else vy hi in
  let lx := if out180 then Rmin Cx Dx else vx lo in
  let ly := if out270 then Rmin Cy Dy else vy lo in
  if rgeb (tb_dphi t) PI then (V3 lx ly (vz lo), V3 hx hy (vz hi)) else
  let Ax := tb_rmin t * cos (tb_sphi t) in let Bx := tb_rmin t * cos e in
  let Ay := tb_rmin t * sin (tb_sphi t) in let By := tb_rmin t * sin e in
  let hx := if rgtb (Rmax Ax Bx) hx then Rmax Ax Bx else hx in
  let hy := if rgtb (Rmax Ay By) hy then Rmax Ay By else hy in
  let lx := if rltb (Rmin Ax Bx) lx then Rmin Ax Bx else lx in
  let ly := if rltb (Rmin Ay By) ly then Rmin Ay By else ly in
  (V3 lx ly (vz lo), V3 hx hy (vz hi)).
End Measures.
(** source/UnplacedTube.cpp:93-118, with VECGEOM_NO_SPECIALIZATION when [generic]: the type and the arguments *)
Definition make_tube (generic : bool) (rmin rmax z sphi dphi : R) : tube_type * tube :=
  if generic then (UniversalTube, tube_struct rmin rmax z sphi dphi) else
  let h := if rleb rmin 0 then NonHollow else Hollow in
  if rgeb dphi (2 * PI) then (h kNoAngle, tube_struct rmin rmax z sphi (2 * PI))
  else if reqb dphi PI then (h kOnePi, tube_struct rmin rmax z sphi dphi)
  else if rltb dphi PI then (h kSmallerThanPi, tube_struct rmin rmax z sphi dphi)
  else (h kBiggerThanPi, tube_struct rmin rmax z sphi dphi).
