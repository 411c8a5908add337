(** Model of the scalar cone kernels used by cones and polycones: VecGeom/volumes/ConeStruct.h,
    VecGeom/volumes/ConeUtilities.h, VecGeom/volumes/kernel/ConeImplementation.h.  Arithmetic is exact and [Precision] is
    double.  The phi section is kept abstract: [wedge_ops] holds what the kernels ask of it, as functions of x and y (the
    wedge code never looks at z).  The ray distances of the cone are not modelled here. *)
From Coq Require Import Reals Bool.
From Verif Require Import Real3 AABBModel BoxModel.
Local Open Scope R_scope.

(* VecGeom/base/Math.h:31 *)
Definition kConeTolerance : R := / 10000000.
(** What the cone kernels ask of the phi section: Wedge_Evolution.h GenericKernelForContainsAndInside (called in
    ConeUtilities.h:808-809), SafetyToIn and SafetyToOut (called in ConeImplementation.h:399 and 466), and
    ConeUtilities.h:67-111 PointInCyclicalSector with onSurfaceT = includeSurface = false *)
Record wedge_ops := WedgeOps {
  w_kernel : bool -> R -> R -> bool * bool;
  w_sector : R -> R -> bool;
  w_safety_in : R -> R -> R;
  w_safety_out : R -> R -> R
}.
(** ConeStruct.h:23-29 fRmin1 .. fDPhi, ConeStruct.h:82-83 fOriginalRmax1 and 2, ConeStruct.h:36-39 the arguments as given
    and ConeStruct.h:41 fPhiWedge; the other members are functions of these, see below *)
Record cone := Cone {
  k_rmin1 : R; k_rmax1 : R; k_rmin2 : R; k_rmax2 : R; k_dz : R; k_dphi : R;
  k_orig1 : R; k_orig2 : R;
  k_raw_rmin1 : R; k_raw_rmin2 : R; k_raw_rmax1 : R; k_raw_rmax2 : R;
  k_wedge : wedge_ops
}.
(** ConeTypes.h:75-96 and 110-139 NeedsPhiTreatment, NeedsRminTreatment; the six types with a phi section fall in two
    groups that the kernels treat alike *)
Inductive cone_type := UniversalCone | NonHollowCone | NonHollowSector | HollowCone | HollowSector.
(* ConeTypes.h:101-107 *)
Definition needs_phi (t : cone_type) (c : cone) : bool :=
  match t with
  | UniversalCone => rltb (k_dphi c) (2 * PI)
  | NonHollowCone | HollowCone => false
  | NonHollowSector | HollowSector => true
  end.
(* ConeTypes.h:144-151 *)
Definition needs_rmin (t : cone_type) (c : cone) : bool :=
  match t with
  | UniversalCone => rgtb (k_rmin1 c) 0 || rgtb (k_rmin2 c) 0
  | NonHollowCone | NonHollowSector => false
  | HollowCone | HollowSector => true
  end.
(** ConeStruct.h:334-354 as run by the constructor: fDPhi was initialised with the argument; kAngTolerance is
    VecGeom/base/Math.h:30 *)
Definition checked_dphi (dphi : R) : R := if rgeb dphi (2 * PI - 5 / 10 * / 1000000000) then 2 * PI else dphi.
(** ConeStruct.h:414-426 with CalculateCached 95-104; the start angle only enters through [w] *)
Definition mk_cone (rmin1 rmax1 rmin2 rmax2 dz dphi : R) (w : wedge_ops) : cone :=
  let m1 := if rltb rmin1 0 then 0 else rmin1 in
  let m2 := if rltb rmin2 0 then 0 else rmin2 in
  Cone m1 (if reqb m1 rmax1 then rmax1 + kConeTolerance else rmax1) m2
       (if reqb m2 rmax2 then rmax2 + kConeTolerance else rmax2) dz (checked_dphi dphi) rmax1 rmax2
       rmin1 rmin2 rmax1 rmax2 w.
(* ConeStruct.h:112-118 *)
Definition tan_rmin (c : cone) : R := (k_rmin2 c - k_rmin1 c) * (5 / 10) / k_dz c.
Definition sec_rmin (c : cone) : R := sqrt (1 + tan_rmin c * tan_rmin c).
Definition inv_sec_rmin (c : cone) : R := 1 / nonzero (sec_rmin c).
Definition tan_rmax (c : cone) : R := (k_rmax2 c - k_rmax1 c) * (5 / 10) / k_dz c.
Definition sec_rmax (c : cone) : R := sqrt (1 + tan_rmax c * tan_rmax c).
Definition inv_sec_rmax (c : cone) : R := 1 / nonzero (sec_rmax c).
(* ConeStruct.h:121-126 *)
Definition inner_slope (c : cone) : R := - (k_rmin1 c - k_rmin2 c) / (2 * k_dz c).
Definition outer_slope (c : cone) : R := - (k_rmax1 c - k_rmax2 c) / (2 * k_dz c).
Definition inner_offset (c : cone) : R := k_rmin2 c - inner_slope c * k_dz c.
Definition outer_offset (c : cone) : R := k_rmax2 c - outer_slope c * k_dz c.
Definition inner_tol (c : cone) : R := kConeTolerance * sec_rmin c.
Definition outer_tol (c : cone) : R := kConeTolerance * sec_rmax c.
(* ConeStruct.h:86-90 *)
Definition cone_capacity (c : cone) : R :=
  (k_dz c * k_dphi c / 3) *
  (k_rmax1 c * k_rmax1 c + k_rmax2 c * k_rmax2 c + k_rmax1 c * k_rmax2 c
   - k_rmin1 c * k_rmin1 c - k_rmin2 c * k_rmin2 c - k_rmin1 c * k_rmin2 c).

(* VecGeom/volumes/kernel/GenericKernels.h:26-29, 34-37, 65-70 and 76-82 *)
Definition plus_tol (tol : bool) (x h : R) : R := if tol then x + h else x.
Definition minus_tol (tol : bool) (x h : R) : R := if tol then x - h else x.
Definition plus_tol_sq (tol : bool) (x h : R) : R := if tol then x * (x + 2 * h) else x * x.
Definition minus_tol_sq (tol : bool) (x h : R) : R := if tol then Rabs (x * (x - 2 * h)) else x * x.

Definition perp2 (p : v3) : R := vx p * vx p + vy p * vy p.
(** ConeUtilities.h:767-813: completelyinside, completelyoutside.  With ForInside = false the first one is left as the
    caller initialised it, to false. *)
Definition cone_kernel (t : cone_type) (fi : bool) (c : cone) (p : v3) : bool * bool :=
  let absz := Rabs (vz p) in
  let out := rgtb absz (plus_tol fi (k_dz c) kConeTolerance) in
  let inn := fi && rltb absz (minus_tol fi (k_dz c) kConeTolerance) in
  if out then (inn, out) else
  let r2 := perp2 p in
  let rmax := if reqb (k_orig1 c) (k_orig2 c) then k_orig1 c else outer_slope c * vz p + outer_offset c in
  let out := out || rgtb r2 (plus_tol_sq fi rmax (outer_tol c)) in
  let inn := inn && rltb r2 (minus_tol_sq fi rmax (outer_tol c)) in
  if out then (inn, out) else
  let rmin := inner_slope c * vz p + inner_offset c in
  let nr := needs_rmin t c in
  let out := out || (nr && rleb r2 (minus_tol_sq fi rmin (inner_tol c))) in
  let inn := inn && (negb nr || rgtb r2 (plus_tol_sq fi rmin (inner_tol c))) in
  if out then (inn, out) else
  if needs_phi t c then
    let w := w_kernel (k_wedge c) fi (vx p) (vy p) in
    (inn && fst w, out || snd w)
  else (inn, out).
(* ConeUtilities.h:818-825 *)
Definition cone_inside (t : cone_type) (c : cone) (p : v3) : inside :=
  let '(inn, out) := cone_kernel t true c p in
  if inn then kInside else if out then kOutside else kSurface.
(* ConeImplementation.h:77-86 *)
Definition cone_contains (t : cone_type) (c : cone) (p : v3) : bool := negb (snd (cone_kernel t false c p)).

(* ConeUtilities.h:119-136 *)
Definition radius_at (inner : bool) (c : cone) (z : R) : R :=
  if inner then (if reqb (k_rmin1 c) (k_rmin2 c) then k_rmin1 c else inner_slope c * z + inner_offset c)
  else (if reqb (k_orig1 c) (k_orig2 c) then k_orig1 c else outer_slope c * z + outer_offset c).
(* ConeImplementation.h:473-486 *)
Definition to_conical (inner : bool) (c : cone) (p : v3) : R :=
  let rho := sqrt (perp2 p) in
  if inner then (rho - (tan_rmin c * vz p + (k_rmin1 c + k_rmin2 c) * (5 / 10))) * inv_sec_rmin c
  else ((tan_rmax c * vz p + (k_rmax1 c + k_rmax2 c) * (5 / 10)) - rho) * inv_sec_rmax c.
(* ConeImplementation.h:403 and 469 *)
Definition flush (s : R) : R := if rltb (Rabs s) kTolerance then 0 else s.
(** ConeImplementation.h:342-404; the inner surface counts as -kInfLength when it is not looked at (391) *)
Definition cone_safety_in (t : cone_type) (c : cone) (p : v3) : R :=
  let distz := Rabs (vz p) - k_dz c in
  let rsq := perp2 p in
  let ins := rltb distz (- kConeTolerance) && rltb rsq (minus_tol_sq true (radius_at false c (vz p)) (outer_tol c))
             && (negb (needs_rmin t c) || rgtb rsq (plus_tol_sq true (radius_at true c (vz p)) (inner_tol c)))
             && (negb (needs_phi t c) || w_sector (k_wedge c) (vx p) (vy p)) in
  if ins then -1 else
  let lateral := if needs_rmin t c then Rmax (- to_conical false c p) (- to_conical true c p) else - to_conical false c p in
  let s := Rmax distz lateral in
  flush (if needs_phi t c then Rmax (w_safety_in (k_wedge c) (vx p) (vy p)) s else s).
(** ConeImplementation.h:407-470; the inner surface counts as kInfLength when it is not looked at (458).  The sector test of
    437-442 is only made when the point is already outside. *)
Definition cone_safety_out (t : cone_type) (c : cone) (p : v3) : R :=
  let distz := Rabs (vz p) - k_dz c in
  let rsq := perp2 p in
  let out := rgtb distz kConeTolerance || rgtb rsq (plus_tol_sq true (radius_at false c (vz p)) (outer_tol c))
             || (needs_rmin t c && rltb rsq (minus_tol_sq true (radius_at true c (vz p)) (inner_tol c))) in
  if out then -1 else
  let lateral := if needs_rmin t c then Rmin (to_conical false c p) (to_conical true c p) else to_conical false c p in
  let s := Rmin (k_dz c - Rabs (vz p)) lateral in
  flush (if needs_phi t c then Rmin (w_safety_out (k_wedge c) (vx p) (vy p)) s else s).
