(** Elliptical cones: VecGeom/volumes/EllipticalConeStruct.h, VecGeom/volumes/kernel/EllipticalConeImplementation.h,
    VecGeom/volumes/UnplacedEllipticalCone.h, source/UnplacedEllipticalCone.cpp, VecGeom/volumes/EllipticUtilities.h.
    Scalar kernels with exact arithmetic; cos, sin and sqrt exact; NonZero is [nz] of PlanesModel.  Masks are bools, a masked
    assignment whose mask is false evaluates nothing.  Printing, placing and the CUDA parts are left out. *)
From Coq Require Import Reals Lra Lia Bool.
From stdpp Require Import base list option numbers tactics.
From Verif Require Import Real3 AABBModel BoxModel PlanesModel TetModel EllTubeModel.
Import stdpp.list.
Local Open Scope R_scope.

(** EllipticalConeStruct.h:21-40 *)
Record econe := ECone {
  ec_dx : R; ec_dy : R; ec_h : R; ec_cut : R; ec_area : R; ec_volume : R;
  ec_rsph : R; ec_ix : R; ec_iy : R; ec_cos : R; ec_apex : R }.
Section Make.
(** comp_ellint_2, the complete elliptic integral of the second kind; comp_ellint_2 of EllTubeModel is its code *)
Variable ellint : R -> R.
(** EllipticUtilities.h:80-92 *)
Definition econe_lateral (pA pB pH : R) : R :=
  let x := Rabs pA in let y := Rabs pB in let h := Rabs pH in
  let a := Rmax x y in let b := Rmin x y in
  let e := R_sqrt.sqrt (((a - b) * (a + b) * (h * h)) / ((h * h + b * b) * (a * a))) in
  2 * a * R_sqrt.sqrt (h * h + b * b) * ellint e.
(** source/UnplacedEllipticalCone.cpp:28-64, called from UnplacedEllipticalCone.h:96-103 *)
Definition mk_econe (a b h zcut : R) : econe :=
  let tol := 2 * kTolerance in
  let dx := if rltb a tol then tol else a in
  let dy := if rltb b tol then tol else b in
  let h := if rltb h tol then tol else h in
  let zcut := if rltb zcut tol then tol else zcut in
  let zcut := Rmin h zcut in
  let h1 := h - zcut in
  let h2 := h + zcut in
  let m := Rmin dx dy in
  let cosmin := m / R_sqrt.sqrt (1 + m * m) in
  ECone dx dy h zcut
    (econe_lateral dx dy 1 * (h2 + h1) * (h2 - h1) + PI * dx * dy * (h2 * h2 + h1 * h1)) (PI * dx * dy * (h2 * h2 * h2 - h1 * h1 * h1) / 3)
    (R_sqrt.sqrt (dx * h2 * (dx * h2) + dy * h2 * (dy * h2) + zcut * zcut)) (1 / dx) (1 / dy) cosmin (kHalfTolerance / cosmin).
End Make.

Section Kernels.
(** kInfLength (and kMaximum, VecGeom/base/Math.h:41-42) and kMinimum *)
Variable inf kmin : R.
Variable t : econe.
(** EllipticalConeImplementation.h:77-81, 214-219, 287-291 *)
Definition ec_hp (p : v3) : R :=
  R_sqrt.sqrt (vx p * ec_ix t * (vx p * ec_ix t) + vy p * ec_iy t * (vy p * ec_iy t)) + vz p.
Definition ec_ds (p : v3) : R := (ec_hp p - ec_h t) * ec_cos t.
(** EllipticalConeImplementation.h:82, 220, 292 *)
Definition ec_dz (p : v3) : R := Rabs (vz p) - ec_cut t.
(** EllipticalConeImplementation.h:63-88: completely inside, completely outside *)
Definition ec_kernel (p : v3) : bool * bool :=
  let safety := Rmax (ec_ds p) (ec_dz p) in (rleb safety (- kHalfTolerance), rgtb safety kHalfTolerance).
(** EllipticalConeImplementation.h:39-45 *)
Definition ec_contains (p : v3) : bool := negb (snd (ec_kernel p)).
(** EllipticalConeImplementation.h:50-61 *)
Definition ec_inside (p : v3) : inside :=
  let '(inn, out) := ec_kernel p in if inn then kInside else if out then kOutside else kSurface.
(** EllipticalConeImplementation.h:284-295 *)
Definition ec_safety_in (p : v3) : R := et_zeroed (Rmax (ec_ds p) (ec_dz p)).
(** EllipticalConeImplementation.h:298-310 *)
Definition ec_safety_out (p : v3) : R := et_zeroed (Rmin ((ec_h t - ec_hp p) * ec_cos t) (ec_cut t - Rabs (vz p))).
(** EllipticalConeImplementation.h:126, 231 *)
Definition ec_Ar (d : v3) : R := vx d * ec_ix t * (vx d * ec_ix t) + vy d * ec_iy t * (vy d * ec_iy t).
(** EllipticalConeImplementation.h:127, 232 *)
Definition ec_Br (p d : v3) : R := vx p * ec_ix t * (vx d * ec_ix t) + vy p * ec_iy t * (vy d * ec_iy t).
(** EllipticalConeImplementation.h:132-134, 237-238: whether the ray runs along the surface, and the z component used then *)
Definition ec_tiny (d : v3) : bool := rltb (Rabs (ec_Ar d - vz d * vz d)) (2 * kEpsilon * (vz d * vz d)).
Definition ec_vz (d : v3) : R := if ec_tiny d then vz d + Rabs (vz d) * (2 * kEpsilon) else vz d.
(** EllipticalConeImplementation.h:139-143, 243-247 *)
Definition ec_A (d : v3) : R := ec_Ar d - ec_vz d * ec_vz d.
Definition ec_B (p d : v3) : R := ec_Br p d - (vz p - ec_h t) * ec_vz d.
Definition ec_B0 (p d : v3) : R := ec_Br p d - (vz p - ec_h t) * vz d.
Definition ec_C (p : v3) : R := ec_Ar p - (vz p - ec_h t) * (vz p - ec_h t).
(** EllipticalConeImplementation.h:143, 157, 247-248 *)
Definition ec_D (p d : v3) : R :=
  let D := ec_B p d * ec_B p d - ec_A d * ec_C p in if rleb (ec_ds p) 0 && rltb D 0 then 0 else D.
(** EllipticalConeImplementation.h:168-172, 260-264; [b] is tested in the last assignment: B at 172, B0 at 264 *)
Definition ec_roots (p d : v3) (b : R) : R * R :=
  let tmp := - ec_B p d - rcopysign (R_sqrt.sqrt (ec_D p d)) (ec_B p d) in
  let t1 := tmp / ec_A d in
  let t2 := if reqb tmp 0 then 0 else ec_C p / tmp in
  let t2 := if ec_tiny d && negb (reqb b 0) then - ec_C p / (2 * ec_B0 p d) else t2 in
  (Rmin t1 t2, Rmax t1 t2).
(** EllipticalConeImplementation.h:196-280 *)
Definition ec_to_out (p d : v3) : R :=
  if rgtb (Rmax (ec_ds p) (ec_dz p)) kHalfTolerance then -1 else
  let A := ec_A d in
  let pz0 := vz p - ec_h t in
  if rltb (ec_D p d) 0 || (rltb (ec_D p d) (2 * kEpsilon * ec_B p d * ec_B p d) && rgeb A 0) then 0 else
  let tzout := if reqb (ec_vz d) 0 then inf else (rcopysign (ec_cut t) (ec_vz d) - vz p) / vz d in
  let '(tmin, tmax) := ec_roots p d (ec_B0 p d) in
  if (rgeb A 0 && rgeb (pz0 + ec_vz d * tmax) 0) || (rgeb pz0 0 && rgeb (ec_vz d) 0) then 0 else
  let trout := if rltb A 0 then (if rgtb (ec_vz d) 0 then tmin else inf) else tmax in
  Rmin tzout trout.
(** EllipticalConeImplementation.h:104-107 *)
Definition ec_offset (p d : v3) : R :=
  if rgtb (vdot p p) (1024 * ec_rsph t * ec_rsph t) && rltb (vdot d p) 0 then vmag p - 2 * ec_rsph t else 0.
(** EllipticalConeImplementation.h:116-192, from the moved point on *)
Definition ec_to_in_from (p d : v3) (offset : R) : R :=
  let A := ec_A d in let B := ec_B p d in
  let pz0 := vz p - ec_h t in
  let w := ec_vz d in
  let sfz := Rabs (vz p) - ec_cut t in
  let sfr := (R_sqrt.sqrt (ec_Ar p) + pz0) * ec_cos t in
  let n := if rltb (Rabs (vx p) + Rabs (vy p)) (1 / 10 * kHalfTolerance) then 1 else R_sqrt.sqrt (ec_Ar p) in
  let pzA := pz0 + ec_apex t in
  if (rgeb sfz (- kHalfTolerance) && rgeb (vz p * w) 0) || (rgeb sfr (- kHalfTolerance) && rgeb (ec_Br p d + n * w) 0) ||
     (rgtb (pz0 * ec_cos t) (- kHalfTolerance) && rleb (ec_Ar p - pzA * pzA) 0 && rgeb A 0) then inf else
  let D := ec_D p d in
  if rltb D 0 || (rltb D (2 * kEpsilon * B * B) && rgeb A 0) then inf else
  let invz := -1 / nz w in
  let dz := rcopysign (ec_cut t) invz in
  let tzin := (vz p - dz) * invz in
  let tzout := (vz p + dz) * invz in
  let '(tmin, tmax) := ec_roots p d B in
  if rgeb A 0 && rgeb (pz0 + w * tmin) 0 then inf else
  let trin := if rltb A 0 then (if rltb w 0 then tmax else - inf) else tmin in
  let trout := if rltb A 0 then (if rgtb w 0 then tmin else inf) else tmax in
  let tin := Rmax tzin trin in
  let tout := Rmin tzout trout in
  if rgeb (tout - tin) kHalfTolerance then tin + offset else inf.
(** EllipticalConeImplementation.h:91-193 *)
Definition ec_to_in (p d : v3) : R :=
  let offset := ec_offset p d in ec_to_in_from (vadd p (vscale offset d)) d offset.
(** EllipticalConeImplementation.h:313-350, called from UnplacedEllipticalCone.h:115-120: the normal and whether it is valid.
    Line 335 replaces the radius of a point on the axis by one before it is used in line 337. *)
Definition ec_normal (p : v3) : v3 * bool :=
  let dz := ec_dz p in
  let n := V3 0 0 (if rleb (Rabs dz) kHalfTolerance then rsign (vz p) else 0) in
  let nx := vx p * ec_ix t * ec_ix t in
  let ny := vy p * ec_iy t * ec_iy t in
  let nz := R_sqrt.sqrt (vx p * nx + vy p * ny) in
  let nz := if reqb (nx * nx + ny * ny) 0 then 1 else nz in
  let nside := V3 nx ny nz in
  let ds := (nz + vz p - ec_h t) * ec_cos t in
  let n := if rleb (Rabs ds) kHalfTolerance then vunit kmin (vadd n (vunit kmin nside)) else n in
  if rgtb (vdot n n) 0 then (n, true) else
  (if rgtb ds dz then vunit kmin nside else V3 (vx n) (vy n) (rsign (vz p)), false).
(** source/UnplacedEllipticalCone.cpp:67-75 *)
Definition ec_extent : v3 * v3 :=
  let x := ec_dx t * (ec_h t + ec_cut t) in let y := ec_dy t * (ec_h t + ec_cut t) in
  (V3 (- x) (- y) (- ec_cut t), V3 x y (ec_cut t)).
(** source/UnplacedEllipticalCone.cpp:94-105: [n] more rounds, [x] and [y] as left by the last one *)
Fixpoint ec_side_loop (n : nat) (aa bb hh mu_max x y : R) (u : nat -> R) : R * R * (nat -> R) :=
  match n with
  | O => (x, y, u)
  | Datatypes.S m =>
    let phi := 2 * PI * u 0%nat in
    let x := cos phi in let y := sin phi in
    let E := hh + aa * (x * x) + bb * (y * y) in
    let F := (aa - bb) * x * y in
    let G := aa * (y * y) + bb * (x * x) in
    let mu := R_sqrt.sqrt (E * G - F * F) in
    if rleb (mu_max * u 1%nat) mu then (x, y, fun i => u (2 + i)%nat) else ec_side_loop m aa bb hh mu_max x y (fun i => u (2 + i)%nat)
  end.
(** source/UnplacedEllipticalCone.cpp:77-115; [x0] and [y0] stand for the uninitialised x and y of line 93 *)
Definition ec_sample_side (x0 y0 : R) (u : nat -> R) : v3 :=
  let h := ec_h t in
  let a := ec_dx t * h in let b := ec_dy t * h in
  let Rr := Rmax a b in
  let '(x, y, u) := ec_side_loop 1000 (a * a) (b * b) (h * h) (Rr * R_sqrt.sqrt (h * h + Rr * Rr)) x0 y0 u in
  let zmin := h - ec_cut t in let zmax := h + ec_cut t in
  let zh := R_sqrt.sqrt (u 0%nat * zmax * zmax + (1 - u 0%nat) * zmin * zmin) in
  V3 (zh * ec_dx t * x) (zh * ec_dy t * y) (h - zh).
(** source/UnplacedEllipticalCone.cpp:125-141: the piece to sample: 0 the lower base, 1 the side, 2 the upper base *)
Definition ec_choose (ellint : R -> R) (r : R) : nat :=
  let x0 := ec_dx t * ec_h t in let y0 := ec_dy t * ec_h t in
  let s0 := econe_lateral ellint x0 y0 (ec_h t) in
  let kmin := 1 - ec_cut t / ec_h t in
  let kmax := 1 + ec_cut t / ec_h t in
  let szmin := PI * x0 * y0 * kmax * kmax in
  let szmax := PI * x0 * y0 * kmin * kmin in
  let sside := s0 * (kmax * kmax - kmin * kmin) in
  let select := (szmin + sside + szmax) * r in
  if rleb select szmin then 0%nat else if rleb select (szmin + sside) then 1%nat else 2%nat.
(** source/UnplacedEllipticalCone.cpp:117-168 *)
Definition ec_sample (ellint : R -> R) (x0 y0 : R) (u : nat -> R) : v3 :=
  let k := ec_choose ellint (u 0%nat) in
  let u := fun i => u (1 + i)%nat in
  let h := ec_h t in
  match k with
  | O => let zh := h + ec_cut t in let q := random_in_ellipse (zh * ec_dx t) (zh * ec_dy t) u in V3 (fst q) (snd q) (- ec_cut t)
  | Datatypes.S O => ec_sample_side x0 y0 u
  | _ => let zh := h - ec_cut t in let q := random_in_ellipse (zh * ec_dx t) (zh * ec_dy t) u in V3 (fst q) (snd q) (ec_cut t)
  end.
(** source/UnplacedEllipticalCone.cpp:215-221: vertex i of the upper or the lower row of the mesh with n segments *)
Definition ec_vertex (n i : nat) (up : bool) : v3 :=
  let phi := 2 * INR i * PI / INR n in
  let z := if up then ec_cut t else - ec_cut t in
  V3 ((ec_h t - z) * ec_dx t * cos phi) ((ec_h t - z) * ec_dy t * sin phi) z.
End Kernels.
