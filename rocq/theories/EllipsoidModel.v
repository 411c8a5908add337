(** Ellipsoids with cuts in z: VecGeom/volumes/EllipsoidStruct.h, VecGeom/volumes/kernel/EllipsoidImplementation.h,
    VecGeom/volumes/UnplacedEllipsoid.h, source/UnplacedEllipsoid.cpp.
    Scalar kernels with exact arithmetic; cos, sin and sqrt exact; NonZero is [nz] of PlanesModel.  Masks are bools, a masked
    assignment whose mask is false evaluates nothing (EllipsoidImplementation.h:102-103 sets [offset] inside one).
    The default constructor, which leaves the struct unset, printing, placing and the CUDA parts are left out. *)
From Coq Require Import Reals Lra Lia Bool.
From stdpp Require Import base list option numbers tactics.
From Verif Require Import Real3 AABBModel BoxModel PlanesModel TetModel EllTubeModel.
Import stdpp.list.
Local Open Scope R_scope.

(** EllipsoidStruct.h:18-50 *)
Record ellipsoid := Ellipsoid {
  es_dx : R; es_dy : R; es_dz : R; es_zb : R; es_zt : R; es_area : R; es_volume : R; es_xmax : R; es_ymax : R;
  es_rsph : R; es_r : R; es_sx : R; es_sy : R; es_sz : R; es_scb : R; es_sct : R; es_mid : R; es_dim : R; es_q1 : R; es_q2 : R }.
(** source/UnplacedEllipsoid.cpp:42-50: the semi-axes; line 44 compares fDy twice and fDz never *)
Definition es_axes (dx dy dz : R) : R * R * R :=
  let tol := 2 * kTolerance in
  if rltb dx tol || rltb dy tol || rltb dy tol then (tol, tol, tol) else (dx, dy, dz).
(** source/UnplacedEllipsoid.cpp:55-69: the cuts *)
Definition es_cuts (C zb zt : R) : R * R :=
  let '(zb, zt) := if reqb zb 0 && reqb zt 0 then (- C, C) else (zb, zt) in
  let '(zb, zt) := if rgeb zb C || rleb zt (- C) || rgeb zb zt then (- C, C) else (zb, zt) in
  (Rmax zb (- C), Rmin zt C).
(** source/UnplacedEllipsoid.cpp:128-136: the array rho, for [nz] slices *)
Definition es_rho (nz : nat) (C zb zt : R) (iz : nat) : R :=
  let zbot := zb / C in let ztop := zt / C in
  let dz := (ztop - zbot) / INR nz in
  let z := if Nat.ltb iz nz then zbot + INR iz * dz else ztop in
  R_sqrt.sqrt ((1 + z) * (1 - z)).
(** source/UnplacedEllipsoid.cpp:151-160: the area of one facet *)
Definition es_facet (nphi nz : nat) (A B C zb zt : R) (iphi iz : nat) : R :=
  let dz := (zt - zb) / INR nz in
  let dphi := PI / 2 / INR nphi in
  let phi1 := INR iphi * dphi in
  let phi2 := if Nat.eqb iphi (nphi - 1) then PI / 2 else phi1 + dphi in
  let cos1 := cos phi1 * A in let cos2 := cos phi2 * A in
  let sin1 := sin phi1 * B in let sin2 := sin phi2 * B in
  let z1 := zb + INR iz * dz in
  let z2 := if Nat.eqb iz (nz - 1) then zt else z1 + dz in
  let rho1 := es_rho nz C zb zt iz in
  let rho2 := es_rho nz C zb zt (iz + 1) in
  let p1 := V3 (rho1 * cos1) (rho1 * sin1) z1 in
  let p2 := V3 (rho1 * cos2) (rho1 * sin2) z1 in
  let p3 := V3 (rho2 * cos1) (rho2 * sin1) z2 in
  let p4 := V3 (rho2 * cos2) (rho2 * sin2) z2 in
  vmag (vcross (vsub p4 p1) (vsub p3 p2)).
(** Sums in loop order *)
Definition rsum (l : list R) : R := fold_left Rplus l 0.
(** source/UnplacedEllipsoid.cpp:122-164, with 100 and 200 for [nphi] and [nz] *)
Definition es_lateral_area (nphi nz : nat) (A B C zb zt : R) : R :=
  2 * rsum (List.concat (List.map (fun iphi => List.map (es_facet nphi nz A B C zb zt iphi) (seq 0 nz)) (seq 0 nphi))).
(** source/UnplacedEllipsoid.cpp:39-119 *)
Definition es_check (dx dy dz zb zt : R) : ellipsoid :=
  let '(A, B, C) := es_axes dx dy dz in
  let '(zb, zt) := es_cuts C zb zt in
  let piAB := PI * A * B in
  let piAB_3 := piAB / 3 in
  let vol := 4 * piAB_3 * C in
  let area := es_lateral_area 100 200 A B C zb zt in
  let hbot := 1 + zb / C in
  let '(vol, area) := if rgtb zb (- C) then (vol - piAB_3 * hbot * hbot * (2 * C - zb), area + piAB * hbot * (2 - hbot)) else (vol, area) in
  let htop := 1 - zt / C in
  let '(vol, area) := if rltb zt C then (vol - piAB_3 * htop * htop * (2 * C + zt), area + piAB * htop * (2 - htop)) else (vol, area) in
  let scale z := R_sqrt.sqrt ((1 - z / C) * (1 + z / C)) in
  let s := if rgtb zb 0 then scale zb else 1 in
  let s := if rltb zt 0 then scale zt else s in
  let Rr := Rmin A (Rmin B C) in
  let sz := Rr / C in
  Ellipsoid A B C zb zt area vol (A * s) (B * s) (Rmax A (Rmax B C)) Rr (Rr / A) (Rr / B) sz (zb * sz) (zt * sz)
    (1 / 2 * (zt * sz + zb * sz)) (1 / 2 * (zt * sz - zb * sz)) (1 / 2 / Rr) (1 / 2 * (Rr + kHalfTolerance * kHalfTolerance / Rr)).
(** source/UnplacedEllipsoid.cpp:26-37 (the bounding box is left to ExtentModel) *)
Definition mk_ellipsoid (dx dy dz zb zt : R) : ellipsoid := es_check dx dy dz zb zt.
(** UnplacedEllipsoid.h:99-105 *)
Definition es_set_axes (t : ellipsoid) (dx dy dz : R) : ellipsoid := es_check dx dy dz (es_zb t) (es_zt t).
(** UnplacedEllipsoid.h:112-117 *)
Definition es_set_cuts (t : ellipsoid) (zb zt : R) : ellipsoid := es_check (es_dx t) (es_dy t) (es_dz t) zb zt.

Section Kernels.
(** kInfLength (and kMaximum, VecGeom/base/Math.h:41) and kMinimum *)
Variable inf kmin : R.
Variable t : ellipsoid.
(** EllipsoidImplementation.h:76-78: the point scaled to the sphere *)
Definition es_scaled (p : v3) : v3 := V3 (vx p * es_sx t) (vy p * es_sy t) (vz p * es_sz t).
(** EllipsoidImplementation.h:79 *)
Definition es_distZ (p : v3) : R := Rabs (vz (es_scaled p) - es_mid t) - es_dim t.
(** EllipsoidImplementation.h:80 *)
Definition es_distR (p : v3) : R := es_q1 t * vdot (es_scaled p) (es_scaled p) - es_q2 t.
(** EllipsoidImplementation.h:62-86: completely inside, completely outside *)
Definition es_kernel (p : v3) : bool * bool :=
  let safety := Rmax (es_distZ p) (es_distR p) in (rleb safety (- kHalfTolerance), rgtb safety kHalfTolerance).
(** EllipsoidImplementation.h:38-45 *)
Definition es_contains (p : v3) : bool := negb (snd (es_kernel p)).
(** EllipsoidImplementation.h:49-60: kInside is assigned last *)
Definition es_inside (p : v3) : inside :=
  let '(inn, out) := es_kernel p in if inn then kInside else if out then kOutside else kSurface.
(** EllipsoidImplementation.h:101-103: the moved point and the offset *)
Definition es_move (p d : v3) : v3 * R :=
  if rgtb (vdot p p) (1024 * es_rsph t * es_rsph t) && rltb (vdot d p) 0 then
    let offset := vmag p - 2 * es_rsph t in (vadd p (vscale offset d), offset)
  else (p, 0).
(** EllipsoidImplementation.h:105-149, from the moved point on *)
Definition es_to_in_from (pc d : v3) (offset : R) : R :=
  let s := es_scaled pc in let w := es_scaled d in
  let pzcut := vz s - es_mid t in
  let dzcut := es_dim t in
  let distZ := Rabs pzcut - dzcut in
  let rr := vdot s s in let vv := vdot w w in let pv := vdot s w in
  let distR := es_q1 t * rr - es_q2 t in
  let leaving := (rgeb distZ (- kHalfTolerance) && rgeb (pzcut * vz w) 0) || (rgeb distR (- kHalfTolerance) && rgeb pv 0) in
  let invz := -1 / nz (vz w) in
  let dz := rcopysign dzcut invz in
  let tzmin := (pzcut - dz) * invz in
  let tzmax := (pzcut + dz) * invz in
  let A := vv in let B := pv in let C := rr - es_r t * es_r t in
  let D := B * B - A * C in
  let sqrtD := R_sqrt.sqrt (Rabs D) in
  let trmin := (- B - sqrtD) / A in
  let trmax := (- B + sqrtD) / A in
  let tmin := Rmax tzmin trmin in
  let tmax := Rmin tzmax trmax in
  let EPS := 2 * rr * vv * kEpsilon in
  let done := leaving || rleb D EPS || rleb (tmax - tmin) kHalfTolerance in
  if done then inf else tmin + offset.
(** EllipsoidImplementation.h:88-150 *)
Definition es_to_in (p d : v3) : R := let '(pc, offset) := es_move p d in es_to_in_from pc d offset.
(** EllipsoidImplementation.h:152-200 *)
Definition es_to_out (p d : v3) : R :=
  let s := es_scaled p in let w := es_scaled d in
  let pzcut := vz s - es_mid t in
  let dzcut := es_dim t in
  let distZ := Rabs pzcut - dzcut in
  let rr := vdot s s in let vv := vdot w w in let pv := vdot s w in
  let distR := es_q1 t * rr - es_q2 t in
  let outside := rgtb (Rmax distR distZ) kHalfTolerance in
  let tzmax := if negb (reqb (vz w) 0) then (rcopysign dzcut (vz w) - pzcut) / vz w else inf in
  let B := pv / vv in
  let C := (rr - es_r t * es_r t) / vv in
  let D := B * B - C in
  let sqrtD := R_sqrt.sqrt (Rabs D) in
  let trmax := - B + sqrtD in
  let EPS := 2 * rr * vv * kEpsilon in
  if outside then -1 else if rleb D EPS then 0 else Rmin tzmax trmax.
(** EllipsoidImplementation.h:202-221 *)
Definition es_safety_in (p : v3) : R :=
  let s := es_scaled p in
  let safeZ := Rabs (vz s - es_mid t) - es_dim t in
  let safeR := vmag s - es_r t in
  let safety := et_zeroed (Rmax safeZ safeR) in
  let distZ := Rmax (vz p - es_zt t) (es_zb t - vz p) in
  let distXY := Rmax (Rabs (vx p) - es_xmax t) (Rabs (vy p) - es_ymax t) in
  if rgtb safety 0 then Rmax safety (Rmax distZ distXY) else safety.
(** EllipsoidImplementation.h:223-239 *)
Definition es_safety_out (p : v3) : R :=
  let s := es_scaled p in
  let safeR := es_r t - vmag s in
  let safeZ := es_dim t - Rabs (vz s - es_mid t) in
  let safety := et_zeroed (Rmin safeZ safeR) in
  let distZ := Rmin (es_zt t - vz p) (vz p - es_zb t) in
  if rgtb safety 0 then Rmin safeR distZ else safety.
(** EllipsoidImplementation.h:266-267 and 284-285 *)
Definition es_side_normal (p : v3) : v3 :=
  vunit kmin (V3 (vx p / (es_dx t * es_dx t)) (vy p / (es_dy t * es_dy t)) (vz p / (es_dz t * es_dz t))).
(** EllipsoidImplementation.h:241-287: the normal and whether it is valid; UnplacedEllipsoid.h:129-134 *)
Definition es_normal (p : v3) : v3 * bool :=
  let z := vz (es_scaled p) in
  let n0 := if rleb (Rabs (es_distR p)) kHalfTolerance then es_side_normal p else vzero in
  let n1 := if rleb (Rabs (es_distZ p)) kHalfTolerance then V3 (vx n0) (vy n0) (vz n0 + rsign (z - es_mid t)) else n0 in
  let n2 := if rgtb (vdot n1 n1) 1 then vunit kmin n1 else n1 in
  if rgtb (vdot n2 n2) 0 then (n2, true)
  else
    let n3 := V3 (vx n2) (vy n2) (rsign (z - es_mid t)) in
    let mag2 := vdot (es_scaled p) (es_scaled p) in
    let distR := R_sqrt.sqrt mag2 - es_r t in
    (if rgtb distR (es_distZ p) && rgtb mag2 0 then es_side_normal p else n3, false).
(** source/UnplacedEllipsoid.cpp:166-171 *)
Definition es_extent : v3 * v3 := (V3 (- es_xmax t) (- es_ymax t) (es_zb t), V3 (es_xmax t) (es_ymax t) (es_zt t)).
(** UnplacedEllipsoid.h:122 *)
Definition es_capacity : R := es_volume t.
(** UnplacedEllipsoid.h:124 *)
Definition es_surface_area : R := es_area t.
(** source/UnplacedEllipsoid.cpp:182-193: which piece, from the first random number *)
Definition es_choose (r : R) : nat :=
  let Hbot := 1 + es_zb t / es_dz t in
  let Htop := 1 - es_zt t / es_dz t in
  let piAB := PI * es_dx t * es_dy t in
  let Sbot := piAB * Hbot * (2 - Hbot) in
  let Stop := piAB * Htop * (2 - Htop) in
  let select := es_surface_area * r in
  let k := if rgtb select Sbot then 1%nat else 0%nat in
  if rgtb select (es_surface_area - Stop) then 2%nat else k.
(** source/UnplacedEllipsoid.cpp:209-222: [n] more rounds, [q] as left by the last one; [u] is the stream of random numbers still to come *)
Fixpoint es_side_loop (n : nat) (A B C zb zt mu_max : R) (q : v3) (u : nat -> R) : v3 :=
  match n with
  | O => q
  | Datatypes.S m =>
    let z := (zb + (zt - zb) * u 0%nat) / C in
    let rho := R_sqrt.sqrt ((1 + z) * (1 - z)) in
    let phi := 2 * PI * u 1%nat in
    let x := rho * cos phi in let y := rho * sin phi in
    let xbc := x * B * C in let yac := y * A * C in let zab := z * A * B in
    let mu := R_sqrt.sqrt (xbc * xbc + yac * yac + zab * zab) in
    if rleb (mu_max * u 2%nat) mu then V3 x y z else es_side_loop m A B C zb zt mu_max (V3 x y z) (fun i => u (3 + i)%nat)
  end.
(** source/UnplacedEllipsoid.cpp:173-235; [u] feeds the pickers, [q0] stands for the uninitialised x, y and z of line 207 *)
Definition es_sample (r : R) (q0 : v3) (u : nat -> R) : v3 :=
  let A := es_dx t in let B := es_dy t in let C := es_dz t in
  let Hbot := 1 + es_zb t / C in
  let Htop := 1 - es_zt t / C in
  match es_choose r with
  | 0%nat => let scale := R_sqrt.sqrt (Hbot * (2 - Hbot)) in
             let q := random_in_ellipse (A * scale) (B * scale) u in V3 (fst q) (snd q) (es_zb t)
  | 1%nat => let mu_max := Rmax (Rmax (A * B) (A * C)) (B * C) in
             let q := es_side_loop 1000 A B C (es_zb t) (es_zt t) mu_max q0 u in V3 (A * vx q) (B * vy q) (C * vz q)
  | _ => let scale := R_sqrt.sqrt (Htop * (2 - Htop)) in
         let q := random_in_ellipse (A * scale) (B * scale) u in V3 (fst q) (snd q) (es_zt t)
  end.
(** source/UnplacedEllipsoid.cpp:281-293: the vertices before the transformation, for [n] segments; the angles are added up in loops *)
Definition es_vertices (n : nat) : list v3 :=
  let phi_step := 2 * PI / INR n in
  let theta0 := (es_dz t - es_zt t) * PI / (2 * es_dz t) in
  let theta_step := (es_zt t - es_zb t) / (2 * es_dz t) * PI / INR n in
  List.concat (List.map (fun i =>
    let theta := theta0 + INR i * theta_step in
    List.map (fun j => let phi := INR j * phi_step in
      V3 (es_dx t * sin theta * cos phi) (es_dy t * sin theta * sin phi) (es_dz t * cos theta)) (seq 0 (n + 1))) (seq 0 (n + 1))).
(** source/UnplacedEllipsoid.cpp:298-323: the polygons; in row j the first index is k = j * (n + 1) *)
Definition es_polygons (n : nat) : list (list nat) :=
  List.concat (List.map (fun j => List.map (fun i =>
    let k := (j * (n + 1) + i)%nat in let l := (k + n + 1)%nat in [(l + 1)%nat; (k + 1)%nat; k; l]) (seq 0 n)) (seq 0 n)) ++
  (if reqb (es_zt t) (es_dz t) then [] else [seq 0 n]) ++
  (if reqb (es_zb t) (- es_dz t) then [] else [List.map (fun i => ((n + 1) * (n + 1) - i - 1)%nat) (seq 0 n)]).
End Kernels.
