(** Elliptical tubes: VecGeom/volumes/EllipticalTubeStruct.h, VecGeom/volumes/kernel/EllipticalTubeImplementation.h,
    VecGeom/volumes/UnplacedEllipticalTube.h, source/UnplacedEllipticalTube.cpp, VecGeom/volumes/EllipticUtilities.h.
    Scalar kernels with exact arithmetic; cos, sin and sqrt exact; NonZero is [nz] of PlanesModel.  Masks are bools, a masked
    assignment whose mask is false evaluates nothing (EllipticalTubeImplementation.h:101-102 sets [offset] inside one).
    Printing, placing and the CUDA parts are left out. *)
From Coq Require Import Reals Lra Lia Bool.
From stdpp Require Import base list option numbers tactics.
From Verif Require Import Real3 AABBModel BoxModel PlanesModel TetModel.
Import stdpp.list.
Local Open Scope R_scope.

(** EllipticUtilities.h:45-52: the loop of comp_ellint_2 with the state x, y, S ([s]), M; [None] when [fuel] rounds are not enough *)
Fixpoint ellint_loop (fuel : nat) (x y s M : R) : option (R * R * R) :=
  if rgtb (x - y) (/ 134217728 * y) then
    match fuel with
    | O => None
    | Datatypes.S f =>
      let x' := (x + y) * (1 / 2) in
      let y' := R_sqrt.sqrt (x * y) in
      let M' := M + M in
      ellint_loop f x' y' (s + M' * (x' - y') * (x' - y')) M'
    end
  else Some (x, y, s).
(** EllipticUtilities.h:28-54 *)
Definition comp_ellint_2 (fuel : nat) (e : R) : option R :=
  let a := 1 in
  let b := R_sqrt.sqrt ((1 - e) * (1 + e)) in
  if reqb b 1 then Some (PI / 2) else if reqb b 0 then Some 1 else
  match ellint_loop fuel 1 b 0 1 with
  | Some (x, y, s) => Some (1 / 2 * (PI / 2) * ((a + b) * (a + b) - s) / (x + y))
  | None => None
  end.
(** EllipticUtilities.h:62-71 *)
Definition ellipse_perimeter (fuel : nat) (A B : R) : option R :=
  let dx := Rabs A in let dy := Rabs B in
  let a := Rmax dx dy in let b := Rmin dx dy in
  let b_a := b / a in
  let e := R_sqrt.sqrt ((1 - b_a) * (1 + b_a)) in
  match comp_ellint_2 fuel e with Some E => Some (4 * a * E) | None => None end.
(** EllipticUtilities.h:104-109: [n] more rounds; [u] is the stream of random numbers still to come *)
Fixpoint in_ellipse_loop (n : nat) (a b aa bb : R) (u : nat -> R) : R * R :=
  match n with
  | O => (0, 0)
  | Datatypes.S m =>
    let x := a * (2 * u 0%nat - 1) in let y := b * (2 * u 1%nat - 1) in
    if rleb (x * x * aa + y * y * bb) 1 then (x, y) else in_ellipse_loop m a b aa bb (fun i => u (2 + i)%nat)
  end.
(** EllipticUtilities.h:100-110 *)
Definition random_in_ellipse (a b : R) (u : nat -> R) : R * R :=
  let aa := if reqb (a * a) 0 then 0 else 1 / (a * a) in
  let bb := if reqb (b * b) 0 then 0 else 1 / (b * b) in
  in_ellipse_loop 1000 a b aa bb u.
(** EllipticUtilities.h:125-133: [n] more rounds, [x] and [y] as left by the last one *)
Fixpoint on_ellipse_loop (n : nat) (A B mu_max x y : R) (u : nat -> R) : R * R :=
  match n with
  | O => (x, y)
  | Datatypes.S m =>
    let phi := 2 * PI * u 0%nat in
    let x := cos phi in let y := sin phi in
    let Bx := B * x in let Ay := A * y in
    let mu := R_sqrt.sqrt (Bx * Bx + Ay * Ay) in
    if rleb (mu_max * u 1%nat) mu then (x, y) else on_ellipse_loop m A B mu_max x y (fun i => u (2 + i)%nat)
  end.
(** EllipticUtilities.h:118-135; [x0] and [y0] stand for the uninitialised x and y of line 124 *)
Definition random_on_ellipse (a b x0 y0 : R) (u : nat -> R) : R * R :=
  let A := Rabs a in let B := Rabs b in
  let mu_max := Rmax A B in
  let '(x, y) := on_ellipse_loop 1000 A B mu_max x0 y0 u in
  (A * x, B * y).

(** EllipticalTubeStruct.h:20-42 *)
Record elltube := EllTube {
  et_dx : R; et_dy : R; et_dz : R; et_area : R; et_volume : R;
  et_rsph : R; et_ddx : R; et_ddy : R; et_sx : R; et_sy : R; et_r : R; et_q1 : R; et_q2 : R; et_scratch : R }.
Section Perimeter.
(** EllipsePerimeter, as the kernels see it *)
Variable perimeter : R -> R -> R.
(** source/UnplacedEllipticalTube.cpp:28-61: line 31 compares fDy twice and fDz never *)
Definition check_parameters (dx dy dz : R) : elltube :=
  let tol := 2 * kTolerance in
  let bad := rltb dx tol || rltb dy tol || rltb dy tol in
  let X := if bad then tol else dx in
  let Y := if bad then tol else dy in
  let Z := if bad then tol else dz in
  let Rr := Rmin X Y in
  EllTube X Y Z (2 * (PI * X * Y + perimeter X Y * Z)) (2 * PI * X * Y * Z)
    (R_sqrt.sqrt (X * X + Y * Y + Z * Z)) (X * X) (Y * Y) (Rr / X) (Rr / Y) Rr
    (1 / 2 / Rr) (1 / 2 * (Rr + kHalfTolerance * kHalfTolerance / Rr)) (2 * Rr * Rr * kEpsilon).
(** UnplacedEllipticalTube.h:78-84; source/UnplacedEllipticalTube.cpp:20-25 (the bounding box is left to ExtentModel) *)
Definition mk_elltube (dx dy dz : R) : elltube := check_parameters dx dy dz.
(** UnplacedEllipticalTube.h:89-93 *)
Definition et_set_dx (t : elltube) (v : R) : elltube := check_parameters v (et_dy t) (et_dz t).
(** UnplacedEllipticalTube.h:98-102 *)
Definition et_set_dy (t : elltube) (v : R) : elltube := check_parameters (et_dx t) v (et_dz t).
(** UnplacedEllipticalTube.h:107-111 *)
Definition et_set_dz (t : elltube) (v : R) : elltube := check_parameters (et_dx t) (et_dy t) v.
End Perimeter.

Section Kernels.
(** kInfLength (and kMaximum, VecGeom/base/Math.h:41) and kMinimum *)
Variable inf kmin : R.
Variable t : elltube.
(** EllipticalTubeImplementation.h:76-78: scaled coordinates and the approximate distance to the side *)
Definition et_x (p : v3) : R := vx p * et_sx t.
Definition et_y (p : v3) : R := vy p * et_sy t.
Definition et_rr (p : v3) : R := et_x p * et_x p + et_y p * et_y p.
Definition et_distR (p : v3) : R := et_q1 t * et_rr p - et_q2 t.
(** EllipticalTubeImplementation.h:79 *)
Definition et_distZ (p : v3) : R := Rabs (vz p) - et_dz t.
(** EllipticalTubeImplementation.h:62-85: completely inside, completely outside *)
Definition et_kernel (p : v3) : bool * bool :=
  let safety := Rmax (et_distR p) (et_distZ p) in (rleb safety (- kHalfTolerance), rgtb safety kHalfTolerance).
(** EllipticalTubeImplementation.h:38-44 *)
Definition et_contains (p : v3) : bool := negb (snd (et_kernel p)).
(** EllipticalTubeImplementation.h:49-60 *)
Definition et_inside (p : v3) : inside :=
  let '(inn, out) := et_kernel p in if inn then kInside else if out then kOutside else kSurface.
(** EllipticalTubeImplementation.h:100-102: the moved point and the offset *)
Definition et_move (p d : v3) : v3 * R :=
  if rgtb (vdot p p) (1024 * et_rsph t * et_rsph t) && rltb (vdot d p) 0 then
    let offset := vmag p - 2 * et_rsph t in (vadd p (vscale offset d), offset)
  else (p, 0).
(** CopySign; the sign of zero is plus *)
Definition rcopysign (a s : R) : R := if rltb s 0 then - Rabs a else Rabs a.
(** EllipticalTubeImplementation.h:105-152, from the moved point on *)
Definition et_to_in_from (pc d : v3) (offset : R) : R :=
  let wx := vx d * et_sx t in let wy := vy d * et_sy t in let wz := vz d in
  let invz := -1 / nz wz in
  let dz := rcopysign (et_dz t) invz in
  let tzmin := (vz pc - dz) * invz in
  let tzmax := (vz pc + dz) * invz in
  let rr := et_rr pc in
  let A := wx * wx + wy * wy in
  let B := et_x pc * wx + et_y pc * wy in
  let C := rr - et_r t * et_r t in
  let D := B * B - A * C in
  let parallelToZ := rltb A kEpsilon || rgeb (Rabs wz) 1 in
  let leaving := (rgeb (et_distZ pc) (- kHalfTolerance) && rgeb (vz pc * wz) 0) ||
                 (rgeb (et_distR pc) (- kHalfTolerance) && (rgeb B 0 || parallelToZ)) in
  if leaving then inf
  else if parallelToZ then tzmin + offset
  else if rleb D (A * A * et_scratch t) then inf
  else
    let tmp := - B - rcopysign (R_sqrt.sqrt D) B in
    let t1 := tmp / A in let t2 := C / tmp in
    let tin := Rmax tzmin (Rmin t1 t2) in
    let tout := Rmin tzmax (Rmax t1 t2) in
    if rgeb (tout - tin) kHalfTolerance then tin + offset else inf.
(** EllipticalTubeImplementation.h:87-153 *)
Definition et_to_in (p d : v3) : R := let '(pc, offset) := et_move p d in et_to_in_from pc d offset.
(** EllipticalTubeImplementation.h:155-204 *)
Definition et_to_out (p d : v3) : R :=
  let wx := vx d * et_sx t in let wy := vy d * et_sy t in let wz := vz d in
  let rr := et_rr p in
  let outside := rgtb (Rmax (et_distR p) (et_distZ p)) kHalfTolerance in
  let tzmax := if negb (reqb wz 0) then (rcopysign (et_dz t) wz - vz p) / wz else inf in
  let A := wx * wx + wy * wy in
  let B := et_x p * wx + et_y p * wy in
  let C := rr - et_r t * et_r t in
  let D := B * B - A * C in
  let parallelToZ := rltb A kEpsilon || rgeb (Rabs wz) 1 in
  if outside then -1
  else if parallelToZ then tzmax
  else if rleb D 0 then 0
  else if rgeb B 0 then Rmin tzmax (- C / (R_sqrt.sqrt D + B))
  else Rmin tzmax ((R_sqrt.sqrt D - B) / A).
(** EllipticalTubeImplementation.h:217 and 231 *)
Definition et_zeroed (s : R) : R := if rleb (Rabs s) kHalfTolerance then 0 else s.
(** EllipticalTubeImplementation.h:206-218 *)
Definition et_safety_in (p : v3) : R := et_zeroed (Rmax (R_sqrt.sqrt (et_rr p) - et_r t) (Rabs (vz p) - et_dz t)).
(** EllipticalTubeImplementation.h:220-232 *)
Definition et_safety_out (p : v3) : R := et_zeroed (Rmin (et_r t - R_sqrt.sqrt (et_rr p)) (et_dz t - Rabs (vz p))).
(** EllipticalTubeImplementation.h:251 and 267 *)
Definition et_side_normal (p : v3) : v3 := vunit kmin (V3 (vx p * et_ddy t) (vy p * et_ddx t) 0).
(** EllipticalTubeImplementation.h:234-269: the normal and whether it is valid; UnplacedEllipticalTube.h:123-128 *)
Definition et_normal (p : v3) : v3 * bool :=
  let n0 := if rleb (Rabs (et_distR p)) kHalfTolerance then et_side_normal p else vzero in
  let n1 := if rleb (Rabs (et_distZ p)) kHalfTolerance then V3 (vx n0) (vy n0) (rsign (vz p)) else n0 in
  let n2 := if rgtb (vdot n1 n1) 1 then vunit kmin n1 else n1 in
  if rgtb (vdot n2 n2) 0 then (n2, true)
  else
    let n3 := V3 (vx n2) (vy n2) (rsign (vz p)) in
    let distR := R_sqrt.sqrt (et_rr p) - et_r t in
    (if rgtb distR (et_distZ p) && rgtb (et_rr p) 0 then et_side_normal p else n3, false).
(** source/UnplacedEllipticalTube.cpp:64-71 *)
Definition et_extent : v3 * v3 := (V3 (- et_dx t) (- et_dy t) (- et_dz t), V3 (et_dx t) (et_dy t) (et_dz t)).
(** UnplacedEllipticalTube.h:116 *)
Definition et_capacity : R := et_volume t.
(** UnplacedEllipticalTube.h:118 *)
Definition et_surface_area : R := et_area t.
(** source/UnplacedEllipticalTube.cpp:81-86: which piece, from the first random number *)
Definition et_choose (r : R) : nat :=
  let sbase := PI * et_dx t * et_dy t in
  let select := et_surface_area * r in
  let k := if rgtb select sbase then 1%nat else 0%nat in
  if rgtb select (2 * sbase) then 2%nat else k.
(** source/UnplacedEllipticalTube.cpp:73-112; [u] feeds the pickers, [w] is the random number of line 107 *)
Definition et_sample (r x0 y0 w : R) (u : nat -> R) : v3 :=
  match et_choose r with
  | 0%nat => let q := random_in_ellipse (et_dx t) (et_dy t) u in V3 (fst q) (snd q) (- et_dz t)
  | 1%nat => let q := random_in_ellipse (et_dx t) (et_dy t) u in V3 (fst q) (snd q) (et_dz t)
  | _ => let q := random_on_ellipse (et_dx t) (et_dy t) x0 y0 u in V3 (fst q) (snd q) ((2 * w - 1) * et_dz t)
  end.
(** source/UnplacedEllipticalTube.cpp:154-164: the vertices before the transformation, for [n] segments *)
Definition et_vertices (n : nat) : list v3 :=
  let at_ z := List.map (fun i => V3 (et_dx t * cos (INR i * 2 * PI / INR n)) (et_dy t * sin (INR i * 2 * PI / INR n)) z) (seq 0 (n + 1)) in
  at_ (- et_dz t) ++ at_ (et_dz t).
(** source/UnplacedEllipticalTube.cpp:171-187: the polygons *)
Definition et_polygons (n : nat) : list (list nat) :=
  List.map (fun i => (i + n + 1)%nat) (seq 0 n) :: List.rev (seq 0 n) ::
  List.map (fun i => [i; (i + 1)%nat; (i + 1 + n + 1)%nat; (i + n + 1)%nat]) (seq 0 n).
End Kernels.
