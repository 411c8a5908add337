(** The orb (full sphere).  Source: VecGeom/volumes/kernel/OrbImplementation.h, source/UnplacedOrb.cpp,
    VecGeom/volumes/UnplacedOrb.h, VecGeom/volumes/OrbStruct.h.  Scalar code: masks are booleans.  Arithmetic is exact. *)
From Coq Require Import Reals Bool.
From Verif Require Import Real3 BoxModel.
Local Open Scope R_scope.

(** UnplacedOrb.h:31-35 with OrbStruct.h:19, fGlobalConvexity and UnplacedVolume.h:44 fBBox; fEpsilon is 2e-11 throughout
    (source/UnplacedOrb.cpp:24 and 33) *)
Record orb := Orb {
  o_r : R; o_volume : R; o_area : R; o_rtol : R; o_min : v3; o_max : v3; o_convex : bool
}.
Definition fEpsilon : R := 2 / 100000000000.
(* source/UnplacedOrb.cpp:51-55 *)
Definition radial_tolerance (r : R) : R := Rmax kTolerance (fEpsilon * r).
(* source/UnplacedOrb.cpp:57-63 *)
Definition extent (r : R) : v3 * v3 := (V3 (- r) (- r) (- r), V3 r r r).
(** source/UnplacedOrb.cpp:32-40; ComputeBBox is UnplacedVolume.h:72-77 *)
Definition mk_orb (r : R) : orb :=
  Orb r (4 * PI / 3 * r * r * r) (4 * PI * r * r) (radial_tolerance r) (fst (extent r)) (snd (extent r)) true.
(* source/UnplacedOrb.cpp:42-49 *)
Definition set_radius (o : orb) (r : R) : orb :=
  Orb r (4 * PI / 3 * r * r * r) (4 * PI * r * r) (radial_tolerance r) (o_min o) (o_max o) (o_convex o).
(** source/UnplacedOrb.cpp:65-77: [phi] and [costheta] are the two random numbers *)
Definition sample_point (r phi costheta : R) : v3 :=
  let sintheta := sqrt (1 - costheta * costheta) in
  V3 (r * sintheta * cos phi) (r * sintheta * sin phi) (r * costheta).

(** OrbImplementation.h:66-78: completelyinside (left alone when ForInside is false), completelyoutside *)
Definition orb_kernel (r : R) (p : v3) : bool * bool :=
  let rad2 := vdot p p in
  (rleb rad2 ((r - kTolerance) * (r - kTolerance)), rgeb rad2 ((r + kTolerance) * (r + kTolerance))).
(* OrbImplementation.h:41-48 *)
Definition orb_contains (r : R) (p : v3) : bool := negb (snd (orb_kernel r p)).
(* OrbImplementation.h:52-64; the second assignment wins *)
Definition orb_inside (r : R) (p : v3) : inside :=
  let '(inn, out) := orb_kernel r p in
  if inn then kInside else if out then kOutside else kSurface.
(** OrbImplementation.h:166-187: the returned mask and the distance, [inf] when it is not set *)
Definition detect (to_in : bool) (inf r : R) (p d : v3) : bool * R :=
  let c := vdot p p - r * r in
  let d2 := vdot p d * vdot p d - c in
  if to_in then
    let cond := rgeb d2 0 && rleb (vdot p d) 0 in
    (cond, if cond then - vdot p d - sqrt (Rabs d2) else inf)
  else (rgeb d2 0, if rgeb d2 0 then - vdot p d + sqrt (Rabs d2) else inf).
(* OrbImplementation.h:95 and 122 *)
Definition on_shell (r rad : R) : bool := rgeb rad (r - kTolerance) && rleb rad (r + kTolerance).
(* OrbImplementation.h:80-103 *)
Definition orb_to_in (inf r : R) (p d : v3) : R :=
  let rad := vmag p in
  if rltb rad (r - kTolerance) then -1 else
  if on_shell r rad && rltb (vdot p d) 0 then 0 else
  let '(hit, dist) := detect true inf r p d in
  if hit then dist else inf.
(* OrbImplementation.h:105-132 *)
Definition orb_to_out (inf r : R) (p d : v3) : R :=
  let rad := vmag p in
  if rgtb rad (r + kTolerance) then -1 else
  if on_shell r rad && rgtb (vdot p d) 0 then 0 else
  let '(hit, dist) := detect false inf r p d in
  if hit then dist else inf.
(* OrbImplementation.h:134-147 *)
Definition orb_safety_in (r : R) (p : v3) : R :=
  let rad := vmag p in
  if rltb rad (r - kTolerance) then -1 else
  if rgtb rad (r - kTolerance) && rltb rad (r + kTolerance) then 0 else rad - r.
(* OrbImplementation.h:149-164 *)
Definition orb_safety_out (r : R) (p : v3) : R :=
  let rad := vmag p in
  if rgtb rad (r + kTolerance) then -1 else
  if rgtb rad (r - kTolerance) && rltb rad (r + kTolerance) then 0 else r - rad.
(** OrbImplementation.h:189-203; at the centre the division by zero is not modelled *)
Definition orb_normal (r : R) (p : v3) : bool * v3 :=
  let rad2 := vdot p p in
  let o := r + kTolerance in let i := r - kTolerance in
  (rleb rad2 (o * o) && rgeb rad2 (i * i), vscale (1 / sqrt rad2) p).
