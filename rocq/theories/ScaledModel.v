(** Scaled shapes.  Source: VecGeom/base/Scale3D.h, VecGeom/volumes/kernel/ScaledShapeImplementation.h,
    source/UnplacedScaledShape.cpp, VecGeom/volumes/UnplacedScaledShape.h.  Scalar code, exact arithmetic.  The unscaled
    shape is any placed volume, given by its answers; where the code bypasses the placement (Extent, SamplePointOnSurface), it is
    taken to be the identity, as the constructor from a shape makes it (UnplacedScaledShape.h:95-104). *)
From Coq Require Import Reals Bool.
From Verif Require Import Real3 BoxModel.
Local Open Scope R_scope.

(* Scale3D.h:37-40 *)
Record scale3 := Scale3 { s_scale : v3; s_inv : v3; s_local : R; s_master : R }.
(** Scale3D.h:96-105, run by the constructors (55-59, 66) and SetScale (126-141); the assertion is a hypothesis below *)
Definition update (s : v3) : scale3 :=
  let i := V3 (1 / vx s) (1 / vy s) (1 / vz s) in
  Scale3 s i (Rmin (Rmin (Rabs (vx i)) (Rabs (vy i))) (Rabs (vz i))) (Rmin (Rmin (Rabs (vx s)) (Rabs (vy s))) (Rabs (vz s))).
(* Scale3D.h:126-130 *)
Definition set_scale (_ : scale3) (s : v3) : scale3 := update s.
(* Scale3D.h:149-152 *)
Definition transform (k : scale3) (p : v3) : v3 := V3 (vx p * vx (s_inv k)) (vy p * vy (s_inv k)) (vz p * vz (s_inv k)).
(* Scale3D.h:169-172 *)
Definition inverse_transform (k : scale3) (p : v3) : v3 := V3 (vx p * vx (s_scale k)) (vy p * vy (s_scale k)) (vz p * vz (s_scale k)).
(* Scale3D.h:189-193 *)
Definition transform_normal (k : scale3) (n : v3) : v3 :=
  let i := s_inv k in V3 (vx n * vy i * vz i) (vy n * vz i * vx i) (vz n * vx i * vy i).
(* Scale3D.h:211-214 *)
Definition inverse_transform_normal (k : scale3) (n : v3) : v3 :=
  let s := s_scale k in V3 (vx n * vy s * vz s) (vy n * vz s * vx s) (vz n * vx s * vy s).
(* Scale3D.h:232-237 *)
Definition transform_distance (k : scale3) (dist : R) (d : v3) : R :=
  let v := vmul d (s_inv k) in sqrt (vdot v v) * dist.
(* Scale3D.h:245-248 *)
Definition transform_safety (k : scale3) (s : R) : R := s * s_local k.
(* Scale3D.h:256-261 *)
Definition inverse_transform_distance (k : scale3) (dist : R) (d : v3) : R :=
  let v := vmul d (s_scale k) in sqrt (vdot v v) * dist.
(* Scale3D.h:269-272 *)
Definition inverse_transform_safety (k : scale3) (s : R) : R := s * s_master k.
(* VecGeom/base/Vector3D.h:198 *)
Definition normalize (v : v3) : v3 := vscale (1 / vmag v) v.

(** The answers of the unscaled shape: ScaledShapeStruct.h:24 fPlaced *)
Record shape := Shape {
  sh_contains : v3 -> bool; sh_inside : v3 -> inside;
  sh_to_in : v3 -> v3 -> R -> R; sh_to_out : v3 -> v3 -> R -> R;
  sh_safety_in : v3 -> R; sh_safety_out : v3 -> R;
  sh_normal : v3 -> v3; sh_extent : v3 * v3; sh_capacity : R; sh_sample : v3
}.
(* ScaledShapeImplementation.h:70-81 *)
Definition sc_contains (k : scale3) (s : shape) (p : v3) : bool := sh_contains s (transform k p).
(* ScaledShapeImplementation.h:83-94 *)
Definition sc_inside (k : scale3) (s : shape) (p : v3) : inside := sh_inside s (transform k p).
(** ScaledShapeImplementation.h:96-120; [inf] is InfinityLength *)
Definition sc_to_in (inf : R) (k : scale3) (s : shape) (p d : v3) (smax : R) : R :=
  let ud := normalize (transform k d) in
  let dist := sh_to_in s (transform k p) ud (transform_distance k smax d) in
  if rltb dist inf then inverse_transform_distance k dist ud else dist.
(* ScaledShapeImplementation.h:122-146 *)
Definition sc_to_out (inf : R) (k : scale3) (s : shape) (p d : v3) (smax : R) : R :=
  let ud := normalize (transform k d) in
  let dist := sh_to_out s (transform k p) ud (transform_distance k smax d) in
  if rltb dist inf then inverse_transform_distance k dist ud else dist.
(* ScaledShapeImplementation.h:148-160 *)
Definition sc_safety_in (k : scale3) (s : shape) (p : v3) : R := inverse_transform_safety k (sh_safety_in s (transform k p)).
(* ScaledShapeImplementation.h:162-174 *)
Definition sc_safety_out (k : scale3) (s : shape) (p : v3) : R := inverse_transform_safety k (sh_safety_out s (transform k p)).
(** ScaledShapeImplementation.h:176-194 and source/UnplacedScaledShape.cpp:34-39: valid is never set *)
Definition sc_normal (k : scale3) (s : shape) (p : v3) : bool * v3 :=
  (false, normalize (inverse_transform_normal k (sh_normal s (transform k p)))).
(* source/UnplacedScaledShape.cpp:43-58 *)
Definition sc_extent (k : scale3) (s : shape) : v3 * v3 :=
  let '(lo, hi) := sh_extent s in
  let center := inverse_transform k (vscale (5 / 10) (vadd lo hi)) in
  let semi := inverse_transform k (vscale (5 / 10) (vsub hi lo)) in
  (vsub center semi, vadd center semi).
(* source/UnplacedScaledShape.cpp:61-67 *)
Definition sc_sample (k : scale3) (s : shape) : v3 := inverse_transform k (sh_sample s).
(* UnplacedScaledShape.h:162-168 *)
Definition sc_capacity (k : scale3) (s : shape) : R :=
  sh_capacity s * (vx (s_scale k) * vy (s_scale k) * vz (s_scale k)).

(** A scaled-shape object: the answers of the unplaced shape, the placement it was given (a translation here, rotations are
    left out), the scale, and the bounding box kept by the base class (VecGeom/volumes/UnplacedVolume.h:72-77). *)
Record scaled_obj := ScaledObj { so_shape : shape; so_pos : v3; so_scale : scale3; so_box : v3 * v3 }.
(* UnplacedScaledShape.h:69-74: from a placed volume *)
Definition from_placed (s : shape) (pos k : v3) : scaled_obj := ScaledObj s pos (update k) (sc_extent (update k) s).
(* UnplacedScaledShape.h:95-104: from a shape, placed at the origin *)
Definition from_shape (s : shape) (k : v3) : scaled_obj := from_placed s vzero k.
(* UnplacedScaledShape.h:109-115: the copy constructor places the logical volume anew *)
Definition copy (o : scaled_obj) : scaled_obj :=
  ScaledObj (so_shape o) vzero (so_scale o) (sc_extent (so_scale o) (so_shape o)).
(* UnplacedScaledShape.h:119-127 *)
Definition assign (this o : scaled_obj) : scaled_obj := ScaledObj (so_shape o) vzero (so_scale o) (so_box this).
(* ScaledShapeImplementation.h:70-81 with the placement *)
Definition obj_contains (o : scaled_obj) (p : v3) : bool := sh_contains (so_shape o) (vsub (transform (so_scale o) p) (so_pos o)).
