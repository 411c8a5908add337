(** Model of placed volumes as seen by solids built from other solids: the functions of an unplaced volume, and
    the same functions of a volume placed with a transformation (VecGeom/volumes/SpecializedPlacedVolImplHelper.h,
    VecGeom/volumes/PlacedVolImplHelper.h, source/PlacedVolume.cpp).  Exact arithmetic. *)
From Coq Require Import Reals.
From stdpp Require Import list option.
From Verif Require Import Real3 AABBModel TransModel BoxModel ExtentModel.
Local Open Scope R_scope.

(** The virtual functions of an unplaced volume (VecGeom/volumes/UnplacedVolume.h:85-169 declares them).  Distances take
    point, direction and largest step; None: the call does not return.  The normal comes with its validity, the
    extent as its two corners. *)
Record shape := Shape {
  s_contains : v3 → bool;
  s_inside : v3 → inside;
  s_to_in : v3 → v3 → R → option R;
  s_to_out : v3 → v3 → R → option R;
  s_safety_in : v3 → R;
  s_safety_out : v3 → R;
  s_normal : v3 → v3 * bool;
  s_extent : v3 * v3
}.
Record placed := Placed { pl_tr : trans; pl_shape : shape }.

(* VecGeom/volumes/SpecializedPlacedVolImplHelper.h:89-97 *)
Definition pv_contains (v : placed) (p : v3) : bool := s_contains (pl_shape v) (transform (pl_tr v) p).
(* VecGeom/volumes/SpecializedPlacedVolImplHelper.h:80-87 *)
Definition pv_inside (v : placed) (p : v3) : inside := s_inside (pl_shape v) (transform (pl_tr v) p).
(* VecGeom/volumes/SpecializedPlacedVolImplHelper.h:112-127 *)
Definition pv_to_in (v : placed) (p d : v3) (smax : R) : option R :=
  s_to_in (pl_shape v) (transform (pl_tr v) p) (transform_direction (pl_tr v) d) smax.
(* VecGeom/volumes/SpecializedPlacedVolImplHelper.h:129-146: PlacedDistanceToOut *)
Definition pv_to_out_placed (v : placed) (p d : v3) (smax : R) : option R :=
  s_to_out (pl_shape v) (transform (pl_tr v) p) (transform_direction (pl_tr v) d) smax.
(* VecGeom/volumes/PlacedVolImplHelper.h:65-70: DistanceToOut, in the frame of the shape *)
Definition pv_to_out (v : placed) (p d : v3) (smax : R) : option R := s_to_out (pl_shape v) p d smax.
(* VecGeom/volumes/SpecializedPlacedVolImplHelper.h:148-155 *)
Definition pv_safety_in (v : placed) (p : v3) : R := s_safety_in (pl_shape v) (transform (pl_tr v) p).
(* VecGeom/volumes/PlacedVolImplHelper.h:72-76: in the frame of the shape *)
Definition pv_safety_out (v : placed) (p : v3) : R := s_safety_out (pl_shape v) p.
(* source/PlacedVolume.cpp:125-137 through VecGeom/volumes/PlacedVolImplHelper.h:50-54: transforms the point and turns the normal back *)
Definition pv_normal (v : placed) (p : v3) : v3 * bool :=
  let '(n, valid) := s_normal (pl_shape v) (transform (pl_tr v) p) in (inverse_transform_direction (pl_tr v) n, valid).
(* source/PlacedVolume.cpp:139-178 through VecGeom/volumes/PlacedVolImplHelper.h:45-48: already in the frame of the mother *)
Definition pv_extent (v : placed) : aabb := placed_extent (s_extent (pl_shape v)).1 (s_extent (pl_shape v)).2 (pl_tr v).
