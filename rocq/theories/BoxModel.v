(** Model of the box kernels: VecGeom/volumes/kernel/BoxImplementation.h, VecGeom/volumes/UnplacedBox.h,
    source/UnplacedBox.cpp; scalar instance with exact arithmetic.  A box is the vector of its half
    lengths (VecGeom/volumes/BoxStruct.h:20).  [inf] is InfinityLength<Real_v>(). *)
From Coq Require Import Reals Bool List.
From Verif Require Import Real3 AABBModel.
Local Open Scope R_scope.

(* VecGeom/base/Global.h:84-86 *)
Inductive inside := kInside | kSurface | kOutside.
(** BoxImplementation.h:82; Sign is from VecCore: -1 or 1, taken as positive for zero (the code copies the sign bit, which
    the reals do not have) *)
Definition rsign (x : R) : R := if rltb x 0 then -1 else 1.
Definition vsign (d : v3) : v3 := V3 (rsign (vx d)) (rsign (vy d)) (rsign (vz d)).

(* BoxImplementation.h:48, 55, 66, 111, 124 *)
Definition box_outer (b p : v3) : R := vmax (vsub (vabs p) b).
(* BoxImplementation.h:44-49 *)
Definition box_contains (b p : v3) : bool := rltb (box_outer b p) 0.
(* BoxImplementation.h:51-59 *)
Definition box_inside (b p : v3) : inside :=
  let dist := box_outer b p in
  if rltb (Rabs dist) kHalfTolerance then kSurface else if rltb dist 0 then kInside else kOutside.
(* BoxImplementation.h:61-71 with ForInside; completelyinside, completelyoutside *)
Definition box_generic (b p : v3) : bool * bool :=
  let dist := box_outer b p in (rltb dist (- kHalfTolerance), rgtb dist kHalfTolerance).
(* BoxImplementation.h:73-98 *)
Definition box_to_in (inf : R) (b p d : v3) : R :=
  let invDir := vinv (vnonzero d) in
  let signDir := vsign d in
  let tempIn := vsub (vneg (vmul signDir b)) p in
  let tempOut := vsub (vmul signDir b) p in
  let absOrthogOut := Rabs (vmin (vmul signDir tempOut)) in
  let distOut := vmin (vmul tempOut invDir) in
  let distance := vmax (vmul tempIn invDir) in
  if rgeb distance distOut || rleb distOut kHalfTolerance || rleb absOrthogOut kHalfTolerance then inf else distance.
(* BoxImplementation.h:100-118 *)
Definition box_to_out (b p d : v3) : R :=
  let invDir := vinv (vnonzero d) in
  let signDir := vsign d in
  let safetyIn := box_outer b p in
  let tempOut := vsub (vmul signDir b) p in
  if rgtb safetyIn kHalfTolerance then -1 else vmin (vmul tempOut invDir).
(* BoxImplementation.h:120-125 *)
Definition box_safety_in (b p : v3) : R := box_outer b p.
(* BoxImplementation.h:127-132 *)
Definition box_safety_out (b p : v3) : R := vmin (vsub b (vabs p)).
(* BoxImplementation.h:134-155; normal and valid *)
Definition box_normal (b p : v3) : v3 * bool :=
  let safety := vabs (vsub (vabs p) b) in
  let safmin := vmin safety in
  let n (s x : R) := if rltb (s - safmin) kHalfTolerance then rsign x else 0 in
  let normal := V3 (n (vx safety) (vx p)) (n (vy safety) (vy p)) (n (vz safety) (vz p)) in
  (if rgtb (vdot normal normal) 1 then vscale (1 / vmag normal) normal else normal, rltb safmin kHalfTolerance).
(* UnplacedBox.h:74-80 *)
Definition box_extent (b : v3) : v3 * v3 := (vneg b, b).
(* UnplacedBox.cpp:66-67; the loop leaves the array if no axis is found *)
Fixpoint pick_axis (rand : R) (axis : nat) (S : list R) : option (nat * R) :=
  match S with
  | nil => None
  | cons s r => if rgtb rand s then pick_axis (rand - s) (axis + 1) r else Some (axis, rand)
  end.
(* UnplacedBox.cpp:46-73; [u0], [u1], [u2], [u3] are numbers in [-1, 1]; one of the last three is not drawn *)
Definition box_sample (b : v3) (u0 u1 u2 u3 : R) : option v3 :=
  let S := cons (vy b * vz b) (cons (vx b * vz b) (cons (vx b * vy b) nil)) in
  let rand := (vy b * vz b + vx b * vz b + vx b * vy b) * u0 in
  let direction := if rltb rand 0 then -1 else 1 in
  match pick_axis (Rabs rand) 0 S with
  | None => None
  | Some (axis, _) =>
    Some (V3 (if Nat.eqb axis 0 then direction * vx b else vx b * u1)
             (if Nat.eqb axis 1 then direction * vy b else vy b * u2)
             (if Nat.eqb axis 2 then direction * vz b else vz b * u3))
  end.
