(** Half spaces and families of them: Plane, Planes and PlaneShell.
    VecGeom/volumes/Plane.h, VecGeom/volumes/Planes.h, source/Planes.cpp, VecGeom/base/PlaneShell.h.
    Scalar kernels ([Real_v] is [Precision]); the Vc specialisations of Planes.h:162-198 and 238-280 are not modelled.
    The structure of arrays (SOA3D, fA..fD) is a list of planes. *)
From Coq Require Import Reals Lra Lia Bool.
From stdpp Require Import base list option numbers tactics.
From Verif Require Import Real3 BoxModel AABBModel.
Import stdpp.list.
Local Open Scope R_scope.

(** VecGeom/volumes/Plane.h:25-26; Planes.h:31-32; PlaneShell.h:35-38: normal and distance *)
Record plane := Plane { pl_n : v3; pl_d : R }.
(** Plane.h:102-107; PlaneShell.h:111-116 *)
Definition pl_dist (pl : plane) (p : v3) : R := vdot p (pl_n pl) + pl_d pl.
(** PlaneShell.h:123-128 *)
Definition pl_proj (pl : plane) (d : v3) : R := vdot d (pl_n pl).
(** VecGeom/base/Global.h:174-177 NonZero.  The sum is absorbed by the rounding of binary64 when the
    argument is at least 2^-46 in size (proved in NonZeroProofs.v); below that it is the exact sum. *)
Definition kAbsorb : R := / 2 ^ 46.
Definition nz (x : R) : R := if rgeb (Rabs x) kAbsorb then x else nonzero x.

(** VecGeom/base/Vector3D.h:298-305 *)
Definition fix1 (x : R) : R := if rltb (Rabs x) kTolerance then 0 else x.
Definition fix_zeroes (v : v3) : v3 := V3 (fix1 (vx v)) (fix1 (vy v)) (fix1 (vz v)).
(** Plane.h:44-51; source/Planes.cpp:27-34 *)
Definition set_plane (normal origin : v3) : plane :=
  let f := fix_zeroes normal in
  let i := 1 / vmag f in
  Plane (vscale i f) (i * - vdot f origin).
(** source/Planes.cpp:44-48 *)
Definition flip_sign (pl : plane) : plane := Plane (vneg (pl_n pl)) (- pl_d pl).

Section Plane_queries.
Variable inf : R.   (* VecGeom/base/Math.h:41 kInfLength *)
Variable pl : plane.
(** Plane.h:112-116 *)
Definition plane_contains (p : v3) : bool := rltb (pl_dist pl p) 0.
(** Plane.h:121-126 *)
Definition plane_inside (p : v3) : inside :=
  let d := pl_dist pl p in
  if rltb (Rabs d) kTolerance then kSurface else if rltb d 0 then kInside else kOutside.
(** Plane.h:131-147 *)
Definition plane_to_in (p d : v3) : R :=
  let ndd := nz (pl_proj pl d) in
  let saf := pl_dist pl p in
  if rltb ndd 0 && rgtb saf (- kTolerance) then - saf / ndd else - inf.
(** Plane.h:152-171 *)
Definition plane_to_out (p d : v3) : R :=
  let ndd := nz (pl_proj pl d) in
  let saf := pl_dist pl p in
  if rgtb ndd 0 && rltb saf kTolerance then - saf / ndd
  else if rgtb saf kTolerance then - inf else inf.
(** Plane.h:176-181 and 186-191 *)
Definition plane_safety_in (p : v3) : R := pl_dist pl p.
Definition plane_safety_out (p : v3) : R := - pl_dist pl p.
End Plane_queries.

(** VecGeom/volumes/Planes.h:31-33 *)
Record planes := Planes { ps_list : list plane; ps_convex : bool }.
(** source/Planes.cpp:13-24: fConvex is not assigned *)
Definition planes_assign (lhs rhs : planes) : planes := Planes (ps_list rhs) (ps_convex lhs).
(** source/Planes.cpp:27-34 and 37-41: an index beyond the size is written out of bounds *)
Definition planes_set (P : planes) (i : nat) (normal origin : v3) : option planes :=
  if (i <? length (ps_list P))%nat then Some (Planes (<[i := set_plane normal origin]> (ps_list P)) (ps_convex P)) else None.
Definition planes_set_distance (P : planes) (i : nat) (normal : v3) (d : R) : option planes :=
  if (i <? length (ps_list P))%nat then Some (Planes (<[i := Plane normal d]> (ps_list P)) (ps_convex P)) else None.
(** source/Planes.cpp:44-48 *)
Definition planes_flip (P : planes) (i : nat) : option planes :=
  pl ← ps_list P !! i; Some (Planes (<[i := flip_sign pl]> (ps_list P)) (ps_convex P)).
(** Planes.h:202-224 *)
Definition planes_contains (P : planes) (p : v3) : bool :=
  if ps_convex P then foldl (λ r pl, r && rltb (pl_dist pl p) 0) true (ps_list P)
  else foldl (λ r pl, r || rltb (pl_dist pl p) 0) true (ps_list P).
(** Planes.h:284-314, one turn of either loop *)
Definition is_in (i : inside) : bool := match i with kInside => true | _ => false end.
Definition is_out (i : inside) : bool := match i with kOutside => true | _ => false end.
Definition step_convex (r : inside) (d : R) : inside :=
  let r1 := if rgtb d kTolerance then kOutside else r in
  if is_in r1 && rgtb d (- kTolerance) then kSurface else r1.
Definition step_concave (r : inside) (d : R) : inside :=
  let r1 := if rltb d (- kTolerance) then kInside else r in
  if is_out r1 && rltb d kTolerance then kSurface else r1.
(** Planes.h:293-300 *)
Fixpoint loop_convex (r : inside) (pls : list plane) (p : v3) : inside :=
  match pls with
  | [] => r
  | pl :: rest => let r' := step_convex r (pl_dist pl p) in
                  if is_out r' then r' else loop_convex r' rest p
  end.
(** Planes.h:303-310 *)
Fixpoint loop_concave (r : inside) (pls : list plane) (p : v3) : inside :=
  match pls with
  | [] => r
  | pl :: rest => let r' := step_concave r (pl_dist pl p) in
                  if is_in r' then r' else loop_concave r' rest p
  end.
(** Planes.h:284-314 *)
Definition planes_inside (P : planes) (p : v3) : inside :=
  if ps_convex P then loop_convex kInside (ps_list P) p else loop_concave kOutside (ps_list P) p.
(** Planes.h:316-328 *)
Definition planes_inside_one (P : planes) (p : v3) (i : nat) : option inside :=
  pl ← ps_list P !! i; Some (step_convex kInside (pl_dist pl p)).
(** Planes.h:330-343.  A zero divisor gives an infinity or a NaN: neither is non-negative and below kInfLength. *)
Definition planes_distance (inf : R) (P : planes) (p d : v3) : R :=
  foldl (λ best pl,
    if reqb (pl_proj pl d) 0 then best else
    let t := - pl_dist pl p / pl_proj pl d in
    if rgeb t 0 && rltb t best then t else best) inf (ps_list P).
(** Planes.h:345-355 with Flip of kernel/GenericKernels.h:101-138: the sign is flipped when the point is NOT inside *)
Definition planes_safety (inf : R) (point_inside : bool) (P : planes) (p : v3) : R :=
  foldl (λ best pl,
    let t := if negb point_inside then - pl_dist pl p else pl_dist pl p in
    if rgeb t 0 && rltb t best then t else best) inf (ps_list P).

(** VecGeom/base/PlaneShell.h; the template parameter N is the length of the list *)
Section Shell.
Variable inf : R.
(** PlaneShell.h:133-151, [for_inside] is the template parameter, [ci] and [co] the incoming flags *)
Definition shell_kernel (for_inside : bool) (pls : list plane) (p : v3) (ci co : bool) : bool * bool :=
  foldl (λ '(ci, co) pl,
    let d := pl_dist pl p in
    (if for_inside then ci && rltb d (0 - kHalfTolerance) else ci,
     co || rgtb d (if for_inside then 0 + kHalfTolerance else 0))) (ci, co) pls.
(** PlaneShell.h:184-187 *)
Definition shell_leaving (pls : list plane) (p d : v3) : bool :=
  foldl (λ done pl,
    let done := done || (rgtb (pl_dist pl p) (0 + kHalfTolerance) && rgeb (pl_proj pl d) 0) in
    done || (rgtb (pl_dist pl p) (0 - kHalfTolerance) && rgtb (pl_proj pl d) 0)) false pls.
(** PlaneShell.h:180, 238 *)
Definition shell_vdist (pl : plane) (p d : v3) : R := - pl_dist pl p / nz (pl_proj pl d).
(** PlaneShell.h:191-207; [None]: the early return with kInfLength.  smin and smax are in-out parameters. *)
Fixpoint shell_range (pls : list plane) (p d : v3) (smin smax : R) : option (R * R) :=
  match pls with
  | [] => Some (smin, smax)
  | pl :: rest =>
    let pos_point := rgtb (pl_dist pl p) (0 - kHalfTolerance) in
    let pos_dir := rgtb (pl_proj pl d) 0 in
    let v := shell_vdist pl p d in
    let from_inside := negb pos_point && pos_dir in
    let from_outside := pos_point && negb pos_dir in
    if (from_inside && rltb v smin) || (from_outside && rgtb v smax) then None else
    shell_range rest p d (if from_outside && rgtb v smin then v else smin)
                         (if from_inside && rltb v smax then v else smax)
  end.
(** PlaneShell.h:164-213 *)
Definition shell_to_in (pls : list plane) (p d : v3) (smin smax : R) : R :=
  if shell_leaving pls p d then inf else
  match shell_range pls p d smin smax with
  | None => inf
  | Some (smin, smax) => if rleb smin smax then smin else inf
  end.
(** PlaneShell.h:222-257 *)
Definition shell_to_out (pls : list plane) (p d : v3) : R :=
  foldl (λ out pl,
    let out := if rgtb (pl_dist pl p) kHalfTolerance then -1 else out in
    let v := shell_vdist pl p d in
    if rgtb (pl_proj pl d) 0 && rltb v out then v else out) inf pls.
(** PlaneShell.h:263-275 *)
Definition shell_safety_in (pls : list plane) (p : v3) (safety : R) : R :=
  foldl (λ s pl, if rgtb (pl_dist pl p) s then pl_dist pl p else s) safety pls.
(** PlaneShell.h:281-293 *)
Definition shell_safety_out (pls : list plane) (p : v3) (safety : R) : R :=
  foldl (λ s pl, if rltb (- pl_dist pl p) s then - pl_dist pl p else s) safety pls.
(** PlaneShell.h:310-314, one turn; [None] is the index -1 *)
Definition closer_step (p : v3) (st : R * option nat) (ipl : nat * plane) : R * option nat :=
  let t := Rabs (pl_dist (snd ipl) p) in
  if rltb t (fst st) then (t, Some (fst ipl)) else st.
(** PlaneShell.h:298-317 *)
Definition shell_closest (pls : list plane) (p : v3) (safety : R) : R * option nat :=
  foldl (closer_step p) (safety, None) (imap pair pls).
(** PlaneShell.h:341-353, one turn *)
Definition normal_step (p : v3) (pl : plane) (st : R * v3) : R * v3 :=
  let '(safety, n) := st in
  let dist := pl_dist pl p in
  let saf := dist - safety in
  let n := if rltb (Rabs saf) kHalfTolerance && rgeb dist (- kHalfTolerance) then vadd n (pl_n pl) else n in
  (if rgtb saf 0 then dist else safety, if rgtb saf 0 then pl_n pl else n).
(** PlaneShell.h:330-358: the loop runs over four planes whatever N is *)
Fixpoint normal_loop (fuel : nat) (i : nat) (pls : list plane) (p : v3) (st : R * v3) : option (R * v3) :=
  match fuel with
  | O => Some st
  | S fuel => pl ← pls !! i; normal_loop fuel (S i) pls p (normal_step p pl st)
  end.
Definition shell_normal (pls : list plane) (p normal : v3) : option (R * v3) :=
  normal_loop 4 0 pls p (- inf, normal).
End Shell.
