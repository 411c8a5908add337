(** The phi wedge.  Source: VecGeom/volumes/Wedge_Evolution.h and source/Wedge_Evolution.cpp.
    Wedges are along the z axis, so only x and y of points and vectors enter.  Numbers are real; cos and sin are exact. *)
From Coq Require Import Reals Bool.
From Verif Require Import Real3 BoxModel ConeModel.
Local Open Scope R_scope.

(* Wedge_Evolution.h:46-55 *)
Record wedge := Wedge {
  wd_sphi : R; wd_dphi : R;
  wd_a1x : R; wd_a1y : R; wd_a2x : R; wd_a2y : R;
  wd_n1x : R; wd_n1y : R; wd_n2x : R; wd_n2y : R
}.
(** source/Wedge_Evolution.cpp:17 and 119-128; the start angle keeps its default of Wedge_Evolution.h:46 *)
Definition mk_wedge (angle zero : R) : wedge :=
  Wedge 0 angle (cos zero) (sin zero) (cos (zero + angle)) (sin (zero + angle))
    (- sin zero) (cos zero) (sin (zero + angle)) (- cos (zero + angle)).
(* Wedge_Evolution.h:68 *)
Definition set_start (w : wedge) (s : R) : wedge :=
  Wedge s (wd_dphi w) (wd_a1x w) (wd_a1y w) (wd_a2x w) (wd_a2y w) (wd_n1x w) (wd_n1y w) (wd_n2x w) (wd_n2y w).
(* Wedge_Evolution.h:71 *)
Definition set_delta (w : wedge) (d : R) : wedge :=
  Wedge (wd_sphi w) d (wd_a1x w) (wd_a1y w) (wd_a2x w) (wd_a2y w) (wd_n1x w) (wd_n1y w) (wd_n2x w) (wd_n2y w).
(* Wedge_Evolution.h:74-78 *)
Definition set_both (w : wedge) (d s : R) : wedge := set_delta (set_start w s) d.

(** Wedge_Evolution.h:341-354; for one point the early return (350) is the conjunction *)
Definition on_surface (ax ay nx ny x y : R) : bool :=
  rgeb (ax * x + ay * y) 0 && rltb (Rabs (nx * x + ny * y)) kTolerance.
(* Wedge_Evolution.h:171-174 *)
Definition on_surface1 (w : wedge) (x y : R) : bool := on_surface (wd_a1x w) (wd_a1y w) (wd_n1x w) (wd_n1y w) x y.
(* Wedge_Evolution.h:177-180 *)
Definition on_surface2 (w : wedge) (x y : R) : bool := on_surface (wd_a2x w) (wd_a2y w) (wd_n2x w) (wd_n2y w) x y.
(** Wedge_Evolution.h:306-339: completelyinside, completelyoutside.  With ForInside = false the first one is left as the
    caller initialised it, to false. *)
Definition wedge_kernel (w : wedge) (fi : bool) (x y : R) : bool * bool :=
  let start := - x * wd_a1y w + y * wd_a1x w in
  let end_ := - wd_a2x w * y + wd_a2y w * x in
  let out := if rltb (wd_dphi w) PI then rltb start 0 || rltb end_ 0 else rltb start 0 && rltb end_ 0 in
  if fi then
    let surf := on_surface1 w x y || on_surface2 w x y in
    let out := out && negb surf in
    (negb surf && negb out, out)
  else (false, out).
(* Wedge_Evolution.h:260-272 *)
Definition wedge_inside (w : wedge) (x y : R) : inside :=
  let '(inn, out) := wedge_kernel w true x y in
  if inn then kInside else if out then kOutside else kSurface.
(* Wedge_Evolution.h:274-282 *)
Definition contains_with_boundary (w : wedge) (x y : R) : bool := negb (snd (wedge_kernel w true x y)).
(* Wedge_Evolution.h:284-292 *)
Definition contains_without_boundary (w : wedge) (x y : R) : bool := fst (wedge_kernel w true x y).
(* Wedge_Evolution.h:294-303 *)
Definition wedge_contains (w : wedge) (x y : R) : bool := negb (snd (wedge_kernel w false x y)).
(* Wedge_Evolution.h:356-373 *)
Definition wedge_safety_out (w : wedge) (x y : R) : R :=
  let dist1 := x * wd_n1x w + y * wd_n1y w in
  let dist2 := x * wd_n2x w + y * wd_n2y w in
  if rltb (wd_dphi w) PI then Rmin dist1 dist2 else Rmax dist1 dist2.
(* Wedge_Evolution.h:375-394 *)
Definition wedge_safety_in (w : wedge) (x y : R) : R :=
  let dist1 := x * wd_n1x w + y * wd_n1y w in
  let dist2 := x * wd_n2x w + y * wd_n2y w in
  if rltb (wd_dphi w) PI then Rmax (-1 * dist1) (-1 * dist2) else Rmin (-1 * dist1) (-1 * dist2).
(** Wedge_Evolution.h:412-416 and 417-421, one of the two planes; [inf] is kInfLength *)
Definition plane_in (inf nx ny x y dx dy : R) : R :=
  let comp := dx * nx + dy * ny in
  if rgtb comp 0 then
    let tmp := - (x * nx + y * ny) / comp in
    if rgtb tmp 0 then tmp else inf
  else inf.
(* Wedge_Evolution.h:396-422 *)
Definition wedge_to_in (inf : R) (w : wedge) (x y dx dy : R) : R * R :=
  (plane_in inf (wd_n1x w) (wd_n1y w) x y dx dy, plane_in inf (wd_n2x w) (wd_n2y w) x y dx dy).
(** Wedge_Evolution.h:444-448 and 450-454, one of the two planes *)
Definition plane_out (inf nx ny x y dx dy : R) : R :=
  let comp := dx * nx + dy * ny in
  if rltb comp 0 then
    let tmp := - (x * nx + y * ny) / comp in
    if rgtb tmp 0 then tmp else inf
  else inf.
(* Wedge_Evolution.h:424-455 *)
Definition wedge_to_out (inf : R) (w : wedge) (x y dx dy : R) : R * R :=
  (plane_out inf (wd_n1x w) (wd_n1y w) x y dx dy, plane_out inf (wd_n2x w) (wd_n2y w) x y dx dy).
(** Wedge_Evolution.h:233-246 with GetNormal 222-231 and IsOnSurfaceGeneric 248-258; the factor is of kHalfTolerance *)
Definition moving_out (w : wedge) (first : bool) (x y dx dy : R) : bool :=
  let nx := if first then wd_n1x w else wd_n2x w in
  let ny := if first then wd_n1y w else wd_n2y w in
  (if first then on_surface1 w x y else on_surface2 w x y) && rgtb (dx * - nx + dy * - ny) (5 / 1000 * kHalfTolerance).
(** Wedge_Evolution.h:233-246, the other branch (243-245) *)
Definition moving_in (w : wedge) (first : bool) (x y dx dy : R) : bool :=
  let nx := if first then wd_n1x w else wd_n2x w in
  let ny := if first then wd_n1y w else wd_n2y w in
  (if first then on_surface1 w x y else on_surface2 w x y) && rltb (dx * - nx + dy * - ny) (5 / 1000 * kHalfTolerance).

(** ConeUtilities.h:64-111 with onSurfaceT = false; [tol] is kConeTolerance.  TubeImplementation.h:58-99 is the same with
    kHalfTolerance.  The vectors are fAlongPhi1 and fAlongPhi2, for the angles [s] and [s + d]; the kernels that know their
    angle use the same test. *)
Definition cyclical_sector (tol : R) (include : bool) (s d x y : R) : bool :=
  let start := - x * sin s + y * cos s in
  let end_ := - cos (s + d) * y + sin (s + d) * x in
  let t := if include then - tol else tol in
  if rleb d PI then rgeb start t && rgeb end_ t else rgeb start t || rgeb end_ t.
(** Part of fmod below: the integer part of the division by a full turn, towards minus infinity. *)
Definition turns (x : R) : Z := Int_part (x / (2 * PI)).
(** std::fmod of ConeStruct.h:318 and 320, for x >= 0 and a full turn *)
Definition fmod_turn (x : R) : R := x - IZR (turns x) * (2 * PI).
(* ConeStruct.h:313-331, the angle it stores; TubeStruct.h:114-124 is the same *)
Definition checked_sphi (d s : R) : R :=
  let s1 := if rltb s 0 then 2 * PI - fmod_turn (Rabs s) else fmod_turn s in
  if rgtb (s1 + d) (2 * PI) then s1 - 2 * PI else s1.
(** The operations of the phi section of a cone: ConeStruct.h:418 builds the wedge from the arguments; the sector test of the
    cone uses the checked angles. *)
Definition cone_wedge (s d : R) : wedge_ops :=
  let w := set_start (set_delta (mk_wedge d s) (checked_dphi d)) (checked_sphi (checked_dphi d) s) in
  WedgeOps (wedge_kernel w) (cyclical_sector kConeTolerance false (checked_sphi (checked_dphi d) s) (checked_dphi d))
    (wedge_safety_in w) (wedge_safety_out w).
