(** Cut tubes: tubes between two tilted planes.
    VecGeom/volumes/CutPlanes.h, source/CutPlanes.cpp, VecGeom/volumes/CutTubeStruct.h, VecGeom/volumes/kernel/CutTubeImplementation.h,
    VecGeom/volumes/UnplacedCutTube.h, source/UnplacedCutTube.cpp.
    Scalar kernels, exact real arithmetic.  The bounding box and DistanceToIn are in CutTubeModel2, printing and the placed volumes are not modelled. *)
From Coq Require Import Reals Lra Lia Bool.
From stdpp Require Import base list option numbers tactics.
From Verif Require Import Real3 BoxModel AABBModel PlanesModel TetModel TrdModel TubeModel.
Import stdpp.list.
Local Open Scope R_scope.

Section Planes.
Variable inf : R.
(** CutPlanes.h:19: the lower and the upper plane *)
Variables lower upper : plane.
(** CutPlanes.h:103-106 *)
Definition cut_contains (p : v3) : bool := rltb (pl_dist lower p) 0 && rltb (pl_dist upper p) 0.
(** CutPlanes.h:111-121 *)
Definition cut_inside (p : v3) : inside :=
  let d0 := pl_dist lower p in let d1 := pl_dist upper p in
  if rltb (Rabs d0) kTolerance || rltb (Rabs d1) kTolerance then kSurface
  else if rltb d0 0 && rltb d1 0 then kInside else kOutside.
(** CutPlanes.h:145-151 *)
Definition cut_to_out (p d : v3) : R := Rmin (plane_to_out inf lower p d) (plane_to_out inf upper p d).
(** CutPlanes.h:156-162 *)
Definition cut_safety_in (p : v3) : R := Rmax (plane_safety_in lower p) (plane_safety_in upper p).
(** CutPlanes.h:167-173 *)
Definition cut_safety_out (p : v3) : R := Rmin (plane_safety_out lower p) (plane_safety_out upper p).
End Planes.

(** CutTubeStruct.h:23-32 *)
Record ctube := CTube { ct_dz : R; ct_tube : tube; ct_lower : plane; ct_upper : plane; ct_cos1 : R; ct_sin1 : R; ct_cos2 : R; ct_sin2 : R; ct_max : R }.
(** CutTubeStruct.h:39-50, source/CutPlanes.cpp:6-10; the constructors of UnplacedCutTube.h:35-51 and 53-70 throw ([None]) for normals on the wrong side *)
Definition mk_ctube (inf kmin rmin rmax z sphi dphi : R) (bottom top : v3) : option ctube :=
  if rgeb (vz bottom) 0 || rleb (vz top) 0 then None else
  Some (CTube z (tube_struct rmin rmax inf sphi dphi) (set_plane (vunit kmin bottom) (V3 0 0 (- z))) (set_plane (vunit kmin top) (V3 0 0 z))
    (cos sphi) (sin sphi) (cos (sphi + dphi)) (sin (sphi + dphi)) (Rmax rmax z)).

Section Kernels.
Variables inf kmin : R.
Variable t : ctube.
Notation T := (ct_tube t).
Notation lower := (ct_lower t).
Notation upper := (ct_upper t).
(** CutTubeImplementation.h:83-97 *)
Definition ct_contains (p : v3) : bool := cut_contains lower upper p && tube_contains UniversalTube T p.
(** CutTubeImplementation.h:101-118 *)
Definition ct_inside (p : v3) : inside :=
  let planes := cut_inside lower upper p in
  match planes with
  | kOutside => kOutside
  | kSurface => match tube_inside UniversalTube T p with kOutside => kOutside | _ => kSurface end
  | kInside => tube_inside UniversalTube T p
  end.
(** CutTubeImplementation.h:257-274 *)
Definition ct_to_out (p d : v3) : R :=
  let distance := cut_to_out inf lower upper p d in
  let dtube := tube_to_out inf UniversalTube T p d in
  if rltb dtube distance then dtube else distance.
(** CutTubeImplementation.h:278-292 *)
Definition ct_safety_in (p : v3) : R :=
  let safety := cut_safety_in lower upper p in
  let saftube := tube_safety_in inf UniversalTube T p in
  if rgtb saftube safety then saftube else safety.
(** CutTubeImplementation.h:296-309 *)
Definition ct_safety_out (p : v3) : R :=
  let safety := cut_safety_out lower upper p in
  let saftube := tube_safety_out UniversalTube T p in
  if rltb saftube safety then saftube else safety.
(** CutTubeImplementation.h:313-336, called from source/UnplacedCutTube.cpp:187-192 *)
Definition ct_normal (p : v3) : v3 * bool :=
  let safcut := cut_safety_out lower upper p in
  let saftube := tube_safety_out UniversalTube T p in
  if rltb (Rabs saftube) (Rabs safcut) then tube_normal inf kmin T p
  else (if rltb (vz p) 0 then pl_n lower else pl_n upper, true).
(** UnplacedCutTube.h:135-139 *)
Definition z_bottom (r phi : R) : R :=
  - ct_dz t - (r / vz (pl_n lower)) * (vx (pl_n lower) * cos phi + vy (pl_n lower) * sin phi).
(** UnplacedCutTube.h:143-147 *)
Definition z_top (r phi : R) : R :=
  ct_dz t - (r / vz (pl_n upper)) * (vx (pl_n upper) * cos phi + vy (pl_n upper) * sin phi).
(** UnplacedCutTube.h:151-159 *)
Definition ct_lateral (r : R) : R :=
  2 * r * ct_dz t * tb_dphi T - r * r *
    ((vx (pl_n upper) / vz (pl_n upper) - vx (pl_n lower) / vz (pl_n lower)) * (ct_sin2 t - ct_sin1 t) -
     (vy (pl_n upper) / vz (pl_n upper) - vy (pl_n lower) / vz (pl_n lower)) * (ct_cos2 t - ct_cos1 t)).
(** UnplacedCutTube.h:163-166 *)
Definition ct_top : R := (1 / 2) * (tb_rmax2 T - tb_rmin2 T) * tb_dphi T / vz (pl_n upper).
(** UnplacedCutTube.h:170-173 *)
Definition ct_bottom : R := - (1 / 2) * (tb_rmax2 T - tb_rmin2 T) * tb_dphi T / vz (pl_n lower).
(** UnplacedCutTube.h:177-183 and 187-193, at the angle [phi] *)
Definition ct_phi (phi : R) : R :=
  if reqb (tb_dphi T) (2 * PI) then 0 else
  (1 / 2) * (tb_rmax T - tb_rmin T) * ((z_top (tb_rmin T) phi - z_bottom (tb_rmin T) phi) + (z_top (tb_rmax T) phi - z_bottom (tb_rmax T) phi)).
(** UnplacedCutTube.h:205-209 *)
Definition ct_area : R := ct_bottom + ct_top + ct_lateral (tb_rmin T) + ct_lateral (tb_rmax T) + ct_phi (tb_sphi T) + ct_phi (tb_sphi T + tb_dphi T).
(** source/UnplacedCutTube.cpp:36-46 *)
Definition ct_volume : R :=
  let nocut := ct_dz t * tb_dphi T * (tb_rmax T * tb_rmax T - tb_rmin T * tb_rmin T) in
  let delta := (1 / 3) * (tb_rmax T * tb_rmax T * tb_rmax T - tb_rmin T * tb_rmin T * tb_rmin T) *
    ((vx (pl_n upper) / vz (pl_n upper) - vx (pl_n lower) / vz (pl_n lower)) * (ct_sin2 t - ct_sin1 t) -
     (vy (pl_n upper) / vz (pl_n upper) - vy (pl_n lower) / vz (pl_n lower)) * (ct_cos2 t - ct_cos1 t)) in
  nocut - delta.
(** source/UnplacedCutTube.cpp:55-63: the areas in the order of the pieces bottom, top, outer, inner, first and second side *)
Definition ct_areas : list R := [ct_bottom; ct_top; ct_lateral (tb_rmax T); ct_lateral (tb_rmin T); ct_phi (tb_sphi T); ct_phi (tb_sphi T + tb_dphi T)].
(** source/UnplacedCutTube.cpp:48-125; the loop of lines 70-72 is [pick] of TrdModel; [u], [v], [w] are the following uniform numbers for the radius, the angle and the height *)
Definition ct_sample (r u v w : R) : option v3 :=
  match pick (r * foldl Rplus 0 ct_areas) ct_areas with
  | None => None
  | Some i =>
    let ru := tb_rmin T + (tb_rmax T - tb_rmin T) * u in
    let pu := tb_sphi T + ((tb_sphi T + tb_dphi T) - tb_sphi T) * v in
    let at_ (r phi z : R) := V3 (r * cos phi) (r * sin phi) z in
    let between (r phi : R) := at_ r phi (z_bottom r phi + (z_top r phi - z_bottom r phi) * w) in
    Some (match i with
    | 0%nat => at_ ru pu (z_bottom ru pu)
    | 1%nat => at_ ru pu (z_top ru pu)
    | 2%nat => between (tb_rmax T) pu
    | 3%nat => between (tb_rmin T) pu
    | 4%nat => between ru (tb_sphi T)
    | _ => between ru (tb_sphi T + tb_dphi T)
    end)
  end.
(** source/UnplacedCutTube.cpp:175-184 *)
Definition ct_convex : bool := reqb (tb_rmin T) 0 && (rleb (tb_dphi T) PI || reqb (tb_dphi T) (2 * PI)).
(** source/UnplacedCutTube.cpp:210-225: a vertex of the mesh in the upper or the lower row of the radius [r] *)
Definition ct_vertex (n i : nat) (up : bool) (r : R) : v3 :=
  let phi := tb_sphi T + INR i * (tb_dphi T / INR n) in
  let x := r * cos phi in let y := r * sin phi in
  let N := pl_n (if up then upper else lower) in
  V3 x y ((ct_dz t - vx N * x - vy N * y) / vz N).
(** UnplacedCutTube.h:113 *)
Definition ct_set_dz (z : R) : ctube :=
  CTube (ct_dz t) (set_dz T z) lower upper (ct_cos1 t) (ct_sin1 t) (ct_cos2 t) (ct_sin2 t) (ct_max t).
End Kernels.
