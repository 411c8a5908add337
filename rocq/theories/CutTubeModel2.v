(** Cut tubes: the bounding box and the way in.  source/UnplacedCutTube.cpp, VecGeom/volumes/CutPlanes.h, VecGeom/volumes/kernel/CutTubeImplementation.h.
    Scalar kernels, exact real arithmetic, the limit on the step is the infinite length. *)
From Coq Require Import Reals Lra Lia Bool.
From stdpp Require Import base list option numbers tactics.
From Verif Require Import Real3 BoxModel AABBModel PlanesModel TetModel WedgeModel TubeModel CutTubeModel.
Import stdpp.list.
Local Open Scope R_scope.

(** source/UnplacedCutTube.cpp:127-172; Max and Min of three arguments are nested *)
Definition ct_extent (t : ctube) : v3 * v3 :=
  let T := ct_tube t in let N := pl_n (ct_upper t) in let B := pl_n (ct_lower t) in
  let M := tb_rmax T in let m := tb_rmin T in
  let dztop := M * R_sqrt.sqrt (1 - vz N * vz N) / vz N in
  let dzbottom := - M * R_sqrt.sqrt (1 - vz B * vz B) / vz B in
  let lo := V3 (- M) (- M) (- ct_dz t - dzbottom) in
  let hi := V3 M M (ct_dz t + dztop) in
  if reqb (tb_dphi T) (2 * PI) then (lo, hi) else
  let inside := wedge_contains (tb_wedge T) in
  let s := tb_sphi T in let e := tb_sphi T + tb_dphi T in
  let high (f : R -> R -> R) := Rmax (Rmax (f M s) (f M e)) (Rmax (f m s) (f m e)) in
  let low (f : R -> R -> R) := Rmin (Rmin (f M s) (f M e)) (Rmin (f m s) (f m e)) in
  let high1 (a b : R) := Rmax (Rmax (M * a) (M * b)) (Rmax (m * a) (m * b)) in
  let low1 (a b : R) := Rmin (Rmin (M * a) (M * b)) (Rmin (m * a) (m * b)) in
  let hz := if negb (inside (- vx N) (- vy N)) then high (z_top t) else vz hi in
  let lz := if negb (inside (- vx B) (- vy B)) then low (z_bottom t) else vz lo in
  let hx := if negb (inside 1 0) then high1 (ct_cos1 t) (ct_cos2 t) else vx hi in
  let lx := if negb (inside (-1) 0) then low1 (ct_cos1 t) (ct_cos2 t) else vx lo in
  let hy := if negb (inside 0 1) then high1 (ct_sin1 t) (ct_sin2 t) else vy hi in
  let ly := if negb (inside 0 (-1)) then low1 (ct_sin1 t) (ct_sin2 t) else vy lo in
  (V3 lx ly lz, V3 hx hy hz).

(** CutPlanes.h:126-140 *)
Definition cut_to_in (inf : R) (lower upper : plane) (p d : v3) : R :=
  let d0 := plane_to_in inf lower p d in
  let d0 := if rgtb (vdot d (pl_n lower)) 0 then - inf else d0 in
  let d1 := plane_to_in inf upper p d in
  let d1 := if rgtb (vdot d (pl_n upper)) 0 then - inf else d1 in
  Rmax d0 d1.
(** CutTubeImplementation.h:149-253; the early returns of the scalar backend are taken, [start] is the class of lines 164-172 *)
Definition ct_to_in_kernel (inf : R) (t : ctube) (p d : v3) : R :=
  let lower := ct_lower t in let upper := ct_upper t in
  let start := ct_inside t p in
  let distance := match start with kInside => -1 | _ => inf end in
  let dplanes := cut_to_in inf lower upper p d in
  let hit := rltb (Rabs dplanes) inf && rgtb (cut_safety_in lower upper p) (- kTolerance) in
  let planes := cut_inside lower upper p in
  if negb (match planes with kInside => true | _ => false end) && negb hit then distance else
  let dplanes := if hit then dplanes else 0 in
  let q := if hit then along p d dplanes else p in
  let planes := if hit then cut_inside lower upper q else planes in
  if match planes with kOutside => true | _ => false end || match start with kInside => true | _ => false end then distance else
  if hit && negb (match tube_inside UniversalTube (ct_tube t) q with kOutside => true | _ => false end) then (if rltb (Rabs dplanes) kTolerance then 0 else dplanes) else
  let dexit := cut_to_out inf lower upper q d in
  let dtube := tube_to_in_kernel inf UniversalTube (ct_tube t) q d in
  let dtube := if rltb dtube 0 then 0 else dtube in
  let dtube := if rltb dexit dtube then inf else dtube in
  if rltb (dtube + dplanes) inf then dtube + dplanes else distance.
(** CutTubeImplementation.h:120-147 *)
Definition ct_to_in (inf : R) (t : ctube) (p d : v3) : R :=
  let far := rgtb (vmag p) (100 * ct_max t) in
  let move := if far then vmag p - 100 * ct_max t else 0 in
  let q := if far then along p d move else p in
  ct_to_in_kernel inf t q d + move.
