(** Simple extruded solids: VecGeom/volumes/PolygonalShell.h, VecGeom/volumes/kernel/SExtruImplementation.h and
    VecGeom/volumes/UnplacedSExtruVolume.h.  Scalar kernels with exact real arithmetic; [None] an index outside of the
    buffers or a division by zero.  [kvs] is the number of lanes used by PlanarPolygon, [inf] is kInfLength. *)
From Coq Require Import Reals Lra Lia Bool ZArith.
From stdpp Require Import base list option numbers tactics.
From Verif Require Import Real3 BoxModel AABBModel ABBoxModel PlanesModel PolygonModel.
Import stdpp.list.
Local Open Scope R_scope.

(** PolygonalShell.h:20-22 *)
Record shell := Shell { sh_poly : polygon; sh_lo : R; sh_hi : R }.
Section SExtru.
Variables (kvs : nat) (inf : R).
(** PolygonalShell.h:33-36, 39-44 *)
Definition sh_init (pts : list (R * R)) (lo hi : R) : option shell :=
  P ← pg_init kvs inf pts; Some (Shell P lo hi).
Variable s : shell.
Let P := sh_poly s.
Let es := pg_edges (sh_poly s).
(** PolygonalShell.h:48-57 *)
Definition sh_area : R := R_sqrt.sqrt (foldl (λ a e, a + e_lsq e) 0 es) * (sh_hi s - sh_lo s).
(** UnplacedSExtruVolume.h:41, 44; PlanarPolygon.h:400-416 *)
Definition sx_capacity : R := pg_area es * (sh_hi s - sh_lo s).
Definition sx_area : R := sh_area + 2 * pg_area es.
(** PolygonalShell.h:70-79; UnplacedSExtruVolume.h:47 *)
Definition sx_extent : aabb := {| bmin := V3 (pg_minx P) (pg_miny P) (sh_lo s); bmax := V3 (pg_maxx P) (pg_maxy P) (sh_hi s) |}.

(** SExtruImplementation.h:26-37 *)
Definition sx_contains (p : v3) : bool :=
  if rgtb (vz p) (sh_hi s) || rltb (vz p) (sh_lo s) then false
  else if pg_convex P then contains_convex inf P (vx p) (vy p)
  else contains_lanes P kvs (vx p) (vy p).
(** SExtruImplementation.h:40-89 *)
Definition sx_inside (p : v3) : option inside :=
  if rgtb (vz p) (sh_hi s + kTolerance) then Some kOutside
  else if rltb (vz p) (sh_lo s - kTolerance) then Some kOutside
  else
  let onZ := rltb (Rabs (vz p - sh_hi s)) kTolerance || rltb (Rabs (vz p - sh_lo s)) kTolerance in
  if pg_convex P then
    let i := inside_convex inf P (vx p) (vy p) in
    Some (if onZ then match i with kOutside => i | _ => kSurface end else i)
  else if onZ && contains_lanes P kvs (vx p) (vy p) then Some kSurface
  else
    near ← (if rleb (sh_lo s) (vz p) && rleb (vz p) (sh_hi s)
            then q ← safety_sqr P kvs (vx p) (vy p); Some (rltb (fst q) (kTolerance * kTolerance)) else Some false);
    Some (if near : bool then kSurface else if sx_contains p then kInside else kOutside).

(** PolygonalShell.h:304-327, the scalar specialisation; CopySign of a zero is taken as that of plus zero *)
Definition to_out_convex (p d : v3) : R :=
  let dz := / 2 * (sh_hi s - sh_lo s) in
  let pz := vz p - / 2 * (sh_lo s + sh_hi s) in
  if rgtb (Rabs pz - dz) kTolerance then - kTolerance else
  let tmax := ((if rltb (vz d) 0 then - dz else dz) - vz p) / nz (vz d) in
  (fix loop (es : list edge) (tmax : R) : R :=
     match es with
     | [] => tmax
     | e :: es =>
       let proj := - (e_a e * vx d + e_b e * vy d) in
       let pdist := dseg e (vx p) (vy p) in
       if rgtb pdist kTolerance then - kTolerance else
       loop es (if rgtb proj 0 then let dist := - pdist / nz proj in if rgtb tmax dist then dist else tmax else tmax)
     end) es tmax.
(** PolygonalShell.h:332-362, the scalar specialisation: the loop over the sides; [None] is the return of kInfLength in it *)
Fixpoint to_in_sides (p d : v3) (es : list edge) (tmin tmax : R) : option (R * R) :=
  match es with
  | [] => Some (tmin, tmax)
  | e :: es =>
    let proj := - (e_a e * vx d + e_b e * vy d) in
    let moving_away := rgtb proj (- kTolerance) in
    let pdist := dseg e (vx p) (vy p) in
    if rgtb pdist (- kTolerance) then
      if moving_away then None
      else let dist := - pdist / nz proj in to_in_sides p d es (if rgtb dist tmin then dist else tmin) tmax
    else if moving_away then let dist := - pdist / nz proj in to_in_sides p d es tmin (if rltb dist tmax then dist else tmax)
    else to_in_sides p d es tmin tmax
  end.
Definition to_in_convex (p d : v3) : R :=
  let dz := / 2 * (sh_hi s - sh_lo s) in
  let pz := vz p - / 2 * (sh_lo s + sh_hi s) in
  if rgtb (Rabs pz - dz) (- kTolerance) && rgeb (pz * vz d) 0 then inf else
  let invz := -1 / nz (vz d) in
  let ddz := if rltb invz 0 then dz else - dz in
  match to_in_sides p d es ((pz + ddz) * invz) ((pz - ddz) * invz) with
  | None => inf
  | Some (tmin, tmax) => if rltb tmax (tmin + kTolerance) then inf else tmin
  end.
(** PolygonalShell.h:138-182: one side, the accepted distance *)
Definition in_hit (p d : v3) (e : edge) : option R :=
  let proj := e_a e * vx d + e_b e * vy d in
  if negb (rgeb proj (- kTolerance)) then None else
  let pdist := e_a e * vx p + e_b e * vy p + e_d e in
  if rgtb pdist kTolerance then None else
  let dist := - pdist / nz proj in
  let z := vz p + dist * vz d in
  if rleb z (sh_hi s) && rgeb z (sh_lo s) && on_segment e (vx p + dist * vx d) (vy p + dist * vy d) then Some dist else None.
Definition nearest (hit : edge → option R) : R :=
  foldl (λ r e, match hit e with Some x => Rmin x r | None => r end) inf es.
Definition shell_to_in (p d : v3) : R := nearest (in_hit p d).
(** PolygonalShell.h:248-295: one side *)
Definition out_hit (p d : v3) (e : edge) : option R :=
  let proj := e_a e * vx d + e_b e * vy d in
  if negb (rleb proj kTolerance) then None else
  let pdist := e_a e * vx p + e_b e * vy p + e_d e in
  if rltb pdist (- kTolerance) then None else
  let dist := - pdist / nz proj in
  let z := vz p + dist * vz d in
  if rleb z (sh_hi s) && rgeb z (sh_lo s) && on_segment e (vx p + dist * vx d) (vy p + dist * vy d) && rgeb dist (- kTolerance) then Some dist else None.
Definition shell_to_out (p d : v3) : R := nearest (out_hit p d).
(** SExtruImplementation.h:92-125; the polygon is not convex at 123 *)
Definition sx_to_in (p d : v3) : option R :=
  if pg_convex P then Some (to_in_convex p d) else
  let c := if rgtb (vz d) 0 then vz p - sh_lo s else sh_hi s - vz p in
  hit ← (if rltb c kTolerance then
           if reqb (vz d) 0 then None
           else let dist := - c / Rabs (vz d) in
             Some (if contains_lanes P kvs (vx p + dist * vx d) (vy p + dist * vy d) then Some dist else None)
         else Some None);
  Some (match hit with Some dist => dist | None => shell_to_in p d end).
(** SExtruImplementation.h:128-148 *)
Definition sx_to_out (p d : v3) : option R :=
  if pg_convex P then Some (to_out_convex p d) else
  let dshell := shell_to_out p d in
  if rltb dshell inf then Some dshell
  else if reqb (vz d) 0 then None
  else Some (((if rgtb (vz d) 0 then sh_hi s else sh_lo s) - vz p) / vz d).
(** VecGeom/volumes/kernel/BoxImplementation.h:441-456 *)
Definition abbox_contains (b : aabb) (p : v3) : bool :=
  rltb (vx (bmin b)) (vx p) && rgtb (vx (bmax b)) (vx p) && rltb (vy (bmin b)) (vy p) && rgtb (vy (bmax b)) (vy p) &&
  rltb (vz (bmin b)) (vz p) && rgtb (vz (bmax b)) (vz p).
(** SExtruImplementation.h:151-192 *)
Definition sx_safety_to_in (p : v3) : option R :=
  if pg_convex P then
    let safeZ := Rmax (sh_lo s - vz p) (vz p - sh_hi s) in
    Some (Rmax safeZ (safety_convex inf P false (vx p) (vy p)))
  else if negb (abbox_contains sx_extent p) then
    let ssqr := ab_safety_sqr sx_extent p in
    Some (if rleb ssqr 0 then 0 else R_sqrt.sqrt ssqr)
  else
  if (rltb (Rabs (sh_lo s - vz p)) kTolerance || rltb (Rabs (sh_hi s - vz p)) kTolerance) && sx_contains p then Some 0
  else q ← safety_sqr P kvs (vx p) (vy p); Some (R_sqrt.sqrt (fst q)).
(** SExtruImplementation.h:195-207 *)
Definition sx_safety_to_out (p : v3) : option R :=
  if pg_convex P then
    let safeZ := Rmin (vz p - sh_lo s) (sh_hi s - vz p) in
    Some (Rmin safeZ (safety_convex inf P true (vx p) (vy p)))
  else
  q ← safety_sqr P kvs (vx p) (vy p);
  Some (Rmin (Rmin (R_sqrt.sqrt (fst q)) (sh_hi s - vz p)) (vz p - sh_lo s)).
(** SExtruImplementation.h:210-245 *)
Definition sx_normal (p : v3) : option (v3 * bool) :=
  let onUpperZ := rltb (Rabs (vz p - sh_hi s)) kTolerance in
  let onLowerZ := rltb (Rabs (vz p - sh_lo s)) kTolerance in
  if (onUpperZ || onLowerZ) && contains_lanes P kvs (vx p) (vy p) then
    Some (V3 0 0 (if onUpperZ then 1 else -1), true)
  else if rleb (sh_lo s) (vz p) && rleb (vz p) (sh_hi s) then
    q ← safety_sqr P kvs (vx p) (vy p);
    e ← es !! Z.to_nat (snd q);
    if bool_decide (snd q < 0)%Z then None else
    Some (V3 (- e_a e) (- e_b e) 0, rltb (fst q) (kTolerance * kTolerance))
  else Some (vzero, false).
End SExtru.
