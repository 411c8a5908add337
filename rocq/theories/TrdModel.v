(** Trds (frustums over rectangles): VecGeom/volumes/TrdStruct.h, VecGeom/volumes/kernel/TrdImplementation.h,
    VecGeom/volumes/kernel/shapetypes/TrdTypes.h, VecGeom/volumes/UnplacedTrd.h, source/UnplacedTrd.cpp.
    Scalar kernels with exact arithmetic, but for sums with kTiny; vecCore::EarlyReturnAllowed is true, masks are bools.
    The virtual table, printing, placing and the CUDA parts are left out. *)
From Coq Require Import Reals Lra Lia Bool.
From stdpp Require Import base list option numbers tactics.
From Verif Require Import Real3 AABBModel BoxModel PlanesModel.
Import stdpp.list.
Local Open Scope R_scope.

(** TrdStruct.h:20-39 *)
Record trd := Trd {
  td_x1 : R; td_x2 : R; td_y1 : R; td_y2 : R; td_z : R;
  td_dx : R; td_dy : R; td_hx : R; td_hy : R; td_cx : R; td_cy : R; td_sx : R; td_sy : R; td_tx : R; td_ty : R;
  td_fx : R; td_fy : R }.
(** TrdStruct.h:101-119; the lengths go in as arguments *)
Definition calculate_cached (x1 x2 y1 y2 z : R) : trd :=
  let dx := x2 - x1 in
  let dy := y2 - y1 in
  let hx := (1 / 2) * (x1 + x2) in
  let hy := (1 / 2) * (y1 + y2) in
  let fx := (1 / 2) * (x1 - x2) / z in
  let fy := (1 / 2) * (y1 - y2) / z in
  let sx := R_sqrt.sqrt (1 + fx * fx) in
  let sy := R_sqrt.sqrt (1 + fy * fy) in
  let cx := 1 / R_sqrt.sqrt (1 + fx * fx) in
  let cy := 1 / R_sqrt.sqrt (1 + fy * fy) in
  let tx := kTolerance * R_sqrt.sqrt (dx * dx + 4 * z * z) in
  let ty := kTolerance * R_sqrt.sqrt (dx * dx + 4 * z * z) in
  Trd x1 x2 y1 y2 z dx dy hx hy cx cy sx sy tx ty fx fy.
(** TrdStruct.h:64-70, 50-56, 76-82 *)
Definition trd_struct (x1 x2 y1 y2 z : R) : trd := calculate_cached x1 x2 y1 y2 z.
Definition trd_struct4 (x1 x2 y z : R) : trd := calculate_cached x1 x2 y y z.
Definition trd_struct3 (x y z : R) : trd := calculate_cached x x y y z.
(** UnplacedTrd.h:217-222 *)
Definition trd_extent (t : trd) : v3 * v3 :=
  (V3 (- Rmax (td_x1 t) (td_x2 t)) (- Rmax (td_y1 t) (td_y2 t)) (- td_z t),
   V3 (Rmax (td_x1 t) (td_x2 t)) (Rmax (td_y1 t) (td_y2 t)) (td_z t)).
(** UnplacedTrd.h:35 fTrd and VecGeom/volumes/UnplacedVolume.h:44 fBBox, which ComputeBBox of
    VecGeom/volumes/UnplacedVolume.h:72-77 sets to Extent *)
Record utrd := UTrd { ut_trd : trd; ut_bbox : v3 * v3 }.
(** UnplacedTrd.h:75-81; 62-67 and 50-55 are the same with [y1 = y2] and [x1 = x2] *)
Definition mk_trd (x1 x2 y1 y2 z : R) : utrd := let t := trd_struct x1 x2 y1 y2 z in UTrd t (trd_extent t).
(** UnplacedTrd.h:93-97 and TrdStruct.h:90-99; UnplacedTrd.h:100-137 *)
Inductive trd_op := SetAll (x1 x2 y1 y2 z : R) | SetX1 (a : R) | SetX2 (a : R) | SetY1 (a : R) | SetY2 (a : R) | SetZ (a : R).
Definition trd_do (u : utrd) (o : trd_op) : utrd :=
  let t := ut_trd u in
  UTrd
    match o with
    | SetAll x1 x2 y1 y2 z => calculate_cached x1 x2 y1 y2 z
    | SetX1 a => calculate_cached a (td_x2 t) (td_y1 t) (td_y2 t) (td_z t)
    | SetX2 a => calculate_cached (td_x1 t) a (td_y1 t) (td_y2 t) (td_z t)
    | SetY1 a => calculate_cached (td_x1 t) (td_x2 t) a (td_y2 t) (td_z t)
    | SetY2 a => calculate_cached (td_x1 t) (td_x2 t) (td_y1 t) a (td_z t)
    | SetZ a => calculate_cached (td_x1 t) (td_x2 t) (td_y1 t) (td_y2 t) a
    end (ut_bbox u).

(** TrdTypes.h:32-40 *)
Inductive trd_type := UniversalTrd | Trd1 | Trd2.
(** TrdTypes.h:46-62 *)
Inductive treatment := kYes | kNo | kUnknown.
Definition has_varying_y (k : trd_type) : treatment := match k with UniversalTrd => kUnknown | Trd1 => kNo | Trd2 => kYes end.
(** TrdTypes.h:66-75 *)
Definition check_varying_y (k : trd_type) (t : trd) : bool :=
  match has_varying_y k with kUnknown => negb (reqb (td_y1 t) (td_y2 t)) | kYes => true | kNo => false end.

(** VecGeom/volumes/kernel/GenericKernels.h:26-29, 34-37 *)
Definition plus_tolerant (tolerant : bool) (x : R) : R := if tolerant then x + kHalfTolerance else x.
Definition minus_tolerant (tolerant : bool) (x : R) : R := if tolerant then x - kHalfTolerance else x.
(** [x + kTiny] in double precision: [x] itself when [x] is at least kAbsorb, 2^-46, in size *)
Definition plus_tiny (x : R) : R := if rgeb (Rabs x) kAbsorb then x else x + kTiny.
(** Results closer to zero than half a tolerance become zero: TrdImplementation.h:133, 327, 343, 368, 412, 472 *)
Definition snap (d : R) : R := if rltb (Rabs d) kHalfTolerance then 0 else d.

Section Kernel.
(** VecGeom/base/Math.h:41 kInfLength *)
Variable inf : R.
Variable k : trd_type.
Variable t : trd.
(** TrdImplementation.h:41-47 *)
Definition orientation (px py vx vy : R) : R := vx * py - vy * px.
(** TrdImplementation.h:166-210; completelyinside (for [surface] only) and completelyoutside *)
Definition trd_kernel (surface : bool) (p : v3) : bool * bool :=
  let pz := vz p + td_z t in
  let outside := rgtb (Rabs (vz p)) (plus_tolerant surface (td_z t)) in
  let inside := rltb (Rabs (vz p)) (minus_tolerant surface (td_z t)) in
  let cross := orientation (Rabs (vx p) - td_x1 t) pz (td_dx t) (2 * td_z t) in
  let outside := if surface then outside || rltb cross (- td_tx t) else outside || rltb cross 0 in
  let inside := inside && rgtb cross (td_tx t) in
  match has_varying_y k with
  | kNo => (inside && rltb (Rabs (vy p)) (minus_tolerant surface (td_y1 t)), outside || rgtb (Rabs (vy p)) (plus_tolerant surface (td_y1 t)))
  | _ =>
    let cross := orientation (Rabs (vy p) - td_y1 t) pz (td_dy t) (2 * td_z t) in
    let outside := if surface then outside || rltb cross (- td_ty t) else outside || rltb cross 0 in
    (inside && rgtb cross (td_ty t), outside)
  end.
(** TrdImplementation.h:240-248 *)
Definition trd_contains (p : v3) : bool := negb (snd (trd_kernel false p)).
(** TrdImplementation.h:250-273 *)
Definition trd_inside (p : v3) : inside :=
  let '(i, o) := trd_kernel true p in if o then kOutside else if i then kInside else kSurface.
(** TrdImplementation.h:137-164; [inner] is the template argument inside *)
Definition trd_safety (inner : bool) (p : v3) : R :=
  let dist := td_z t - Rabs (vz p) in
  let distx := td_hx t - td_fx t * vz p in
  let safx := (distx - Rabs (vx p)) * td_cx t in
  let dist := if rgeb distx 0 && rltb safx dist then safx else dist in
  let dist :=
    if check_varying_y k t then
      let disty := td_hy t - td_fy t * vz p in
      let safy := (disty - Rabs (vy p)) * td_cy t in
      if rgeb disty 0 && rltb safy dist then safy else dist
    else let safy := td_y1 t - Rabs (vy p) in if rltb safy dist then safy else dist in
  if inner then dist else - dist.
(** TrdImplementation.h:476-482, 484-490 *)
Definition trd_safety_in (p : v3) : R := trd_safety false p.
Definition trd_safety_out (p : v3) : R := trd_safety true p.
(** TrdImplementation.h:77-135; the distance when [ok] *)
Definition face_hit (forY mirrored to_inside : bool) (pos dir : v3) : option R :=
  let along := if forY then td_dy t else td_dx t in
  let v1 := if forY then td_y1 t else td_x1 t in
  let posV := if forY then vy pos else vx pos in
  let posK := if forY then vx pos else vy pos in
  let dirV := if forY then vy dir else vx dir in
  let dirK := if forY then vx dir else vy dir in
  let fK := if forY then td_fx t else td_fy t in
  let fV := if forY then td_fy t else td_fx t in
  let halfK := if forY then td_hx t else td_hy t in
  let posV := if mirrored then posV * -1 else posV in
  let dirV := if mirrored then dirV * -1 else dirV in
  let ndotv := dirV + fV * vz dir in
  let ok := if to_inside then rltb ndotv 0 else rgtb ndotv 0 in
  if negb ok then None else
  let alongZ := 2 * td_z t in
  let dist := (alongZ * (posV - v1) - along * (vz pos + td_z t)) / plus_tiny (vz dir * along - dirV * alongZ) in
  if negb (rgtb dist (minus_tolerant true 0)) then None else
  let hitz := vz pos + dist * vz dir in
  let hitk := posK + dist * dirK in
  let dK := halfK - fK * hitz in
  if rleb (Rabs hitz) (td_z t) && rleb (Rabs hitk) dK then Some (snap dist) else None.
(** TrdImplementation.h:275-369 *)
Definition trd_to_in (p d : v3) : R :=
  let inz := rltb (Rabs (vz p)) (minus_tolerant true (td_z t)) in
  let distx := td_hx t - td_fx t * vz p in
  let inx := rgtb ((distx - Rabs (vx p)) * td_cx t) (plus_tolerant true 0) in
  let vary := check_varying_y k t in
  let disty := if vary then td_hy t - td_fy t * vz p else Rabs (vy p) - td_y1 t in
  let iny := if vary then rgtb ((disty - Rabs (vy p)) * td_cy t) (plus_tolerant true 0) else rltb disty (minus_tolerant true 0) in
  let inside := inx && iny && inz in
  let distance := if inside then -1 else inf in
  let okz := rltb (vz p * vz d) 0 && negb inz in
  let distz := (Rabs (vz p) - td_z t) / Rabs (vz d) in
  let hitx := Rabs (vx p + distz * vx d) in
  let hity := Rabs (vy p + distz * vy d) in
  let okzt := rgtb (vz p) (td_z t - kHalfTolerance) && rleb hitx (td_x2 t) && rleb hity (td_y2 t) in
  let okzb := rltb (vz p) (- td_z t + kHalfTolerance) && rleb hitx (td_x1 t) && rleb hity (td_y1 t) in
  let okz := okz && (okzt || okzb) in
  let distance := if okz then distz else distance in
  let over := inside || okz in
  if over then snap distance else
  let hit0 := if inx then None else face_hit false false true p d in
  let hit1 := if inx then None else face_hit false true true p d in
  let distance := default distance hit0 in
  let distance := default distance hit1 in
  if match hit1 with Some _ => true | None => false end then snap distance else
  let distance :=
    if iny then distance
    else if vary then
      let distance := default distance (face_hit true false true p d) in
      default distance (face_hit true true true p d)
    else
      let disty := disty / Rabs (vy d) in
      let zhit := vz p + disty * vz d in
      let xhit := vx p + disty * vx d in
      let dx := td_hx t - td_fx t * zhit in
      if rltb (vy p * vy d) 0 && rgtb disty (- kHalfTolerance) && rltb (Rabs xhit) dx && rltb (Rabs zhit) (td_z t) then disty else distance in
  snap distance.
(** TrdImplementation.h:371-474.  With [dir.y() = 0] the distance of 465 is infinite or not a number, and so are the
    hits with the faces at x or z, or they are not numbers: no comparison of 469 is true *)
Definition trd_to_out (p d : v3) : R :=
  let invdir := 1 / Rabs (plus_tiny (vz d)) in
  let safz := td_z t - Rabs (vz p) in
  let distx := td_hx t - td_fx t * vz p in
  let vary := check_varying_y k t in
  let disty := if vary then td_hy t - td_fy t * vz p else td_y1 t - Rabs (vy p) in
  let out := rltb safz (minus_tolerant true 0) || rltb ((distx - Rabs (vx p)) * td_cx t) (minus_tolerant true 0) ||
    (if vary then rltb ((disty - Rabs (vy p)) * td_cy t) (minus_tolerant true 0) else rltb disty (minus_tolerant true 0)) in
  if out then -1 else
  let distz := (td_z t - vz p) * invdir in
  if rgtb (vz d) 0 && rleb (Rabs (vx p + distz * vx d)) (td_x2 t) && rleb (Rabs (vy p + distz * vy d)) (td_y2 t) then snap distz else
  let distz := (vz p + td_z t) * invdir in
  if rltb (vz d) 0 && rleb (Rabs (vx p + distz * vx d)) (td_x1 t) && rleb (Rabs (vy p + distz * vy d)) (td_y1 t) then snap distz else
  match face_hit false false false p d with Some r => snap r | None =>
  match face_hit false true false p d with Some r => snap r | None =>
  if vary then
    match face_hit true false false p d with Some r => snap r | None =>
    match face_hit true true false p d with Some r => snap r | None => snap 0 end end
  else
    let plane := if rltb (vy d) 0 then - td_y1 t else td_y1 t in
    let disty := (plane - vy p) / vy d in
    let zhit := vz p + disty * vz d in
    let xhit := vx p + disty * vx d in
    let dx := td_hx t - td_fx t * zhit in
    if negb (reqb (vy d) 0) && rltb (Rabs xhit) dx && rltb (Rabs zhit) (td_z t) then snap disty else snap 0
  end end.
(** source/UnplacedTrd.cpp:276-354; the normal and the answer *)
Definition trd_normal (p : v3) : v3 * bool :=
  let dx := td_x2 t - td_x1 t in
  let dy := td_y2 t - td_y1 t in
  let z := td_z t in
  let distz := Rabs (Rabs (vz p) - z) in
  let xnorm := 1 / R_sqrt.sqrt (4 * z * z + dx * dx) in
  let ynorm := 1 / R_sqrt.sqrt (4 * z * z + dy * dy) in
  let distmx := (-2 * z * vx p - dx * vz p - z * (td_x1 t + td_x2 t)) * xnorm in
  let distpx := (2 * z * vx p - dx * vz p - z * (td_x1 t + td_x2 t)) * xnorm in
  let distmy := (-2 * z * vy p - dy * vz p - z * (td_y1 t + td_y2 t)) * ynorm in
  let distpy := (2 * z * vy p - dy * vz p - z * (td_y1 t + td_y2 t)) * ynorm in
  let safmin := Rmin (Rabs distmx) (Rabs distpx) in
  let safmin := Rmin safmin (Rmin (Rabs distmy) (Rabs distpy)) in
  let safmin := Rmin safmin (Rabs distz) in
  let valid := rleb safmin kHalfTolerance in
  let add (c : R) (n : v3) (acc : nat * v3) := if rleb (c - safmin) kHalfTolerance then (Datatypes.S (fst acc), vadd (snd acc) n) else acc in
  let acc := (0%nat, vzero) in
  let acc := add (Rabs distmx) (vscale xnorm (V3 (-2 * z) 0 (- dx))) acc in
  let acc := add (Rabs distpx) (vscale xnorm (V3 (2 * z) 0 (- dx))) acc in
  let acc := add (Rabs distpy) (vscale ynorm (V3 0 (2 * z) (- dy))) acc in
  let acc := add (Rabs distmy) (vscale ynorm (V3 0 (-2 * z) (- dy))) acc in
  let acc := add (Rabs distz) (if rgeb (vz p) 0 then V3 0 0 1 else V3 0 0 (-1)) acc in
  (match fst acc with 0%nat => V3 0 0 1 | 1%nat => snd acc | _ => vscale (1 / vmag (snd acc)) (snd acc) end, valid).
End Kernel.

Section Measures.
Variable t : trd.
(** source/UnplacedTrd.cpp:134-138 *)
Definition trd_capacity : R :=
  2 * (td_x1 t + td_x2 t) * (td_y1 t + td_y2 t) * td_z t + 2 / 3 * (td_x1 t - td_x2 t) * (td_y1 t - td_y2 t) * td_z t.
(** source/UnplacedTrd.cpp:140-157 *)
Definition trd_area : R :=
  let dz := 2 * td_z t in
  let ht := if reqb (td_x1 t) (td_x2 t) then dz else R_sqrt.sqrt ((td_x1 t - td_x2 t) * (td_x1 t - td_x2 t) + dz * dz) in
  2 * 2 * (1 / 2) * (td_y1 t + td_y2 t) * ht + 2 * 2 * (1 / 2) * (td_x1 t + td_x2 t) * ht +
  (4 * (td_x1 t * td_y1 t) + 4 * (td_x2 t * td_y2 t)).
(** UnplacedTrd.h:232-248 *)
Definition x_area : R := 2 * td_z t * (td_y1 t + td_y2 t) * td_sx t.
Definition y_area : R := 2 * td_z t * (td_x1 t + td_x2 t) * td_sy t.
Definition high_area : R := 4 * td_x2 t * td_y2 t.
Definition low_area : R := 4 * td_x1 t * td_y1 t.
(** source/UnplacedTrd.cpp:162-173 *)
Definition trd_shares : list R :=
  let yarea := y_area / (td_x1 t + td_x2 t) in
  let xarea := x_area / (td_y1 t + td_y2 t) in
  [low_area / 2; low_area / 2; high_area / 2; high_area / 2;
   yarea * td_x1 t; yarea * td_x2 t; yarea * td_x1 t; yarea * td_x2 t;
   xarea * td_y1 t; xarea * td_y2 t; xarea * td_y1 t; xarea * td_y2 t].
(** source/UnplacedTrd.cpp:181-182; beyond the last share the behaviour is undefined *)
Fixpoint pick (rand : R) (shares : list R) : option nat :=
  match shares with
  | [] => None
  | s :: rest => if rgtb rand s then Datatypes.S <$> pick (rand - s) rest else Some 0%nat
  end.
(** source/UnplacedTrd.cpp:175-185; [r] drawn from [0, 1) *)
Definition choose_surface (r : R) : option nat := pick (r * foldl Rplus 0 trd_shares) trd_shares.
(** source/UnplacedTrd.cpp:200-264; A, B and C *)
Definition trd_triangle (i : nat) : v3 * v3 * v3 :=
  let x1 := td_x1 t in let x2 := td_x2 t in let y1 := td_y1 t in let y2 := td_y2 t in let z := td_z t in
  match i with
  | 0%nat => (V3 (- x1) (- y1) (- z), V3 x1 (- y1) (- z), V3 (- x1) y1 (- z))
  | 1%nat => (V3 x1 y1 (- z), V3 x1 (- y1) (- z), V3 (- x1) y1 (- z))
  | 2%nat => (V3 (- x2) (- y2) z, V3 x2 (- y2) z, V3 (- x2) y2 z)
  | 3%nat => (V3 x2 y2 z, V3 x2 (- y2) z, V3 (- x2) y2 z)
  | 4%nat => (V3 (- x1) (- y1) (- z), V3 x1 (- y1) (- z), V3 (- x2) (- y2) z)
  | 5%nat => (V3 x2 (- y2) z, V3 x1 (- y1) (- z), V3 (- x2) (- y2) z)
  | 6%nat => (V3 x1 y1 (- z), V3 (- x1) y1 (- z), V3 x2 y2 z)
  | 7%nat => (V3 (- x2) y2 z, V3 (- x1) y1 (- z), V3 x2 y2 z)
  | 8%nat => (V3 (- x1) (- y1) (- z), V3 (- x2) (- y2) z, V3 (- x1) y1 (- z))
  | 9%nat => (V3 (- x2) y2 z, V3 (- x2) (- y2) z, V3 (- x1) y1 (- z))
  | 10%nat => (V3 x1 y1 (- z), V3 x2 y2 z, V3 x1 (- y1) (- z))
  | _ => (V3 x2 (- y2) z, V3 x2 y2 z, V3 x1 (- y1) (- z))
  end.
(** source/UnplacedTrd.cpp:188-274; [r], [r1], [r2] are the three random numbers *)
Definition trd_sample (r r1 r2 : R) : option v3 :=
  i ← choose_surface r;
  let '(a, b, c) := trd_triangle i in
  let '(r1, r2) := if rgtb (r1 + r2) 1 then (1 - r1, 1 - r2) else (r1, r2) in
  Some (vadd (vadd a (vscale r1 (vsub b a))) (vscale r2 (vsub c a))).
(** source/UnplacedTrd.cpp:100-131; the vertices before the transformation, and the polygons *)
Definition trd_mesh : list v3 * list (list nat) :=
  let x1 := td_x1 t in let x2 := td_x2 t in let y1 := td_y1 t in let y2 := td_y2 t in let z := td_z t in
  ([V3 (- x1) (- y1) (- z); V3 (- x1) y1 (- z); V3 x1 y1 (- z); V3 x1 (- y1) (- z);
    V3 (- x2) (- y2) z; V3 (- x2) y2 z; V3 x2 y2 z; V3 x2 (- y2) z],
   [[0; 1; 2; 3]; [4; 7; 6; 5]; [0; 4; 5; 1]; [1; 5; 6; 2]; [2; 6; 7; 3]; [3; 7; 4; 0]]%nat).
End Measures.

(** The kinds of objects the factory makes: boxes behind a Trd (VecGeom/volumes/UnplacedImplAs.h:20-33), Trds of a type *)
Inductive made := MadeBox (k : trd_type) (u : utrd) (b : v3) | MadeTrd (k : trd_type) (u : utrd).
(** source/UnplacedTrd.cpp:49-69, with VECGEOM_NO_SPECIALIZATION when [generic] *)
Definition make_trd (generic : bool) (x1 x2 y1 y2 z : R) : made :=
  if generic then MadeTrd UniversalTrd (mk_trd x1 x2 y1 y2 z)
  else if reqb x1 x2 && reqb y1 y2 then MadeBox Trd2 (mk_trd x1 x1 y1 y1 z) (V3 x1 y1 z)
  else if reqb y1 y2 then MadeTrd Trd1 (mk_trd x1 x2 y1 y1 z)
  else MadeTrd Trd2 (mk_trd x1 x2 y1 y2 z).
(** source/UnplacedTrd.cpp:71-87 *)
Definition make_trd1 (generic : bool) (x1 x2 y1 z : R) : made :=
  if generic then MadeTrd UniversalTrd (mk_trd x1 x2 y1 y1 z)
  else if reqb x1 x2 then MadeBox Trd1 (mk_trd x1 x1 y1 y1 z) (V3 x1 y1 z)
  else MadeTrd Trd1 (mk_trd x1 x2 y1 y1 z).
(** Contains, Inside, DistanceToOut and the safeties of the box (VecGeom/volumes/UnplacedImplAs.h:35-60), DistanceToIn of the Trd *)
Definition made_contains (m : made) (p : v3) : bool := match m with MadeBox _ _ b => box_contains b p | MadeTrd k u => trd_contains k (ut_trd u) p end.
Definition made_inside (m : made) (p : v3) : inside := match m with MadeBox _ _ b => box_inside b p | MadeTrd k u => trd_inside k (ut_trd u) p end.
Definition made_to_in (inf : R) (m : made) (p d : v3) : R :=
  match m with MadeBox k u _ => trd_to_in inf k (ut_trd u) p d | MadeTrd k u => trd_to_in inf k (ut_trd u) p d end.
