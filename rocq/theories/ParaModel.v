(** Parallelepipeds: VecGeom/volumes/ParallelepipedStruct.h, VecGeom/volumes/kernel/ParallelepipedImplementation.h,
    VecGeom/volumes/UnplacedParallelepiped.h, source/UnplacedParallelepiped.cpp.
    Scalar kernels with exact arithmetic; NonZero is [nonzero] of AABBModel, Sign is [rsign] of BoxModel.
    The virtual table, printing, placing and the CUDA parts are left out. *)
From Coq Require Import Reals Lra Lia Bool.
From stdpp Require Import base list option numbers tactics.
From Verif Require Import Real3 AABBModel BoxModel TrapModel.
Import stdpp.list.
Local Open Scope R_scope.

(** ParallelepipedStruct.h:20-33 *)
Record para := Para {
  pp_dim : v3; pp_alpha : R; pp_theta : R; pp_phi : R; pp_ctx : R; pp_cty : R;
  pp_ax : R; pp_ay : R; pp_az : R; pp_nx : v3; pp_ny : v3; pp_nz : v3;
  pp_ta : R; pp_ts : R; pp_tc : R; pp_ct : R }.
(** ParallelepipedStruct.h:101-116 *)
Definition compute_normals (s : para) : para :=
  let ex := V3 1 0 0 in
  let ey := V3 (pp_ta s) 1 0 in
  let ez := V3 (pp_tc s) (pp_ts s) 1 in
  let n0 := vcross ey ez in
  let n1 := vcross ez ex in
  let n2 := V3 0 0 1 in
  let a0 := 4 * vy (pp_dim s) * vz (pp_dim s) * vmag n0 in
  let a1 := 4 * vz (pp_dim s) * vx (pp_dim s) * vmag n1 in
  let a2 := 4 * vx (pp_dim s) * vy (pp_dim s) in
  let n0 := unitize n0 in
  let n1 := unitize n1 in
  Para (pp_dim s) (pp_alpha s) (pp_theta s) (pp_phi s) (Rabs (vx n0)) (Rabs (vy n1)) a0 a1 a2 n0 n1 n2
    (pp_ta s) (pp_ts s) (pp_tc s) (pp_ct s).
(** ParallelepipedStruct.h:68-73 *)
Definition set_alpha (s : para) (alpha : R) : para :=
  compute_normals (Para (pp_dim s) alpha (pp_theta s) (pp_phi s) (pp_ctx s) (pp_cty s) (pp_ax s) (pp_ay s) (pp_az s)
    (pp_nx s) (pp_ny s) (pp_nz s) (tan alpha) (pp_ts s) (pp_tc s) (pp_ct s)).
(** ParallelepipedStruct.h:89-97 *)
Definition set_theta_phi (s : para) (theta phi : R) : para :=
  compute_normals (Para (pp_dim s) (pp_alpha s) theta phi (pp_ctx s) (pp_cty s) (pp_ax s) (pp_ay s) (pp_az s)
    (pp_nx s) (pp_ny s) (pp_nz s) (pp_ta s) (tan theta * sin phi) (tan theta * cos phi) (cos theta)).
(** ParallelepipedStruct.h:78, 83 *)
Definition set_theta (s : para) (theta : R) : para := set_theta_phi s theta (pp_phi s).
Definition set_phi (s : para) (phi : R) : para := set_theta_phi s (pp_theta s) phi.
(** ParallelepipedStruct.h:41-47, 57-63; the fields left open by the initialiser are zero here *)
Definition para_struct (dim : v3) (alpha theta phi : R) : para :=
  set_theta_phi (set_alpha (Para dim 0 0 0 0 0 0 0 0 vzero vzero vzero 0 0 0 0) alpha) theta phi.

(** source/UnplacedParallelepiped.cpp:79-88 *)
Definition para_extent (s : para) : v3 * v3 :=
  let dx := vx (pp_dim s) + vy (pp_dim s) * Rabs (pp_ta s) + vz (pp_dim s) * Rabs (pp_tc s) in
  let dy := vy (pp_dim s) + vz (pp_dim s) * Rabs (pp_ts s) in
  let dz := vz (pp_dim s) in
  (V3 (- dx) (- dy) (- dz), V3 dx dy dz).
(** UnplacedParallelepiped.h:38 fPara and VecGeom/volumes/UnplacedVolume.h:44 fBBox, which ComputeBBox of
    VecGeom/volumes/UnplacedVolume.h:72-77 sets to Extent *)
Record upara := UPara { up_para : para; up_bbox : v3 * v3 }.
(** UnplacedParallelepiped.h:49-55, 65-71 *)
Definition mk_para (dx dy dz alpha theta phi : R) : upara :=
  let s := para_struct (V3 dx dy dz) alpha theta phi in UPara s (para_extent s).
(** UnplacedParallelepiped.h:136, 143, 148-164 *)
Inductive para_op := OpDim (dim : v3) | OpAlpha (a : R) | OpTheta (a : R) | OpPhi (a : R) | OpThetaPhi (a b : R).
Definition para_do (u : upara) (o : para_op) : upara :=
  let s := up_para u in
  UPara
    match o with
    | OpDim dim => Para dim (pp_alpha s) (pp_theta s) (pp_phi s) (pp_ctx s) (pp_cty s) (pp_ax s) (pp_ay s) (pp_az s)
                     (pp_nx s) (pp_ny s) (pp_nz s) (pp_ta s) (pp_ts s) (pp_tc s) (pp_ct s)
    | OpAlpha a => set_alpha s a
    | OpTheta a => set_theta s a
    | OpPhi a => set_phi s a
    | OpThetaPhi a b => set_theta_phi s a b
    end (up_bbox u).
(** Solids made by the constructor and changed by any number of setters. *)
Definition history (dx dy dz alpha theta phi : R) (ops : list para_op) : upara := foldl para_do (mk_para dx dy dz alpha theta phi) ops.
Definition reachable (s : para) : Prop := ∃ dx dy dz alpha theta phi ops, s = up_para (history dx dy dz alpha theta phi ops).

(** UnplacedParallelepiped.h:180-182, 186 *)
Definition para_capacity (s : para) : R := 8 * vx (pp_dim s) * vy (pp_dim s) * vz (pp_dim s).
Definition para_area (s : para) : R := 2 * (pp_ax s + pp_ay s + pp_az s).

Section Kernels.
Variable inf : R.   (* VecGeom/base/Math.h:41 kInfLength *)
Variable s : para.
(** ParallelepipedImplementation.h:38-44 *)
Definition transform (p : v3) : v3 :=
  let y := vy p - pp_ts s * vz p in
  V3 (vx p - (pp_tc s * vz p + pp_ta s * y)) y (vz p).
(** ParallelepipedImplementation.h:46-54 *)
Definition safety_vector (q : v3) : v3 :=
  let v := vsub (vabs q) (pp_dim s) in V3 (vx v * pp_ctx s) (vy v * pp_cty s) (vz v).
(** ParallelepipedImplementation.h:56-66 *)
Definition para_contains (p : v3) : bool := rltb (vmax (safety_vector (transform p))) 0.
(** ParallelepipedImplementation.h:68-80 *)
Definition para_inside (p : v3) : inside :=
  let safety := vmax (safety_vector (transform p)) in
  let i := if rltb safety 0 then kInside else kOutside in
  if rltb (Rabs safety) kHalfTolerance then kSurface else i.
(** ParallelepipedImplementation.h:82-93 *)
Definition para_safety_in (p : v3) : R :=
  let safety := vmax (safety_vector (transform p)) in
  if rltb (Rabs safety) kHalfTolerance then 0 else safety.
(** ParallelepipedImplementation.h:95-106 *)
Definition para_safety_out (p : v3) : R :=
  let safety := - vmax (safety_vector (transform p)) in
  if rltb (Rabs safety) kHalfTolerance then 0 else safety.
(** ParallelepipedImplementation.h:108-143 *)
Definition para_to_in (point direction : v3) : R :=
  let p := transform point in
  let v := transform direction in
  let sv := safety_vector p in
  let leaving := (rgeb (vx sv) (- kHalfTolerance) && rgeb (vx p * vx v) 0) ||
                 (rgeb (vy sv) (- kHalfTolerance) && rgeb (vy p * vy v) 0) ||
                 (rgeb (vz sv) (- kHalfTolerance) && rgeb (vz p * vz v) 0) in
  let invDir := V3 (1 / nonzero (vx v)) (1 / nonzero (vy v)) (1 / nonzero (vz v)) in
  let signDir := vsign invDir in
  let temp := vmul signDir (pp_dim s) in
  let distIn := vmax (vmul (vsub (vneg temp) p) invDir) in
  let distOut := vmin (vmul (vsub temp p) invDir) in
  if negb leaving && rgtb distOut (distIn + kHalfTolerance) then distIn else inf.
(** ParallelepipedImplementation.h:145-168 *)
Definition para_to_out (point direction : v3) : R :=
  let p := transform point in
  let v := transform direction in
  let sv := safety_vector p in
  let dir := V3 (nonzero (vx v)) (nonzero (vy v)) (nonzero (vz v)) in
  let signDir := vsign dir in
  let temp := vsub (vmul signDir (pp_dim s)) p in
  let distance := vmin (V3 (vx temp / vx dir) (vy temp / vy dir) (vz temp / vz dir)) in
  if rgtb (vmax sv) kHalfTolerance then -1 else distance.
(** ParallelepipedImplementation.h:170-207; normal and valid *)
Definition para_normal (point : v3) : v3 * bool :=
  let p := transform point in
  let sv := safety_vector p in
  let signs := vsign p in
  let normal := vzero in
  let normal := if rleb (Rabs (vz sv)) kHalfTolerance then V3 0 0 (vz signs) else normal in
  let normal := if rleb (Rabs (vy sv)) kHalfTolerance then vadd normal (vscale (vy signs) (pp_ny s)) else normal in
  let normal := if rleb (Rabs (vx sv)) kHalfTolerance then vadd normal (vscale (vx signs) (pp_nx s)) else normal in
  let mag2 := vdot normal normal in
  let normal := if rgtb mag2 1 then unitize normal else normal in
  if rgtb mag2 0 then (normal, true) else
  let valid := if reqb mag2 0 then false else true in
  let safety := vmax sv in
  let normal := vscale (vx signs) (pp_nx s) in
  let normal := if reqb (vy sv) safety then vscale (vy signs) (pp_ny s) else normal in
  let normal := if reqb (vz sv) safety then vscale (vz signs) (pp_nz s) else normal in
  (normal, valid).
(** source/UnplacedParallelepiped.cpp:94-109: the facet for the number [r] drawn from [0, 1) *)
Definition para_facet (r : R) : nat :=
  let s0 := pp_ax s in
  let s1 := s0 + pp_ax s in
  let s2 := s1 + pp_ay s in
  let s3 := s2 + pp_ay s in
  let s4 := s3 + pp_az s in
  let s5 := s4 + pp_az s in
  let select := s5 * r in
  let i := 5%nat in
  let i := if rleb select s4 then 4%nat else i in
  let i := if rleb select s3 then 3%nat else i in
  let i := if rleb select s2 then 2%nat else i in
  let i := if rleb select s1 then 1%nat else i in
  if rleb select s0 then 0%nat else i.
(** source/UnplacedParallelepiped.cpp:91-156; [r], [u], [v] are the three numbers drawn *)
Definition para_sample (r u v : R) : v3 :=
  let Dx := vx (pp_dim s) in
  let Dy := vy (pp_dim s) in
  let Dz := vz (pp_dim s) in
  let A := Dy * pp_ta s in
  let C := Dz * pp_tc s in
  let T := Dz * pp_ts s in
  let '(p0, p1, p2) :=
    match para_facet r with
    | 0%nat => (V3 (- C - A - Dx) (- T - Dy) (- Dz), V3 (- C + A - Dx) (- T + Dy) (- Dz), V3 (C - A - Dx) (T - Dy) Dz)
    | 1%nat => (V3 (- C - A + Dx) (- T - Dy) (- Dz), V3 (C - A + Dx) (T - Dy) Dz, V3 (- C + A + Dx) (- T + Dy) (- Dz))
    | 2%nat => (V3 (- C - A - Dx) (- T - Dy) (- Dz), V3 (C - A - Dx) (T - Dy) Dz, V3 (- C - A + Dx) (- T - Dy) (- Dz))
    | 3%nat => (V3 (- C + A - Dx) (- T + Dy) (- Dz), V3 (- C + A + Dx) (- T + Dy) (- Dz), V3 (C + A - Dx) (T + Dy) Dz)
    | 4%nat => (V3 (- C - A - Dx) (- T - Dy) (- Dz), V3 (- C - A + Dx) (- T - Dy) (- Dz), V3 (- C + A - Dx) (- T + Dy) (- Dz))
    | _ => (V3 (C - A - Dx) (T - Dy) Dz, V3 (C + A - Dx) (T + Dy) Dz, V3 (C - A + Dx) (T - Dy) Dz)
    end in
  vadd (vadd p0 (vscale u (vsub p1 p0))) (vscale v (vsub p2 p0)).
(** source/UnplacedParallelepiped.cpp:21-47: the vertices of the mesh, not transformed; [None] when a division by zero or
    the root of a negative number gives NaN *)
Definition para_mesh : option (list v3) :=
  let dx := vx (pp_dim s) * 2 in
  let dy := vy (pp_dim s) * 2 in
  let dz := vz (pp_dim s) * 2 in
  let gamma := pp_phi s in
  let alpha := pp_theta s in
  let beta := pp_alpha s in
  if reqb (sin gamma) 0 then None else
  let intermediate := (cos alpha - cos beta * cos gamma) / sin gamma in
  let a := V3 dx 0 0 in
  let b := V3 (dy * cos gamma) (dy * sin gamma) 0 in
  let w := 1 - cos beta * cos beta - intermediate * intermediate in
  if rltb w 0 then None else
  let c := V3 (dz * cos beta) (dz * intermediate) (dz * R_sqrt.sqrt w) in
  let origin := vscale (1 / 2) (vadd (vadd a b) c) in
  Some (map (λ v, vsub v origin)
    [a; vadd a b; vadd (vadd a b) c; vadd a c; vzero; b; vadd b c; c]).
End Kernels.
