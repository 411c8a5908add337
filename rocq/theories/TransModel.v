(** Model of Transformation3D and Scale3D over the real numbers.
    VecGeom/base/Transformation3D.h, source/Transformation3D.cpp, VecGeom/base/Scale3D.h,
    DeltaTransformation of source/NavStateIndex.cpp and source/NavStatePath.cpp. *)
From Coq Require Import Reals ZArith Bool.
From Verif Require Import Real3.
Local Open Scope R_scope.

(* Transformation3D.h:59-63; fRotation row by row *)
Record trans := Tr {
  t0 : R; t1 : R; t2 : R;
  r0 : R; r1 : R; r2 : R; r3 : R; r4 : R; r5 : R; r6 : R; r7 : R; r8 : R;
  idn : bool; hasr : bool; hast : bool }.

(* Transformation3D.h:67-69 *)
Definition tr_one : trans := Tr 0 0 0  1 0 0  0 1 0  0 0 1  true false false.
(* Transformation3D.h:78-82 *)
Definition tr_translation (x y z : R) : trans :=
  Tr x y z  1 0 0  0 1 0  0 0 1  (reqb x 0 && reqb y 0 && reqb z 0) false
     (negb (reqb x 0) || negb (reqb y 0) || negb (reqb z 0)).

(* Transformation3D.h:32 *)
Definition kGeneric : Z := (-1)%Z.
Definition kDiagonal : Z := 0x111%Z.
Definition kIdentity : Z := 0x200%Z.
Definition bit (i : Z) (x : R) : Z := if rgtb (Rabs x) kTolerance then (2 ^ i)%Z else 0%Z.
(* Transformation3D.cpp:163-174 *)
Definition raw_code (t : trans) : Z :=
  (bit 0 (r0 t) + bit 1 (r1 t) + bit 2 (r2 t) + bit 3 (r3 t) + bit 4 (r4 t) + bit 5 (r5 t)
   + bit 6 (r6 t) + bit 7 (r7 t) + bit 8 (r8 t))%Z.
Definition rotation_code (t : trans) : Z :=
  let code := raw_code t in
  if (code =? kDiagonal)%Z && (reqb (r0 t) 1 && reqb (r4 t) 1 && reqb (r8 t) 1) then kIdentity else code.
(* Transformation3D.cpp:107-115 *)
Definition set_properties (t : trans) : trans :=
  let ht := rgtb (Rabs (t0 t)) kTolerance || rgtb (Rabs (t1 t)) kTolerance || rgtb (Rabs (t2 t)) kTolerance in
  let hr := negb (rotation_code t =? kIdentity)%Z in
  Tr (t0 t) (t1 t) (t2 t) (r0 t) (r1 t) (r2 t) (r3 t) (r4 t) (r5 t) (r6 t) (r7 t) (r8 t) (negb ht && negb hr) hr ht.
(* Transformation3D.cpp:43-51 *)
Definition tr_general (x y z a0 a1 a2 a3 a4 a5 a6 a7 a8 : R) : trans :=
  set_properties (Tr x y z a0 a1 a2 a3 a4 a5 a6 a7 a8 false true true).
(* Transformation3D.h:164-175 *)
Definition apply_scale (t : trans) (sx sy sz : R) : trans :=
  Tr (t0 t) (t1 t) (t2 t) (r0 t * sx) (r1 t * sy) (r2 t * sz) (r3 t * sx) (r4 t * sy) (r5 t * sz)
     (r6 t * sx) (r7 t * sy) (r8 t * sz) (idn t) (hasr t) (hast t).
(* Math.h:48 *)
Definition kDegToRad : R := PI / 180.
(* Transformation3D.cpp:118-137; the flags are left as they are *)
Definition set_rotation (t : trans) (phi theta psi : R) : trans :=
  let sinphi := sin (kDegToRad * phi) in let cosphi := cos (kDegToRad * phi) in
  let sinthe := sin (kDegToRad * theta) in let costhe := cos (kDegToRad * theta) in
  let sinpsi := sin (kDegToRad * psi) in let cospsi := cos (kDegToRad * psi) in
  Tr (t0 t) (t1 t) (t2 t)
     (cospsi * cosphi - costhe * sinphi * sinpsi) (- sinpsi * cosphi - costhe * sinphi * cospsi) (sinthe * sinphi)
     (cospsi * sinphi + costhe * cosphi * sinpsi) (- sinpsi * sinphi + costhe * cosphi * cospsi) (- sinthe * cosphi)
     (sinpsi * sinthe) (cospsi * sinthe) costhe
     (idn t) (hasr t) (hast t).
(* Transformation3D.cpp:22-29 *)
Definition tr_euler (x y z phi theta psi : R) : trans :=
  set_properties (set_rotation (Tr x y z 1 0 0 0 1 0 0 0 1 false true true) phi theta psi).
(* Transformation3D.cpp:66-75 with the polar angles (radians) of the axis given *)
Definition tr_axis (axphi axtheta : R) (inverse : bool) : trans :=
  let z := Tr 0 0 0 1 0 0 0 1 0 0 0 1 false false false in
  set_properties (if inverse then set_rotation z (axphi * (180 / PI) - 90) (- axtheta * (180 / PI)) 0
                  else set_rotation z 0 (axtheta * (180 / PI)) (90 - axphi * (180 / PI))).
(* Transformation3D.h:301-316 on a default-constructed object, from the values of [a] *)
Definition tr_set (a : trans) (ht hr : bool) : trans :=
  Tr (if ht then t0 a else 0) (if ht then t1 a else 0) (if ht then t2 a else 0)
     (if hr then r0 a else 1) (if hr then r1 a else 0) (if hr then r2 a else 0)
     (if hr then r3 a else 0) (if hr then r4 a else 1) (if hr then r5 a else 0)
     (if hr then r6 a else 0) (if hr then r7 a else 0) (if hr then r8 a else 1)
     (negb ht && negb hr) hr ht.
(* Transformation3D.h:200-208 *)
Definition fix_zero (x : R) : R := if rltb (Rabs x) kTolerance then 0 else x.
Definition fix_zeroes (t : trans) : trans :=
  Tr (fix_zero (t0 t)) (fix_zero (t1 t)) (fix_zero (t2 t))
     (fix_zero (r0 t)) (fix_zero (r1 t)) (fix_zero (r2 t)) (fix_zero (r3 t)) (fix_zero (r4 t)) (fix_zero (r5 t))
     (fix_zero (r6 t)) (fix_zero (r7 t)) (fix_zero (r8 t)) (idn t) (hasr t) (hast t).

(* Transformation3D.h:664-672 *)
Definition rotate_general (t : trans) (m : v3) : v3 :=
  V3 (vx m * r0 t + vy m * r3 t + vz m * r6 t)
     (vx m * r1 t + vy m * r4 t + vz m * r7 t)
     (vx m * r2 t + vy m * r5 t + vz m * r8 t).
(* Transformation3D.h:558-673 *)
Definition do_rotation (code : Z) (t : trans) (m : v3) : v3 :=
  if (code =? 0x1B1)%Z then V3 (vx m * r0 t) (vy m * r4 t + vz m * r7 t) (vy m * r5 t + vz m * r8 t)
  else if (code =? 0x18E)%Z then V3 (vy m * r3 t) (vx m * r1 t + vz m * r7 t) (vx m * r2 t + vz m * r8 t)
  else if (code =? 0x076)%Z then V3 (vz m * r6 t) (vx m * r1 t + vy m * r4 t) (vx m * r2 t + vy m * r5 t)
  else if (code =? 0x16A)%Z then V3 (vy m * r3 t + vz m * r6 t) (vx m * r1 t) (vz m * r5 t + vz m * r8 t)
  else if (code =? 0x155)%Z then V3 (vx m * r0 t + vz m * r6 t) (vy m * r4 t) (vx m * r2 t + vz m * r8 t)
  else if (code =? 0x0AD)%Z then V3 (vx m * r0 t + vy m * r3 t) (vz m * r7 t) (vx m * r2 t + vy m * r5 t)
  else if (code =? 0x0DC)%Z then V3 (vy m * r3 t + vz m * r6 t) (vy m * r4 t + vz m * r7 t) (vx m * r2 t)
  else if (code =? 0x0E3)%Z then V3 (vx m * r0 t + vz m * r6 t) (vx m * r1 t + vz m * r7 t) (vy m * r5 t)
  else if (code =? 0x11B)%Z then V3 (vx m * r0 t + vy m * r3 t) (vx m * r1 t + vy m * r4 t) (vz m * r8 t)
  else if (code =? 0x0A1)%Z then V3 (vx m * r0 t) (vz m * r7 t) (vy m * r5 t)
  else if (code =? 0x10A)%Z then V3 (vy m * r3 t) (vx m * r1 t) (vz m * r8 t)
  else if (code =? 0x046)%Z then V3 (vy m * r3 t) (vz m * r7 t) (vx m * r2 t)
  else if (code =? 0x062)%Z then V3 (vz m * r6 t) (vx m * r1 t) (vy m * r5 t)
  else if (code =? 0x054)%Z then V3 (vz m * r6 t) (vy m * r4 t) (vx m * r2 t)
  else if (code =? kDiagonal)%Z then V3 (vx m * r0 t) (vy m * r4 t) (vz m * r8 t)
  else if (code =? kIdentity)%Z then m
  else rotate_general t m.
(* Transformation3D.h:683-724; [kGeneric] = -1 has all bits set *)
Definition when (code : Z) (i : Z) (x : R) : R := if Z.testbit code i then x else 0.
Definition do_rotation_new (code : Z) (t : trans) (m : v3) : v3 :=
  if (code =? kIdentity)%Z then m
  else V3 (when code 0 (vx m * r0 t) + when code 3 (vy m * r3 t) + when code 6 (vz m * r6 t))
          (when code 1 (vx m * r1 t) + when code 4 (vy m * r4 t) + when code 7 (vz m * r7 t))
          (when code 2 (vx m * r2 t) + when code 5 (vy m * r5 t) + when code 8 (vz m * r8 t)).
(* Transformation3D.h:726-735 *)
Definition do_translation (t : trans) (m : v3) : v3 := V3 (vx m - t0 t) (vy m - t1 t) (vz m - t2 t).
(* Transformation3D.h:743-771; trans_code: 0 = identity, -1 = generic *)
Definition transform_code (tc rc : Z) (t : trans) (m : v3) : v3 :=
  if (tc =? 0)%Z && (rc =? kIdentity)%Z then m
  else if negb (tc =? 0)%Z && (rc =? kIdentity)%Z then do_translation t m
  else if (tc =? 0)%Z && negb (rc =? kIdentity)%Z then do_rotation rc t m
  else do_rotation rc t (do_translation t m).
(* Transformation3D.cpp:183-186 *)
Definition translation_code (t : trans) : Z := if hast t then (-1)%Z else 0%Z.
(* Transformation3D.h:790-803 *)
Definition transform (t : trans) (m : v3) : v3 := transform_code (-1) kGeneric t m.
(* Transformation3D.h:956-1003 *)
Definition transform_direction_code (rc : Z) (t : trans) (m : v3) : v3 :=
  if (rc =? kIdentity)%Z then m else do_rotation rc t m.
Definition transform_direction (t : trans) (m : v3) : v3 := transform_direction_code kGeneric t m.
(* Transformation3D.h:824-837 and 840-856 *)
Definition inverse_transform (t : trans) (l : v3) : v3 :=
  V3 (t0 t + vx l * r0 t + vy l * r1 t + vz l * r2 t)
     (t1 t + vx l * r3 t + vy l * r4 t + vz l * r5 t)
     (t2 t + vx l * r6 t + vy l * r7 t + vz l * r8 t).
(* Transformation3D.h:814-823 and 858-874 *)
Definition inverse_transform_direction (t : trans) (l : v3) : v3 :=
  V3 (vx l * r0 t + vy l * r1 t + vz l * r2 t)
     (vx l * r3 t + vy l * r4 t + vz l * r5 t)
     (vx l * r6 t + vy l * r7 t + vz l * r8 t).
(* Transformation3D.h:876-948 *)
Definition multiply (a b : trans) : trans :=
  if idn b then a else
  let ht := hast b in let hr := hasr b in
  Tr (if ht then t0 a + r0 a * t0 b + r1 a * t1 b + r2 a * t2 b else t0 a)
     (if ht then t1 a + r3 a * t0 b + r4 a * t1 b + r5 a * t2 b else t1 a)
     (if ht then t2 a + r6 a * t0 b + r7 a * t1 b + r8 a * t2 b else t2 a)
     (if hr then r0 a * r0 b + r1 a * r3 b + r2 a * r6 b else r0 a)
     (if hr then r0 a * r1 b + r1 a * r4 b + r2 a * r7 b else r1 a)
     (if hr then r0 a * r2 b + r1 a * r5 b + r2 a * r8 b else r2 a)
     (if hr then r3 a * r0 b + r4 a * r3 b + r5 a * r6 b else r3 a)
     (if hr then r3 a * r1 b + r4 a * r4 b + r5 a * r7 b else r4 a)
     (if hr then r3 a * r2 b + r4 a * r5 b + r5 a * r8 b else r5 a)
     (if hr then r6 a * r0 b + r7 a * r3 b + r8 a * r6 b else r6 a)
     (if hr then r6 a * r1 b + r7 a * r4 b + r8 a * r7 b else r7 a)
     (if hr then r6 a * r2 b + r7 a * r5 b + r8 a * r8 b else r8 a)
     false (hasr a || hr) (hast a || ht).
(* Transformation3D.h:433-451 *)
Definition determinant (t : trans) : R :=
  r0 t * (r4 t * r8 t - r5 t * r7 t) - r1 t * (r3 t * r8 t - r5 t * r6 t) + r2 t * (r3 t * r7 t - r4 t * r6 t).
(* Transformation3D.h:457-503 *)
Definition inverse (t : trans) : trans :=
  let det := 1 / determinant t in
  let detxx := (r4 t * r8 t - r5 t * r7 t) * det in
  let detxy := (r3 t * r8 t - r5 t * r6 t) * det in
  let detxz := (r3 t * r7 t - r4 t * r6 t) * det in
  let detyx := (r1 t * r8 t - r2 t * r7 t) * det in
  let detyy := (r0 t * r8 t - r2 t * r6 t) * det in
  let detyz := (r0 t * r7 t - r1 t * r6 t) * det in
  let detzx := (r1 t * r5 t - r2 t * r4 t) * det in
  let detzy := (r0 t * r5 t - r2 t * r3 t) * det in
  let detzz := (r0 t * r4 t - r1 t * r3 t) * det in
  Tr (- detxx * t0 t + detyx * t1 t - detzx * t2 t)
     (detxy * t0 t - detyy * t1 t + detzy * t2 t)
     (- detxz * t0 t + detyz * t1 t - detzz * t2 t)
     detxx (- detyx) detzx (- detxy) detyy (- detzy) detxz (- detyz) detzz
     (idn t) (hasr t) (hast t).
(* NavStateIndex.cpp:18-31 with the two global matrices given *)
Definition delta_index (g1 g2 : trans) : trans :=
  fix_zeroes (multiply (fix_zeroes (inverse g1)) g2).
(* NavStatePath.cpp:39-51 *)
Definition delta_path (g1 g2 : trans) : trans :=
  fix_zeroes (multiply (fix_zeroes (set_properties (inverse g1))) (set_properties g2)).

(** * Scale3D *)
(* Scale3D.h:37-40 *)
Record scale := Sc { sc : v3; isc : v3; sloc : R; smas : R }.
(* Scale3D.h:47 *)
Definition sc_one : scale := Sc (V3 1 1 1) (V3 1 1 1) 1 1.
(* Scale3D.h:56-59, 96-105; the factors are asserted to be non-zero *)
Definition sc_make (s : v3) : scale :=
  let i := V3 (1 / vx s) (1 / vy s) (1 / vz s) in
  Sc s i (Rmin (Rmin (Rabs (vx i)) (Rabs (vy i))) (Rabs (vz i)))
     (Rmin (Rmin (Rabs (vx s)) (Rabs (vy s))) (Rabs (vz s))).
(* Scale3D.h:149-161 *)
Definition sc_transform (s : scale) (m : v3) : v3 := vmul m (isc s).
(* Scale3D.h:169-181 *)
Definition sc_inverse (s : scale) (l : v3) : v3 := vmul l (sc s).
(* Scale3D.h:189-203 *)
Definition sc_normal (s : scale) (m : v3) : v3 :=
  V3 (vx m * vy (isc s) * vz (isc s)) (vy m * vz (isc s) * vx (isc s)) (vz m * vx (isc s) * vy (isc s)).
(* Scale3D.h:211-224 *)
Definition sc_inverse_normal (s : scale) (l : v3) : v3 :=
  V3 (vx l * vy (sc s) * vz (sc s)) (vy l * vz (sc s) * vx (sc s)) (vz l * vx (sc s) * vy (sc s)).
(* Scale3D.h:232-237 *)
Definition sc_distance (s : scale) (dist : R) (dir : v3) : R := vmag (vmul dir (isc s)) * dist.
(* Scale3D.h:245-248 *)
Definition sc_safety (s : scale) (safety : R) : R := safety * sloc s.
(* Scale3D.h:256-261 *)
Definition sc_inverse_distance (s : scale) (dist : R) (dir : v3) : R := vmag (vmul dir (sc s)) * dist.
(* Scale3D.h:269-272 *)
Definition sc_inverse_safety (s : scale) (safety : R) : R := safety * smas s.
