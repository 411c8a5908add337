(** Model of the Boolean solids: VecGeom/volumes/kernel/BooleanImplementation.h (subtraction),
    BooleanUnionImplementation.h, BooleanIntersectionImplementation.h, and source/UnplacedBooleanVolume.cpp.
    Scalar instance, exact arithmetic; [inf] is kInfLength.  Loops take [fuel]; None: not finished. *)
From Coq Require Import Reals.
From stdpp Require Import list option.
From Verif Require Import Real3 AABBModel TransModel BoxModel ExtentModel ShapeModel.
Local Open Scope R_scope.

(* VecGeom/volumes/BooleanStruct.h:8 *)
Inductive bop := kUnion | kIntersection | kSubtraction.
(* VecGeom/base/Math.h:28 *)
Definition kPush : R := / 1000000.
Section Bool.
Variable inf : R.
Variables l r : placed.

(* BooleanUnionImplementation.h:25-32; BooleanIntersectionImplementation.h:26-33; BooleanImplementation.h:45-55 *)
Definition bool_contains (op : bop) (p : v3) : bool :=
  match op with
  | kUnion => let inside := pv_contains l p in if inside then inside else inside || pv_contains r p
  | kIntersection => pv_contains l p && pv_contains r p
  | kSubtraction => let inside := pv_contains l p in if inside then inside && negb (pv_contains r p) else inside
  end.

(** The normal of an operand as the kernels compute it, e.g. BooleanUnionImplementation.h:57-59: the point is transformed, Normal of
    the placed volume transforms it again, and the result is turned back once more *)
Definition operand_normal (v : placed) (p : v3) : v3 * bool :=
  let '(n, valid) := pv_normal v (transform (pl_tr v) p) in (inverse_transform_direction (pl_tr v) n, valid).

(* BooleanUnionImplementation.h:34-79 *)
Definition union_inside (p : v3) : inside :=
  match pv_inside l p with
  | kInside => kInside
  | a =>
    match pv_inside r p with
    | kInside => kInside
    | b =>
      match a, b with
      | kSurface, kSurface => if rltb (vdot (operand_normal l p).1 (operand_normal r p).1) 0 then kInside else kSurface
      | kSurface, _ | _, kSurface => kSurface
      | _, _ => kOutside
      end
    end
  end.
(* BooleanIntersectionImplementation.h:35-66 *)
Definition inter_inside (p : v3) : inside :=
  match pv_inside l p with
  | kOutside => kOutside
  | a =>
    match a, pv_inside r p with
    | kInside, kInside => kInside
    | kInside, kSurface | kSurface, kInside | kSurface, kSurface => kSurface
    | _, _ => kOutside
    end
  end.
(* BooleanImplementation.h:57-95 *)
Definition sub_inside (p : v3) : inside :=
  match pv_inside l p with
  | kOutside => kOutside
  | a =>
    match a, pv_inside r p with
    | kInside, kOutside => kInside
    | kInside, kSurface | kSurface, kOutside => kSurface
    | _, _ => kOutside
    end
  end.
Definition bool_inside (op : bop) : v3 → inside :=
  match op with kUnion => union_inside | kIntersection => inter_inside | kSubtraction => sub_inside end.

(* BooleanUnionImplementation.h:145-156; BooleanIntersectionImplementation.h:162-181; BooleanImplementation.h:172-187 *)
Definition bool_safety_in (op : bop) (p : v3) : R :=
  match op with
  | kUnion => Rmin (pv_safety_in l p) (pv_safety_in r p)
  | kIntersection =>
    let a := pv_contains l p in let b := pv_contains r p in
    if negb a && b then pv_safety_in l p
    else if negb b && a then pv_safety_in r p
    else Rmin (pv_safety_in l p) (pv_safety_in r p)
  | kSubtraction =>
    if pv_contains l p && pv_contains r p then pv_safety_out r (transform (pl_tr r) p) else pv_safety_in l p
  end.
(* BooleanUnionImplementation.h:158-186; the point is not transformed for the left operand *)
Definition union_safety_out (p : v3) : R :=
  let right := pv_safety_out r (transform (pl_tr r) p) in
  match pv_inside l p, pv_inside r p with
  | kOutside, kOutside => - kTolerance
  | kOutside, kSurface | kSurface, kOutside => - kTolerance
  | kOutside, kInside => right
  | kInside, kOutside => pv_safety_out l p
  | _, _ => Rmax (pv_safety_out l p) right
  end.
(* BooleanUnionImplementation.h:158-186; BooleanIntersectionImplementation.h:183-194; BooleanImplementation.h:189-196 *)
Definition bool_safety_out (op : bop) (p : v3) : R :=
  match op with
  | kUnion => union_safety_out p
  | kIntersection =>
    let safety := Rmin (pv_safety_out l p) (pv_safety_out r (transform (pl_tr r) p)) in
    if rltb safety 0 then 0 else safety
  | kSubtraction => Rmin (pv_safety_out l p) (pv_safety_in r p)
  end.

(** A distance that moves the point, e.g. BooleanUnionImplementation.h:113: non-negative and finite *)
Definition valid_step (d : R) : bool := rgeb d 0 && rltb d inf.

(* BooleanUnionImplementation.h:109-129; result: dist *)
Fixpoint union_out_loop (fuel : nat) (A B : placed) (point dir : v3) (dist : R) : option R :=
  match fuel with
  | O => None
  | S f =>
    t ← pv_to_out_placed A (along point dir dist) dir inf;
    let dist := dist + (if valid_step t then t else 0) + kPush in
    match pv_inside B (along point dir dist) with
    | kOutside => Some dist
    | _ =>
      t ← pv_to_out_placed B (along point dir dist) dir inf;
      let dist := dist + (if valid_step t then t else 0) + kPush in
      match pv_inside A (along point dir dist) with
      | kOutside => Some dist
      | _ => union_out_loop f A B point dir dist
      end
    end
  end.
(* BooleanUnionImplementation.h:92-143 *)
Definition union_to_out (fuel : nat) (point dir : v3) : option R :=
  dist ← match pv_inside l point with
         | kOutside => union_out_loop fuel r l point dir 0
         | _ => union_out_loop fuel l r point dir 0
         end;
  let distance := dist - kPush in
  Some (match pv_inside l point, pv_inside r point with
        | kOutside, kOutside => if rltb distance kTolerance then - kTolerance else distance
        | _, _ => distance
        end).
(* BooleanUnionImplementation.h:92-143; BooleanIntersectionImplementation.h:152-160, the point is not transformed for the
   left operand; BooleanImplementation.h:160-170 *)
Definition bool_to_out (fuel : nat) (op : bop) (p d : v3) (smax : R) : option R :=
  match op with
  | kUnion => union_to_out fuel p d
  | kIntersection => a ← pv_to_out l p d inf; b ← pv_to_out_placed r p d inf; Some (Rmin a b)
  | kSubtraction => a ← pv_to_out_placed l p d smax; b ← pv_to_in r p d smax; Some (Rmin a b)
  end.

(* BooleanIntersectionImplementation.h:99-147 *)
Fixpoint inter_in_loop (fuel : nat) (dir : v3) (inleft inright : bool) (hit : v3) (snext : R) : option R :=
  match fuel with
  | O => None
  | S f =>
    d1 ← (if inleft then Some 0 else d ← pv_to_in l hit dir inf; Some (Rmax d kTolerance));
    if negb inleft && rgtb d1 (10 ^ 20) then Some inf else
    d2 ← (if inright then Some 0 else d ← pv_to_in r hit dir inf; Some (Rmax d kTolerance));
    if negb inright && rgtb d2 (10 ^ 20) then Some inf else
    if rgtb d1 d2 then
      let hit := along hit dir d1 in
      if pv_contains r (along hit dir kTolerance) then Some (snext + d1) else inter_in_loop f dir true false hit (snext + d1)
    else
      let hit := along hit dir d2 in
      if pv_contains l (along hit dir kTolerance) then Some (snext + d2) else inter_in_loop f dir false true hit (snext + d2)
  end.
(* BooleanIntersectionImplementation.h:68-150 *)
Definition inter_to_in (fuel : nat) (point dir : v3) (smax : R) : option R :=
  let inleft := pv_contains l point in
  let inright := pv_contains r point in
  if inleft && inright then
    d1 ← pv_to_out_placed l point dir smax;
    d2 ← pv_to_out_placed r point dir smax;
    let inleft := if rltb d1 (2 * kTolerance) then false else inleft in
    let inright := if rltb d2 (2 * kTolerance) then false else inright in
    if inleft && inright then Some 0 else inter_in_loop fuel dir inleft inright point 0
  else inter_in_loop fuel dir inleft inright point 0.

(* BooleanImplementation.h:115-157; [hit] and [snxt] are advanced separately *)
Fixpoint sub_in_loop (fuel : nat) (dir : v3) (smax : R) (inright : bool) (hit : v3) (snxt : R) : option R :=
  match fuel with
  | O => None
  | S f =>
    '(hit, snxt, found) ←
      (if inright then
         d1 ← pv_to_out_placed r hit dir smax;
         let snxt := snxt + (if valid_step d1 then d1 + kPush else 0) in
         let hit := along hit dir (if valid_step d1 then d1 + kPush else 0) in
         if pv_contains l hit then check ← pv_to_out_placed l hit dir inf; Some (hit, snxt, rgtb check kPush)
         else Some (hit, snxt, false)
       else Some (hit, snxt, false));
    if (found : bool) then Some snxt else
    d2 ← pv_to_in l hit dir smax;
    let d2 := Rmax d2 0 in
    if reqb d2 inf then Some inf else
    d1 ← pv_to_in r hit dir smax;
    if rltb d2 (d1 - kTolerance) then Some (snxt + (d2 + kPush)) else
    sub_in_loop f dir smax true (along hit dir (if valid_step d1 then d1 + kPush else kPush)) (snxt + (if valid_step d1 then d1 + kPush else 0))
  end.
(* BooleanUnionImplementation.h:81-90; BooleanIntersectionImplementation.h:68-150; BooleanImplementation.h:97-158 *)
Definition bool_to_in (fuel : nat) (op : bop) (p d : v3) (smax : R) : option R :=
  match op with
  | kUnion => a ← pv_to_in l p d smax; b ← pv_to_in r p d smax; Some (Rmin a b)
  | kIntersection => inter_to_in fuel p d smax
  | kSubtraction => sub_in_loop fuel d smax (pv_contains r p) p 0
  end.

(** As [operand_normal], with the sign changed before turning back (BooleanImplementation.h:212-216) *)
Definition operand_normal_flipped (v : placed) (p : v3) : v3 * bool :=
  let '(n, valid) := pv_normal v (transform (pl_tr v) p) in (inverse_transform_direction (pl_tr v) (vneg n), valid).
(* BooleanUnionImplementation.h:188-235; BooleanIntersectionImplementation.h:196-238; BooleanImplementation.h:198-249; through
   source/UnplacedBooleanVolume.cpp:474-502 *)
Definition bool_normal (op : bop) (p : v3) : v3 * bool :=
  match op with
  | kUnion =>
    if pv_contains l p then operand_normal l p
    else if pv_contains r p then operand_normal r p
    else if rltb (pv_safety_in l p) (pv_safety_in r p) then operand_normal l p else operand_normal r p
  | kIntersection =>
    let safetyA := if pv_contains l p then pv_safety_out l (transform (pl_tr l) p) else pv_safety_in l p in
    let safetyB := if pv_contains r p then pv_safety_out r (transform (pl_tr r) p) else pv_safety_in r p in
    if rltb safetyA safetyB then operand_normal l p else operand_normal r p
  | kSubtraction =>
    if pv_contains r p then operand_normal_flipped r p
    else if negb (pv_contains l p) then operand_normal l p
    else if rltb (pv_safety_out l (transform (pl_tr l) p)) (pv_safety_in r p) then operand_normal l p else operand_normal_flipped r p
  end.

(* source/UnplacedBooleanVolume.cpp:380-420: the extent of the placed volume is transformed again *)
Definition transformed_extent (v : placed) : aabb :=
  let e := pv_extent v in
  foldl extend_box (Box (V3 inf inf inf) (V3 (- inf) (- inf) (- inf))) (inverse_transform (pl_tr v) <$> abbox_corners (bmin e) (bmax e)).
(* source/UnplacedBooleanVolume.cpp:422-472 *)
Definition bool_extent (op : bop) : v3 * v3 :=
  let a := transformed_extent l in let b := transformed_extent r in
  match op with
  | kSubtraction => (bmin a, bmax a)
  | kUnion => (V3 (Rmin (vx (bmin a)) (vx (bmin b))) (Rmin (vy (bmin a)) (vy (bmin b))) (Rmin (vz (bmin a)) (vz (bmin b))),
               V3 (Rmax (vx (bmax a)) (vx (bmax b))) (Rmax (vy (bmax a)) (vy (bmax b))) (Rmax (vz (bmax a)) (vz (bmax b))))
  | kIntersection => (V3 (Rmax (vx (bmin a)) (vx (bmin b))) (Rmax (vy (bmin a)) (vy (bmin b))) (Rmax (vz (bmin a)) (vz (bmin b))),
                      V3 (Rmin (vx (bmax a)) (vx (bmax b))) (Rmin (vy (bmax a)) (vy (bmax b))) (Rmin (vz (bmax a)) (vz (bmax b))))
  end.
(* VecGeom/volumes/UnplacedBooleanVolume.h:52-71: the unplaced Boolean volume *)
Definition bool_shape (fuel : nat) (op : bop) : shape :=
  Shape (bool_contains op) (bool_inside op) (bool_to_in fuel op) (bool_to_out fuel op) (bool_safety_in op) (bool_safety_out op)
    (bool_normal op) (bool_extent op).
End Bool.
(* VecGeom/volumes/UnplacedBox.h:20-126: a box as unplaced volume *)
Definition box_shape (inf : R) (b : v3) : shape :=
  Shape (box_contains b) (box_inside b) (λ p d _, Some (box_to_in inf b p d)) (λ p d _, Some (box_to_out b p d))
    (box_safety_in b) (box_safety_out b) (box_normal b) (box_extent b).
