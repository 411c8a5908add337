(** Model of the bounding boxes of placed volumes: source/ABBoxManager.cpp, VPlacedVolume::Extent of
    source/PlacedVolume.cpp, and of assemblies: source/UnplacedAssembly.cpp, VecGeom/volumes/UnplacedAssembly.h,
    LogicalVolume::PlaceDaughter of source/LogicalVolume.cpp.  Exact arithmetic; [inf] is kInfLength. *)
From Coq Require Import Reals.
From stdpp Require Import list option.
From Verif Require Import Real3 AABBModel TransModel.
Local Open Scope R_scope.

(* source/ABBoxManager.cpp:125-131; x is the outer loop *)
Definition abbox_corners (lower upper : v3) : list v3 :=
  let delta := vsub upper lower in
  x ← [0; 1]; y ← [0; 1]; z ← [0; 1];
  [V3 (vx lower + x * vx delta) (vy lower + y * vy delta) (vz lower + z * vz delta)].
(* source/ABBoxManager.cpp:133-138 *)
Definition extend_box (b : aabb) (c : v3) : aabb :=
  Box (V3 (Rmin (vx (bmin b)) (vx c)) (Rmin (vy (bmin b)) (vy c)) (Rmin (vz (bmin b)) (vz c)))
      (V3 (Rmax (vx (bmax b)) (vx c)) (Rmax (vy (bmax b)) (vy c)) (Rmax (vz (bmax b)) (vz c))).
(* source/ABBoxManager.cpp:109-142; [lower], [upper]: the extent of the unplaced volume *)
Definition compute_abbox (inf : R) (lower upper : v3) (t : trans) : aabb :=
  let b := foldl extend_box (Box (V3 inf inf inf) (V3 (- inf) (- inf) (- inf))) (inverse_transform t <$> abbox_corners lower upper) in
  let m := V3 (1 / 1000) (1 / 1000) (1 / 1000) in
  Box (vsub (bmin b) m) (vadd (bmax b) m).
(* source/PlacedVolume.cpp:139-178 *)
Definition placed_extent (lower upper : v3) (t : trans) : aabb :=
  if hasr t then
    let c x y z := inverse_transform t (V3 x y z) in
    let first := c (vx lower) (vy lower) (vz lower) in
    foldl extend_box (Box first first)
      [c (vx upper) (vy lower) (vz lower); c (vx lower) (vy upper) (vz lower); c (vx upper) (vy upper) (vz lower);
       c (vx lower) (vy lower) (vz upper); c (vx upper) (vy lower) (vz upper); c (vx lower) (vy upper) (vz upper); c (vx upper) (vy upper) (vz upper)]
  else Box (inverse_transform t lower) (inverse_transform t upper).

(* source/ABBoxManager.cpp:41-47 *)
Definition split_axis (delta : v3) : nat :=
  let dim := if rgtb (vy delta) (vx delta) && rgtb (vy delta) (vz delta) then 1%nat else 0%nat in
  if rgtb (vz delta) (vx delta) && rgtb (vz delta) (vy delta) then 2%nat else dim.
Definition on_axis (dim : nat) (x : R) (a : v3) : v3 :=
  match dim with 0%nat => V3 x (vy a) (vz a) | 1%nat => V3 (vx a) x (vz a) | _ => V3 (vx a) (vy a) x end.
Definition axis_of (dim : nat) (a : v3) : R := match dim with 0%nat => vx a | 1%nat => vy a | _ => vz a end.
(* source/ABBoxManager.cpp:94-98: a translation with the rotation of [t] *)
Definition moved (t : trans) (v : v3) : trans :=
  set_properties (Tr (vx v) (vy v) (vz v) (r0 t) (r1 t) (r2 t) (r3 t) (r4 t) (r5 t) (r6 t) (r7 t) (r8 t) (idn t) (hasr t) (hast t)).
(* source/ABBoxManager.cpp:74-106; the slices are boxes with half lengths [half] *)
Fixpoint slices (inf : R) (t : trans) (dim : nat) (split : R) (half : v3) (val : R) (n : nat) : list aabb :=
  match n with
  | O => []
  | S n => compute_abbox inf (vneg half) half (moved t (inverse_transform t (on_axis dim val vzero))) :: slices inf t dim split half (val + split) n
  end.
(* source/ABBoxManager.cpp:29-107; the placed slice is read after its logical volume, a temporary, is gone;
   the model reads the values it had *)
Definition splitted_abbox (inf : R) (lower upper : v3) (t : trans) (n : nat) : list aabb :=
  let delta := vsub upper lower in
  let dim := split_axis delta in
  let split := axis_of dim delta / INR n in
  let sizes := on_axis dim split delta in
  slices inf t dim split (vscale (1 / 2) sizes) (- axis_of dim delta / 2 + split / 2) n.

(** ** Assemblies *)
(** Logical volumes by number.  [Plain]: a volume with the extent of its shape and daughters of no interest here;
    [Assembly]: daughters with their placements, and the cached corners. *)
Inductive lvol := Plain (lower upper : v3) | Assembly (daus : list (trans * nat)) (cache : aabb).
Section Assembly.
Variable inf : R.
(* source/UnplacedAssembly.cpp:45-52, one daughter with box [d] *)
Definition join_box (b d : aabb) : aabb :=
  Box (V3 (Rmin (vx (bmin d)) (vx (bmin b))) (Rmin (vy (bmin d)) (vy (bmin b))) (Rmin (vz (bmin d)) (vz (bmin b))))
      (V3 (Rmax (vx (bmax d)) (vx (bmax b))) (Rmax (vy (bmax d)) (vy (bmax b))) (Rmax (vz (bmax d)) (vz (bmax b)))).
(* source/UnplacedAssembly.cpp:37-54 for assemblies; None: no such volume, or recursion without end *)
Fixpoint extent (fuel : nat) (s : list lvol) (k : nat) : option aabb :=
  match fuel with
  | O => None
  | S f =>
    v ← s !! k;
    match v with
    | Plain lo up => Some (Box lo up)
    | Assembly daus _ =>
      bs ← mapM (λ d : trans * nat, e ← extent f s d.2; Some (compute_abbox inf (bmin e) (bmax e) d.1)) daus;
      Some (foldl join_box (Box (V3 inf inf inf) (V3 (- inf) (- inf) (- inf))) bs)
    end
  end.
(* source/UnplacedAssembly.cpp:13 *)
Definition new_assembly : lvol := Assembly [] (Box (V3 (- inf) (- inf) (- inf)) (V3 inf inf inf)).
(* source/LogicalVolume.cpp:140-153 with VecGeom/volumes/UnplacedAssembly.h:47-51; for plain volumes the daughters do
   not matter here *)
Definition place_daughter (fuel : nat) (s : list lvol) (k : nat) (t : trans) (j : nat) : option (list lvol) :=
  v ← s !! k;
  match v with
  | Plain _ _ => Some s
  | Assembly daus c =>
    let s' := <[k := Assembly (daus ++ [(t, j)]) c]> s in
    b ← extent fuel s' k;
    Some (<[k := Assembly (daus ++ [(t, j)]) b]> s')
  end.
(* VecGeom/volumes/kernel/BoxImplementation.h:419-436 *)
Definition abbox_contains (b : aabb) (p : v3) : bool :=
  rltb (vx (bmin b)) (vx p) && rgtb (vx (bmax b)) (vx p) && rltb (vy (bmin b)) (vy p) && rgtb (vy (bmax b)) (vy p) && rltb (vz (bmin b)) (vz p) && rgtb (vz (bmax b)) (vz p).
(** [shape k]: Contains of the shape of a plain volume.  The locator answers whether some daughter contains the
    point (VecGeom/navigation/SimpleLevelLocator.h:43-51 and 129-141; the others agree with it, C24 and C31). *)
Variable shape : nat → v3 → bool.
(* VecGeom/volumes/UnplacedAssembly.h:81-93 *)
Fixpoint contains (fuel : nat) (s : list lvol) (k : nat) (p : v3) : option bool :=
  match fuel with
  | O => None
  | S f =>
    v ← s !! k;
    match v with
    | Plain _ _ => Some (shape k p)
    | Assembly daus c =>
      if abbox_contains c p then
        bs ← mapM (λ d : trans * nat, contains f s d.2 (transform d.1 p)) daus;
        Some (existsb (λ b : bool, b) bs)
      else Some false
    end
  end.
End Assembly.
