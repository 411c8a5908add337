(** Model of multi-unions: VecGeom/volumes/MultiUnionStruct.h, VecGeom/volumes/UnplacedMultiUnion.h and
    VecGeom/volumes/kernel/MultiUnionImplementation.h.  Scalar instance, exact arithmetic; [inf] is kInfLength, [kvs], [pick]
    and [M] belong to the hybrid structure (HybridModel).  [None] is an access outside an array or through a null
    pointer, or a loop that has not ended. *)
From Coq Require Import Reals ZArith.
From stdpp Require Import list list_numbers option.
From Verif Require Import Real3 AABBModel ABBoxModel TransModel BoxModel ExtentModel ShapeModel HybridModel SearchModel SafetyModel.
Import stdpp.list.
Local Open Scope R_scope.

(* MultiUnionStruct.h:26-30 *)
Record munion := MU { mu_vols : list placed; mu_min : v3; mu_max : v3 }.
(* MultiUnionStruct.h:27, 36-39; a row of neighbours is a count and a place in the buffer *)
Record closed := Closed { c_vols : list placed; c_extent : aabb; c_nav : option structure; c_rows : list (nat * nat); c_buffer : list nat }.

Section Build.
Variable inf : R.
(* source/ABBoxManager.cpp:109-142 of a placed volume *)
Definition abbox_of (v : placed) : aabb := compute_abbox inf (s_extent (pl_shape v)).1 (s_extent (pl_shape v)).2 (pl_tr v).
(* MultiUnionStruct.h:42-49 *)
Definition mu_new : munion := MU [] (V3 inf inf inf) (V3 (- inf) (- inf) (- inf)).
(* MultiUnionStruct.h:60-69 *)
Definition mu_add (m : munion) (v : placed) : munion :=
  let b := abbox_of v in
  MU (mu_vols m ++ [v])
     (V3 (Rmin (vx (mu_min m)) (vx (bmin b))) (Rmin (vy (mu_min m)) (vy (bmin b))) (Rmin (vz (mu_min m)) (vz (bmin b))))
     (V3 (Rmax (vx (mu_max m)) (vx (bmax b))) (Rmax (vy (mu_max m)) (vy (bmax b))) (Rmax (vz (mu_max m)) (vz (bmax b)))).
(* MultiUnionStruct.h:73-79; Min() is the least coordinate *)
Definition vleast (a : v3) : R := Rmin (Rmin (vx a) (vy a)) (vz a).
Definition abbox_overlap (a b : aabb) : bool :=
  if rltb (vleast (vsub (bmax a) (bmin b))) (- kTolerance) || rltb (vleast (vsub (bmax b) (bmin a))) (- kTolerance) then false else true.
(* MultiUnionStruct.h:103-104; without components the bound wraps around, and the inner loop has nothing to do *)
Definition pairs (n : nat) : list (nat * nat) := i ← seq 0 (n - 1); j ← seq (i + 1) (n - (i + 1)); [(i, j)].
(* MultiUnionStruct.h:106-107: a row has room for [n] entries *)
Definition push_row (n : nat) (rows : list (list nat)) (i x : nat) : option (list (list nat)) :=
  row ← rows !! i; if (length row <? n)%nat then Some (<[i := row ++ [x]]> rows) else None.
(* MultiUnionStruct.h:105-109 *)
Definition link (boxes : list aabb) (st : list (list nat) * nat) (ij : nat * nat) : option (list (list nat) * nat) :=
  let n := length boxes in
  a ← boxes !! ij.1; b ← boxes !! ij.2;
  if abbox_overlap a b then
    r1 ← push_row n st.1 ij.1 ij.2; r2 ← push_row n r1 ij.2 ij.1; Some (r2, (st.2 + 2)%nat)
  else Some st.
Fixpoint link_all (boxes : list aabb) (ps : list (nat * nat)) (st : list (list nat) * nat) : option (list (list nat) * nat) :=
  match ps with [] => Some st | ij :: r => st' ← link boxes st ij; link_all boxes r st' end.
(* MultiUnionStruct.h:112-121: rows one after the other in a buffer of [newsize] entries *)
Fixpoint place_rows (rows : list (list nat)) (next : nat) : list (nat * nat) :=
  match rows with [] => [] | row :: r => (length row, next) :: place_rows r (next + length row) end.
Definition compact (rows : list (list nat)) (newsize : nat) : option (list (nat * nat) * list nat) :=
  let buffer := mjoin rows in if (length buffer <=? newsize)%nat then Some (place_rows rows 0, buffer) else None.
Variables (kvs : nat) (pick : nat → list nat → list nat → nat) (M : R).
(* MultiUnionStruct.h:82-122 *)
Definition mu_close (m : munion) : option closed :=
  let boxes := abbox_of <$> mu_vols m in
  nav ← build_structure kvs pick M boxes;
  '(rows, newsize) ← link_all boxes (pairs (length boxes)) (replicate (length boxes) [], 0%nat);
  '(table, buffer) ← compact rows newsize;
  Some (Closed (mu_vols m) (Box (mu_min m) (mu_max m)) nav table buffer).
(* MultiUnionImplementation.h:90-91: the row of a component *)
Definition neighbours (c : closed) (i : nat) : option (list nat) :=
  '(n, at_) ← c_rows c !! i; Some (take n (drop at_ (c_buffer c))).

Variable c : closed.
(* VecGeom/navigation/HybridNavigator2.h:194-203, without the hook; VECGEOM_MAXFACETS in VecGeom/base/Global.h:105 *)
Definition candidates (p : v3) : option (list nat) := s ← c_nav c; l ← containing_candidates kvs s p; in_array 20000 l.
(* MultiUnionImplementation.h:37-40 *)
Fixpoint contains_loop (p : v3) (cands : list nat) (res : bool) : option bool :=
  match cands with
  | [] => Some res
  | i :: r => v ← c_vols c !! i; let res := pv_contains v p in if res then Some res else contains_loop p r res
  end.
(* MultiUnionImplementation.h:34-44; the caller starts with false, VecGeom/volumes/UnplacedVolumeImplHelper.h:67 *)
Definition mu_contains (p : v3) : option bool := l ← candidates p; contains_loop p l false.
(* MultiUnionImplementation.h:51-60 *)
Fixpoint inside_loop (p : v3) (cands : list nat) (res : inside) : option inside :=
  match cands with
  | [] => Some res
  | i :: r =>
    v ← c_vols c !! i;
    match pv_inside v p with
    | kInside => Some kInside
    | kSurface => inside_loop p r kSurface
    | kOutside => inside_loop p r res
    end
  end.
(* MultiUnionImplementation.h:47-64 *)
Definition mu_inside (p : v3) : option inside := l ← candidates p; inside_loop p l kOutside.
(* MultiUnionImplementation.h:72-79 *)
Fixpoint component_loop (p : v3) (cands : list nat) : option (option nat) :=
  match cands with
  | [] => Some None
  | i :: r => v ← c_vols c !! i; match pv_inside v p with kOutside => component_loop p r | _ => Some (Some i) end
  end.
(* MultiUnionImplementation.h:67-83; no component: -1 *)
Definition inside_component (p : v3) : option (option nat) := l ← candidates p; component_loop p l.
(* MultiUnionImplementation.h:92-98 *)
Fixpoint cluster_loop (p : v3) (ns : list nat) : option (option nat) :=
  match ns with
  | [] => Some None
  | i :: r => v ← c_vols c !! i; match pv_inside v p with kInside => Some (Some i) | _ => cluster_loop p r end
  end.
(* MultiUnionImplementation.h:86-99 *)
Definition inside_cluster (p : v3) (comp : nat) : option (option nat) := ns ← neighbours c comp; cluster_loop p ns.

(* MultiUnionImplementation.h:119-127 in the loop of HybridNavigator2.h:183-189 *)
Fixpoint in_loop (p d : v3) (smax : R) (hits : list (nat * R)) (dist : R) : option R :=
  match hits with
  | [] => Some dist
  | (i, t) :: r =>
    if rgtb t (Rmin smax dist) then Some dist
    else v ← c_vols c !! i; dc ← pv_to_in v p d smax; in_loop p d smax r (if rltb dc dist then dc else dist)
  end.
(* MultiUnionImplementation.h:102-132 with HybridNavigator2.h:167-190 *)
Definition mu_to_in (p d : v3) (smax : R) : option R :=
  let inv := vinv (vnonzero d) in
  let dist := kernel2 inf (c_extent c) p inv (- kTolerance) inf in
  if rleb smax dist then Some dist
  else
    s ← c_nav c; h ← hit_candidates kvs M s p inv (Rmin smax M); h' ← sorted_hits 20000 h; in_loop p d smax h' inf.

(* MultiUnionImplementation.h:140 *)
Definition kEps : R := 10 * kTolerance.
(* MultiUnionImplementation.h:151-164; the assertion at 156 is not modelled *)
Fixpoint out_loop (fuel : nat) (d : v3) (smax : R) (pnew : v3) (comp : option nat) (dstep dist : R) : option R :=
  match fuel with
  | O => None
  | S fuel =>
    match comp with
    | None => Some dist
    | Some k =>
      if rgtb dstep kTolerance then
        v ← c_vols c !! k;
        dstep ← pv_to_out v (transform (pl_tr v) pnew) (transform_direction (pl_tr v) d) smax;
        let dist := dist + (dstep + kEps) in
        ns ← neighbours c k;
        match ns with
        | [] => Some dist
        | _ => let pnew := vadd pnew (vscale (dstep + kEps) d) in comp ← inside_cluster pnew k; out_loop fuel d smax pnew comp dstep dist
        end
      else Some dist
    end
  end.
(* MultiUnionImplementation.h:135-165 *)
Definition mu_to_out (fuel : nat) (p d : v3) (smax : R) : option R :=
  comp ← inside_component p;
  match comp with None => Some (- (1)) | Some _ => out_loop fuel d smax p comp 1 (- kEps) end.

(* MultiUnionImplementation.h:174-185 in the loop of VecGeom/navigation/HybridSafetyEstimator.h:184-190 *)
Fixpoint safety_in_loop (p : v3) (hits : list (nat * R)) (st : R * option nat) : option (R * option nat) :=
  match hits with
  | [] => Some st
  | (i, t) :: r =>
    if rgtb t (st.1 * st.1) then Some st
    else v ← c_vols c !! i; let sc := pv_safety_in v p in safety_in_loop p r (if rgtb sc 0 && rltb sc st.1 then (sc, Some i) else st)
  end.
(* MultiUnionImplementation.h:168-190 with HybridSafetyEstimator.h:165-191; the limit is compared with squares *)
Definition safety_in_comp (p : v3) : option (R * option nat) :=
  s ← c_nav c; l ← safety_candidates2 kvs s p inf; l' ← sorted_hits 20000 l; safety_in_loop p l' (inf, None).
(* MultiUnionImplementation.h:193-204 *)
Definition mu_safety_in (p : v3) : option R :=
  comp ← inside_component p;
  match comp with Some _ => Some (- (1)) | None => st ← safety_in_comp p; Some st.1 end.
(* MultiUnionImplementation.h:224-228 *)
Fixpoint safety_out_loop (p : v3) (ns : list nat) (safety : R) : option R :=
  match ns with
  | [] => Some safety
  | i :: r =>
    v ← c_vols c !! i;
    let sc := pv_safety_out v (transform (pl_tr v) p) in
    safety_out_loop p r (if rgtb sc 0 && rltb sc safety then sc else safety)
  end.
(* MultiUnionImplementation.h:207-229; the assertion at 220 is not modelled *)
Definition mu_safety_out (p : v3) : option R :=
  comp ← inside_component p;
  match comp with
  | None => Some (- (1))
  | Some k => v ← c_vols c !! k; ns ← neighbours c k; safety_out_loop p ns (pv_safety_out v (transform (pl_tr v) p))
  end.
(* MultiUnionImplementation.h:232-251; Normal of the placed component transforms the point once more *)
Definition mu_normal (p : v3) : option (v3 * bool) :=
  comp ← inside_component p;
  comp ← match comp with Some k => Some (Some k) | None => st ← safety_in_comp p; Some st.2 end;
  match comp with
  | None => Some (vzero, false)
  | Some k =>
    v ← c_vols c !! k;
    let '(n, valid) := pv_normal v (transform (pl_tr v) p) in
    Some (if valid then inverse_transform_direction (pl_tr v) n else vzero, valid)
  end.
End Build.
