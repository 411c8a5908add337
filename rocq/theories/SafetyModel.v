(** Model of the safety estimators: VecGeom/navigation/SimpleSafetyEstimator.h,
    VecGeom/navigation/SimpleABBoxSafetyEstimator.h, VecGeom/navigation/HybridSafetyEstimator.h,
    VecGeom/navigation/BVHSafetyEstimator.h.  Exact arithmetic without overflow; [inf] is kInfLength.
    [None] is an access outside an array or through a null pointer. *)
From stdpp Require Import list list_numbers option.
From Coq Require Import Reals NArith ZArith.
From Verif Require Import Real3 AABBModel ABBoxModel HybridModel SearchModel BVHModel.

Section Safety.
Variable dau : list N.
Variable sti : N → R.               (* SafetyToIn(localpoint) of a daughter *)
(* SimpleSafetyEstimator.h:32-37, 51-56 *)
Definition simple_loop (safety : R) : R := foldl (λ s v, Rmin s (sti v)) safety dau.
(* SimpleSafetyEstimator.h:43-58; [sto] is SafetyToOut of the volume *)
Definition simple_safety (sto : R) : R := simple_loop sto.
(* SimpleSafetyEstimator.h:26-39 *)
Definition simple_safety_daughters (inf : R) : R := simple_loop inf.

(* SimpleABBoxSafetyEstimator.h:89-104, HybridSafetyEstimator.h:215-230; safetysqr is safety * safety all the time.
   The check at 93 / 219 comes after the lookup and never fails when the lookup is in range. *)
Fixpoint safety_loop (cands : list (nat * R)) (safety : R) : option R :=
  match cands with
  | [] => Some safety
  | (i, b) :: r =>
    if rltb b (safety * safety) then
      v ← dau !! i; safety_loop r (if rltb (sti v) safety then sti v else safety)
    else safety_loop r safety
  end.
(** an array of [cap] entries receives the candidates *)
Definition in_array {A} (cap : Z) (l : list A) : option (list A) := if decide (Z.of_nat (length l) ≤ cap)%Z then Some l else None.
Variables (kvs : nat) (M : R) (boxes : list aabb) (p : v3).
(* SimpleABBoxSafetyEstimator.h:41-65 *)
Definition abbox_safety_cands (limit : R) : list (nat * R) :=
  box ← seq 0 (ceil_div (length boxes) kvs);
  i ← seq 0 kvs;
  let s := ab_safety_sqr (vector_lane M boxes (box * kvs + i)) p in
  if rltb s limit then [((box * kvs + i)%nat, s)] else [].
(* SimpleABBoxSafetyEstimator.h:69-107; VECGEOM_MAXDAUGHTERS in VecGeom/base/Global.h:104 *)
Definition abbox_treat (outsafety : R) : option R :=
  if rgtb outsafety 0 && (0 <? length dau)%nat then
    c ← in_array 2000 (abbox_safety_cands (outsafety * outsafety)); safety_loop c outsafety
  else Some outsafety.
(* SimpleABBoxSafetyEstimator.h:114-121 *)
Definition abbox_safety (sto : R) : option R := abbox_treat sto.
(* SimpleABBoxSafetyEstimator.h:125-129 *)
Definition abbox_safety_daughters (inf : R) : option R := abbox_treat inf.

(* HybridSafetyEstimator.h:197-233 *)
Definition hybrid_treat (pick : nat → list nat → list nat → nat) (outsafety : R) : option R :=
  if rgtb outsafety 0 && (0 <? length dau)%nat then
    os ← build_structure kvs pick M boxes; s ← os;
    c ← safety_candidates kvs s p (outsafety * outsafety);
    c' ← in_array 2000 c; safety_loop c' outsafety
  else Some outsafety.
(* HybridSafetyEstimator.h:238-247 *)
Definition hybrid_safety (pick : nat → list nat → list nat → nat) (sto : R) : option R :=
  if rleb sto 0 then Some 0%R else hybrid_treat pick sto.
(* HybridSafetyEstimator.h:251-255 *)
Definition hybrid_safety_daughters (pick : nat → list nat → list nat → nat) (inf : R) : option R := hybrid_treat pick inf.

(* BVHSafetyEstimator.h:48-56; [b] is missing for a volume without daughters, source/BVHManager.cpp:31 *)
Definition bvh_safety (ob : option bvh) (lim : nat) (sto : R) : option R :=
  if rgtb sto 0 && (0 <? length dau)%nat then b ← ob; compute_safety b dau p sti sto lim else Some sto.
(* BVHSafetyEstimator.h:66-70 *)
Definition bvh_safety_daughters (ob : option bvh) (lim : nat) (inf : R) : option R := b ← ob; compute_safety b dau p sti inf lim.
End Safety.
