(** Model of the searches for the next daughter: VecGeom/navigation/NewSimpleNavigator.h,
    VecGeom/navigation/SimpleABBoxNavigator.h, VecGeom/navigation/HybridNavigator2.h (the search
    with a BVH is in BVHModel.v).  Exact arithmetic: conversions to float are left out, only the
    smaller float maximum [M] is kept; distances are finite, so !IsInf(ddistance) is left out.
    The state of a search is (step, hitcandidate); [None] is an access outside an array. *)
From stdpp Require Import list list_numbers option.
From Coq Require Import Reals NArith.
From Verif Require Import Real3 AABBModel ABBoxModel HybridModel SortModel.

Section Search.
Variable dau : list N.              (* LogicalVolume.h:117 GetDaughtersp *)
Variable dti : N → R → R.           (* DistanceToIn(localpoint, localdir, step) of a daughter *)
Variable last : option N.           (* in_state->GetLastExited() *)

(* NewSimpleNavigator.h:48-55, SimpleABBoxNavigator.h:134-141, HybridNavigator2.h:220-224 *)
Definition try_daughter (v : N) (st : R * option N) : R * option N :=
  let dd := dti v st.1 in
  if rltb dd st.1 && negb (rleb dd 0 && bool_decide (Some v = last)) then (dd, Some v) else st.
(* NewSimpleNavigator.h:30-70 *)
Definition simple_search (st : R * option N) : R * option N := foldl (λ s v, try_daughter v s) st dau.

(** Hit lists: pairs of daughter index and distance to its box. *)
Definition hits_before (a b : nat * R) : bool := rltb a.2 b.2.
(* SimpleABBoxNavigator.h:108-112, HybridNavigator2.h:173-181: an array of [cap] entries, sorted *)
Definition sorted_hits (cap : Z) (hits : list (nat * R)) : option (list (nat * R)) :=
  if decide (Z.of_nat (length hits) ≤ cap)%Z then insertionsort hits_before hits (length hits) else None.

Variables (kvs : nat) (M : R).
Variables (boxes : list aabb) (p dir : v3).
(* source/ABBoxManager.cpp:212-241: the vectors of boxes; lanes without daughter are filled *)
Definition vector_lane (k : nat) : aabb := default (empty_box M) (boxes !! k).
(* SimpleABBoxNavigator.h:54-87 with VecGeom/management/ABBoxManager.h:116-122 *)
Definition abbox_hits : list (nat * R) :=
  box ← seq 0 (ceil_div (length boxes) kvs);
  i ← seq 0 kvs;
  let t := kernel2 M (vector_lane (box * kvs + i)) p (vinv dir) 0 M in
  if rltb t M then [((box * kvs + i)%nat, t)] else [].
(* SimpleABBoxNavigator.h:114-145 *)
Fixpoint try_sorted (hits : list (nat * R)) (st : R * option N) : option (R * option N) :=
  match hits with
  | [] => Some st
  | (i, t) :: r => v ← dau !! i; if rltb st.1 t then Some st else try_sorted r (try_daughter v st)
  end.
(* SimpleABBoxNavigator.h:94-147; VECGEOM_MAXDAUGHTERS in VecGeom/base/Global.h:104 *)
Definition abbox_search (st : R * option N) : option (R * option N) :=
  match dau with
  | [] => Some st
  | _ => h ← sorted_hits 2000 abbox_hits; try_sorted h st
  end.

(* HybridNavigator2.h:183-189 with the hook at 216-228 *)
Fixpoint try_hook (hits : list (nat * R)) (st : R * option N) : option (R * option N) :=
  match hits with
  | [] => Some st
  | (i, t) :: r => if rltb st.1 t then Some st else v ← dau !! i; try_hook r (try_daughter v st)
  end.
(* HybridNavigator2.h:206-230 with 165-190; VECGEOM_MAXFACETS in VecGeom/base/Global.h:105 *)
Definition hybrid_search (pick : nat → list nat → list nat → nat) (st : R * option N) : option (R * option N) :=
  match dau with
  | [] => Some st
  | _ =>
    os ← build_structure kvs pick M boxes;
    s ← os;
    h ← hit_candidates kvs M s p (vinv (vnonzero dir)) (Rmin st.1 M);
    h' ← sorted_hits 20000 h; try_hook h' st
  end.

(** The variants with a blocked volume; [ndot v] is the product of the normal of [v] at the
    point with the direction. *)
Variable blocked : option N.
Variable ndot : N → R.
(* NewSimpleNavigator.h:74-123 *)
Definition simple_blocked (st : R * option N) : R * option N :=
  let excl := match blocked with Some b => if rleb (1 / 1000) (ndot b) then Some b else None | None => None end in
  foldl (λ s v, if bool_decide (Some v = excl) then s else
                let dd := dti v s.1 in if rltb dd s.1 then (dd, Some v) else s) st dau.
(* SimpleABBoxNavigator.h:191-208: one candidate *)
Definition try_abbox_blocked (v : N) (st : R * option N) : R * option N :=
  let dd := dti v st.1 in
  if rltb dd st.1 && negb (rleb dd 0 && (bool_decide (Some v = blocked) || rgtb (ndot v) 0)) then (dd, Some v) else st.
(* SimpleABBoxNavigator.h:168-212 *)
Fixpoint try_sorted_blocked (hits : list (nat * R)) (st : R * option N) : option (R * option N) :=
  match hits with
  | [] => Some st
  | (i, t) :: r => v ← dau !! i; if rleb t st.1 then try_sorted_blocked r (try_abbox_blocked v st) else Some st
  end.
(* SimpleABBoxNavigator.h:149-214 *)
Definition abbox_blocked (st : R * option N) : option (R * option N) :=
  match dau with
  | [] => Some st
  | _ => h ← sorted_hits 2000 abbox_hits; try_sorted_blocked h st
  end.
End Search.
(* HybridNavigator2.h:233-291: the blocked volume takes the place of the last exited one *)
Definition hybrid_blocked (dau : list N) (dti : N → R → R) (kvs : nat) (M : R) (boxes : list aabb) (p dir : v3) (blocked : option N) (pick : nat → list nat → list nat → nat) (st : R * option N) : option (R * option N) :=
  hybrid_search dau dti blocked kvs M boxes p dir pick st.
