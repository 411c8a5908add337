(** Model of the hybrid acceleration structure: source/HybridManager2.cpp and the queries of
    VecGeom/navigation/HybridNavigator2.h, VecGeom/navigation/HybridSafetyEstimator.h.
    [kvs] is the vector width.  A vector of boxes is modelled by its lanes.  [None] is an access
    outside an array or lane.  The centres only steer the choice of the next member: [pick]. *)
From stdpp Require Import list list_numbers option.
From Coq Require Import Reals.
From Verif Require Import Real3 AABBModel VoxelModel ABBoxModel.

(* HybridManager2.cpp:62: n / kVS + (n % kVS == 0 ? 0 : 1) *)
Definition ceil_div (n k : nat) : nat := (n / k + (if (n mod k =? 0)%nat then 0 else 1))%nat.
Section Build.
Variable kvs : nat.
(* HybridManager2.cpp:62-64 and VecGeom/management/HybridManager2.h:100-103 *)
Definition first_level (n : nat) : nat := ceil_div n kvs.
Definition vector_size (n : nat) : nat := (ceil_div (first_level n) kvs + first_level n)%nat.

(** Which daughter is taken next: cluster index, its members so far, the remaining daughters
    (std::max_element / std::min_element, HybridManager2.cpp:209-217). *)
Variable pick : nat → list nat → list nat → nat.
(* HybridManager2.cpp:207-226: the while loop, [k] more members *)
Fixpoint fill_cluster (k ci : nat) (cl set : list nat) : list nat * list nat :=
  match k with
  | 0 => (cl, set)
  | S k' =>
    let a := pick ci cl set in
    let set' := filter (λ x, x ≠ a) set in
    let cl' := cl ++ [a] in
    match set' with [] => (cl', []) | _ => fill_cluster k' ci cl' set' end
  end.
(* HybridManager2.cpp:205-227: the loop over clusters; it stops when no daughter is left *)
Fixpoint fill_clusters (todo ci size : nat) (set : list nat) : list (list nat) :=
  match todo with
  | 0 => []
  | S t =>
    match set with
    | [] => [] :: fill_clusters t (S ci) size []
    | _ => let r := fill_cluster size ci [] set in r.1 :: fill_clusters t (S ci) size r.2
    end
  end.
(* HybridManager2.cpp:188-228, called at 66-70 with one cluster for each first level node *)
Definition clusters (n : nat) : list (list nat) :=
  let m := first_level n in fill_clusters m 0 ((n + m - 1) / m) (seq 0 n).

(** The array of box vectors: two entries of the C++ array (lower and upper corners) are one here. *)
Variable M : R.                      (* kInfLength, InfinityLength<float>() *)
(* HybridManager2.cpp:86-90 *)
Definition empty_box : aabb := Box (V3 (- M) (- M) (- M)) (V3 (- M) (- M) (- M)).
(* VecGeom/management/HybridManager2.h:55-57 *)
Record structure := Structure { h_n : nat; h_lane : nat → nat → aabb; h_nodes : list (list nat) }.
(* vecCore::AssignLane on an array of [size] vectors *)
Definition set_lane (size : nat) (f : nat → nat → aabb) (e l : nat) (b : aabb) : option (nat → nat → aabb) :=
  if decide ((e < size)%nat ∧ (l < kvs)%nat) then Some (λ e' l', if decide (e' = e ∧ l' = l) then b else f e' l') else None.
(* HybridManager2.cpp:97-114: members of one node *)
Fixpoint put_members (boxes : list aabb) (size vi d : nat) (c : list nat) (f : nat → nat → aabb) (acc : aabb) : option ((nat → nat → aabb) * aabb) :=
  match c with
  | [] => Some (f, acc)
  | x :: r => b ← boxes !! x; f' ← set_lane size f vi d b; put_members boxes size vi (S d) r f' (bunion acc b)
  end.
(* HybridManager2.cpp:93-127 *)
Fixpoint put_nodes (boxes : list aabb) (size i vi : nat) (cs : list (list nat)) (f : nat → nat → aabb) : option (nat → nat → aabb) :=
  match cs with
  | [] => Some f
  | c :: r =>
    let vi := if (i mod kvs =? 0)%nat then S vi else vi in
    '(f1, nb) ← put_members boxes size vi 0 c f (Box (V3 M M M) (V3 (- M) (- M) (- M)));
    f2 ← set_lane size f1 ((kvs + 1) * (i / kvs)) (i mod kvs) nb;
    put_nodes boxes size (S i) (S vi) r f2
  end.
(* HybridManager2.cpp:56-131; no structure for no boxes *)
Definition build_structure (boxes : list aabb) : option (option structure) :=
  match length boxes with
  | 0 => Some None
  | n => f ← put_nodes boxes (vector_size n) 0 0 (clusters n) (λ _ _, empty_box);
         Some (Some (Structure n f (clusters n)))
  end.

(** Queries. *)
(* HybridNavigator2.h:89-100, 132-144, HybridSafetyEstimator.h:75-87: lanes [js] of the members of node [node] at vector [e] *)
Fixpoint leaf_lanes (s : structure) (test : aabb → bool) (e node : nat) (js : list nat) : option (list (nat * aabb)) :=
  match js with
  | [] => Some []
  | j :: r =>
    if test (h_lane s e j) then
      c ← h_nodes s !! node; x ← c !! j; rest ← leaf_lanes s test e node r; Some ((x, h_lane s e j) :: rest)
    else leaf_lanes s test e node r
  end.
(* HybridNavigator2.h:81-103, 126-147, HybridSafetyEstimator.h:69-90: lanes of one internal node; the vector of members must exist *)
Fixpoint node_lanes (s : structure) (test : aabb → bool) (g : nat) (is : list nat) : option (list (nat * aabb)) :=
  match is with
  | [] => Some []
  | i :: r =>
    if test (h_lane s ((kvs + 1) * g) i) then
      let e := ((kvs + 1) * g + i + 1)%nat in
      if decide (e < vector_size (h_n s))%nat then
        l ← leaf_lanes s test e (kvs * g + i) (seq 0 kvs); rest ← node_lanes s test g r; Some (l ++ rest)
      else None
    else node_lanes s test g r
  end.
(* HybridNavigator2.h:80-104, 125-148, HybridSafetyEstimator.h:68-91 *)
Fixpoint all_groups (s : structure) (test : aabb → bool) (gs : list nat) : option (list (nat * aabb)) :=
  match gs with
  | [] => Some []
  | g :: r => l ← node_lanes s test g (seq 0 kvs); rest ← all_groups s test r; Some (l ++ rest)
  end.
(* HybridNavigator2.h:80, 125, HybridSafetyEstimator.h:68: index = 0; index < size*2; index += 2*(kVS+1) *)
Definition query (s : structure) (test : aabb → bool) : option (list (nat * aabb)) :=
  all_groups s test (seq 0 (ceil_div (vector_size (h_n s)) (kvs + 1))).
(* HybridNavigator2.h:70-106 *)
Definition containing_candidates (s : structure) (p : v3) : option (list nat) :=
  l ← query s (λ b, ab_contains b p); Some (map fst l).
(* HybridNavigator2.h:111-150 *)
Definition hit_candidates (s : structure) (p inv : v3) (maxstep : R) : option (list (nat * R)) :=
  l ← query s (λ b, rltb (kernel2 M b p inv 0 maxstep) maxstep);
  Some (map (λ xb : nat * aabb, (xb.1, kernel2 M xb.2 p inv 0 maxstep)) l).
(* HybridSafetyEstimator.h:57-93 *)
Definition safety_candidates (s : structure) (p : v3) (limit : R) : option (list (nat * R)) :=
  l ← query s (λ b, rltb (ab_safety_sqr b p) limit);
  Some (map (λ xb : nat * aabb, (xb.1, ab_safety_sqr xb.2 p)) l).

(** The variant that lowers the limit while searching; the state is (limit, pairs found). *)
(* HybridSafetyEstimator.h:131-132 and 149-151 *)
Definition lower_limit (x limit : R) : R := if rltb x limit then x else limit.
(* HybridSafetyEstimator.h:144-154; [hit] is the mask computed before *)
Fixpoint leaf_lanes2 (s : structure) (p : v3) (hit : nat → bool) (e node : nat) (js : list nat) (st : R * list (nat * R)) : option (R * list (nat * R)) :=
  match js with
  | [] => Some st
  | j :: r =>
    if hit j then
      c ← h_nodes s !! node; x ← c !! j;
      leaf_lanes2 s p hit e node r (lower_limit (ab_safety_max_sqr (h_lane s e j) p) st.1, st.2 ++ [(x, ab_safety_sqr (h_lane s e j) p)])
    else leaf_lanes2 s p hit e node r st
  end.
(* HybridSafetyEstimator.h:135-158 *)
Fixpoint node_lanes2 (s : structure) (p : v3) (hit : nat → bool) (g : nat) (is : list nat) (st : R * list (nat * R)) : option (R * list (nat * R)) :=
  match is with
  | [] => Some st
  | i :: r =>
    if hit i then
      let e := ((kvs + 1) * g + i + 1)%nat in
      if decide (e < vector_size (h_n s))%nat then
        st' ← leaf_lanes2 s p (λ j, rltb (ab_safety_sqr (h_lane s e j) p) st.1) e (kvs * g + i) (seq 0 kvs) st;
        node_lanes2 s p hit g r st'
      else None
    else node_lanes2 s p hit g r st
  end.
(* HybridSafetyEstimator.h:123-159 *)
Fixpoint all_groups2 (s : structure) (p : v3) (gs : list nat) (st : R * list (nat * R)) : option (R * list (nat * R)) :=
  match gs with
  | [] => Some st
  | g :: r =>
    let lim := foldl (λ lim i, lower_limit (ab_safety_max_sqr (h_lane s ((kvs + 1) * g) i) p) lim) st.1 (seq 0 kvs) in
    st' ← node_lanes2 s p (λ i, rltb (ab_safety_sqr (h_lane s ((kvs + 1) * g) i) p) lim) g (seq 0 kvs) (lim, st.2);
    all_groups2 s p r st'
  end.
(* HybridSafetyEstimator.h:109-161 *)
Definition safety_candidates2 (s : structure) (p : v3) (limit : R) : option (list (nat * R)) :=
  st ← all_groups2 s p (seq 0 (ceil_div (vector_size (h_n s)) (kvs + 1))) (limit, []); Some st.2.
End Build.
