(** Model of the bounding volume hierarchy: source/BVH.cpp, VecGeom/base/BVH.h.
    Node ids, offsets and counts are exact integers, coordinates real numbers.  [None] is
    undefined behaviour (or the exception of the constructor). *)
From stdpp Require Import list option.
From Coq Require Import Reals ZArith NArith.
From Verif Require Import Real3 AABBModel TransModel.

(* BVH.h:365-371 *)
Record bvh := Bvh { b_prim : list nat; b_off : list Z; b_nch : list Z; b_nodes : list aabb; b_aabbs : list aabb }.

(** A splitting function (BVH.cpp:339-345) reorders the ids of a node and returns the number
    of those that go to the left child. *)
Definition splitter := list aabb → list nat → aabb → list nat * nat.

(* BVH.cpp:374-376 *)
Definition union_of (boxes : list aabb) (seg : list nat) : option aabb :=
  match seg with
  | [] => None
  | i :: r => b ← boxes !! i; foldl (λ ob j, b' ← ob; c ← boxes !! j; Some (bunion b' c)) (Some b) r
  end.

Definition slice {A} (f l : nat) (xs : list A) : list A := take (l - f) (drop f xs).
Record bst := Bst { s_prim : list nat; s_off : list Z; s_nch : list Z; s_nodes : list aabb }.

(* BVH.cpp:363-389; [fuel] bounds the recursion *)
Fixpoint compute_nodes (sp : splitter) (boxes : list aabb) (nodes fuel id first last : nat) (s : bst) : option bst :=
  match fuel with
  | O => None
  | S fuel' =>
    if (nodes <=? id)%nat then Some s else
    let s1 := Bst (s_prim s) (<[id := Z.of_nat first]> (s_off s)) (<[id := Z.of_nat (last - first)]> (s_nch s)) (s_nodes s) in
    if (first =? last)%nat then Some s1 else
    b ← union_of boxes (slice first last (s_prim s1));
    let s2 := Bst (s_prim s1) (s_off s1) (s_nch s1) (<[id := b]> (s_nodes s1)) in
    if (S first =? last)%nat then Some s2 else
    let '(seg, k) := sp boxes (slice first last (s_prim s2)) b in
    let s3 := Bst (take first (s_prim s2) ++ seg ++ drop last (s_prim s2)) (s_off s2) (s_nch s2) (s_nodes s2) in
    s4 ← compute_nodes sp boxes nodes fuel' (2 * id + 1) first (first + k) s3;
    compute_nodes sp boxes nodes fuel' (2 * id + 2) (first + k) last s4
  end.
(* BVH.cpp:87 *)
Definition mark1 (c : option (list Z)) (id : nat) : option (list Z) :=
  c ← c; x ← c !! id;
  if (8 <? x)%Z then
    l ← c !! (2 * id + 1)%nat; r ← c !! (2 * id + 2)%nat;
    if (x =? l + r)%Z then Some (<[id := (-1)%Z]> c) else Some c
  else Some c.
(* BVH.cpp:86-87 *)
Definition mark (nodes : nat) (c : list Z) : option (list Z) := foldl mark1 (Some c) (seq 0 (nodes / 2)).
(* BVH.cpp:58-64, 76-87 for a given depth *)
Definition bvh_build (sp : splitter) (boxes : list aabb) (depth : nat) : option bvh :=
  let nodes := (2 ^ S depth - 1)%nat in
  let n := length boxes in
  s ← compute_nodes sp boxes nodes (S (S depth)) 0 0 n
        (Bst (seq 0 n) (replicate nodes (-1)%Z) (replicate nodes 0%Z) (replicate nodes aabb_default));
  c ← mark nodes (s_nch s);
  Some (Bvh (s_prim s) (s_off s) c (s_nodes s) boxes).
(* BVH.h:33 *)
Definition BVH_MAX_DEPTH : nat := 32.
(* BVH.cpp:72; (int)log2(0) is undefined *)
Definition bvh_depth (n : nat) (depth : Z) : option Z :=
  d ← (if (depth =? 0)%Z then if (n / 2 =? 0)%nat then None else Some (Z.of_nat (Nat.log2 (n / 2))) else Some depth);
  Some (Z.min d (Z.of_nat BVH_MAX_DEPTH)).
(* BVH.cpp:49-88; 2 << fDepth minus one must not overflow int *)
Definition bvh_make (sp : splitter) (boxes : list aabb) (depth : Z) : option bvh :=
  if (length boxes =? 0)%nat then None else
  d ← bvh_depth (length boxes) depth;
  if (0 <=? d)%Z && (d <? 30)%Z then bvh_build sp boxes (Z.to_nat d) else None.

(** * Splitting functions.  [part] stands for std::partition, [srt] for std::sort. *)
Section Split.
Variable part : (nat → bool) → list nat → list nat * nat.
Variable srt : (nat → nat → bool) → list nat → list nat.
Definition box_at (boxes : list aabb) (i : nat) : aabb := default aabb_default (boxes !! i).
Definition comp (axis : nat) (v : v3) : R := match axis with 0 => vx v | 1 => vy v | _ => vz v end.
(* BVH.cpp:177-181 *)
Definition closest_axis (v : v3) : nat :=
  let a := vabs v in
  if rgtb (vx a) (vz a) then (if rgtb (vx a) (vy a) then 0 else 1) else (if rgtb (vy a) (vz a) then 1 else 2).
(* BVH.cpp:183-191 *)
Definition split_longest_axis : splitter := λ boxes seg node,
  let p := bcenter node in
  let axis := closest_axis (bsize node) in
  part (λ i, rltb (comp axis (bcenter (box_at boxes i)) - comp axis p) 0) seg.
(* BVH.cpp:193-213; the extensions are kept in single precision there *)
Definition extent_min (boxes : list aabb) (axis : nat) (seg : list nat) (pick : R → R → R) : R :=
  match seg with [] => 0%R | i :: r => foldl (λ m j, pick m (comp axis (bmin (box_at boxes j)))) (comp axis (bmin (box_at boxes i))) r end.
Definition split_largest_distance : splitter := λ boxes seg node,
  let lo axis := extent_min boxes axis seg Rmin in
  let hi axis := extent_min boxes axis seg Rmax in
  let ext axis := (hi axis - lo axis)%R in
  let best := if rltb (ext 0%nat) (ext 1%nat) then (if rltb (ext 1%nat) (ext 2%nat) then 2%nat else 1%nat)
              else (if rltb (ext 0%nat) (ext 2%nat) then 2%nat else 0%nat) in
  let middle := ((hi best + lo best) / 2)%R in
  part (λ i, rltb (comp best (bmin (box_at boxes i))) middle) seg.
(* BVH.cpp:221-229 *)
Definition less3 (l r : v3) (axis : nat) : bool :=
  let n1 := Nat.modulo (axis + 1) 3 in let n2 := Nat.modulo (axis + 2) 3 in
  rltb (comp axis l) (comp axis r)
  || (reqb (comp axis l) (comp axis r)
      && (rltb (comp n1 l) (comp n1 r) || (reqb (comp n1 l) (comp n1 r) && rltb (comp n2 l) (comp n2 r)))).
(* BVH.cpp:288-295 *)
Definition sorter (boxes : list aabb) (axis a b : nat) : bool :=
  let key i := let c := bcenter (box_at boxes i) in vadd c (vscale (1 / 100) (vsub c (bmin (box_at boxes i)))) in
  less3 (key a) (key b) axis.
(* BVH.cpp:246-264: surface areas of the boxes left of, and from, each position *)
Definition area_of (boxes : list aabb) (seg : list nat) : R :=
  match seg with [] => 0%R | i :: r => barea (foldl (λ b j, bunion b (box_at boxes j)) (box_at boxes i) r) end.
(* the right-to-left sweep starts with the last box and meets it twice *)
Definition area_right (boxes : list aabb) (seg : list nat) : R :=
  match rev seg with
  | [] => 0%R
  | e :: _ => barea (foldr (λ j b, bunion b (box_at boxes j)) (box_at boxes e) seg)
  end.
Definition sweep (boxes : list aabb) (seg : list nat) : list (R * R) :=
  (λ k, (area_of boxes (take k seg), area_right boxes (drop k seg))) <$> seq 0 (length seg).
(* BVH.cpp:307-316; the balance term is computed with integer division *)
Definition balance (nobj k : nat) : Z := Z.abs (Z.of_nat nobj / 2 - Z.of_nat k / Z.of_nat nobj).
Definition split_metric (nobj k : nat) (left right : R) : R :=
  (left * INR k + right * INR (nobj - k) + 1 / 10 * IZR (balance nobj k))%R.
(* BVH.cpp:306-321: scan of one sorted axis; the accumulator is (metric, axis, object) *)
Definition scan_axis (boxes : list aabb) (axis : nat) (seg : list nat) (best : R * option (nat * nat)) : R * option (nat * nat) :=
  let sw := sweep boxes seg in
  let tot := match sw with [] => 0%R | x :: _ => x.2 end in
  foldl (λ best '(k, (i, (l, r))),
    let m := split_metric (length seg) k (l / tot) (r / tot) in
    if rltb m best.1 then (m, Some (axis, i)) else best)
    best (zip (seq 0 (length seg)) (zip seg sw)).
(* BVH.cpp:279-333 *)
Definition split_sah : splitter := λ boxes seg node,
  let s0 := srt (sorter boxes 0) seg in
  let b0 := scan_axis boxes 0 s0 (INR (length seg), None) in
  let s1 := srt (sorter boxes 1) s0 in
  let b1 := scan_axis boxes 1 s1 b0 in
  let s2 := srt (sorter boxes 2) s1 in
  let b2 := scan_axis boxes 2 s2 b1 in
  match b2.2 with
  | None => (s2, length s2)
  | Some (axis, obj) => part (λ i, sorter boxes axis i obj) s2
  end.
End Split.

(** * Traversal.  The four queries share the same loop; they differ in what is done at a leaf
    and in which children are pushed. *)
Section Walk.
Context {St : Type}.
(** [leaf] returns the new state and whether the function returns early. *)
Variable leaf : St → list nat → option (St * bool).
(** [push] lists the children to push, first pushed first. *)
Variable push : St → nat → option (list nat).
(* BVH.h:99-145, 174-206, 258-284, 301-343; [lim] entries of stack *)
Fixpoint walk (b : bvh) (lim fuel : nat) (stack : list nat) (s : St) : option (St * bool) :=
  match fuel with
  | O => None
  | S fuel' =>
    match stack with
    | [] => Some (s, false)
    | id :: st =>
      c ← b_nch b !! id;
      if (0 <=? c)%Z then
        o ← b_off b !! id;
        prims ← mapM (λ i, b_prim b !! (Z.to_nat o + i)%nat) (seq 0 (Z.to_nat c));
        '(s', stop) ← leaf s prims;
        if (stop : bool) then Some (s', true) else walk b lim fuel' st s'
      else
        ch ← push s id;
        let st' := rev ch ++ st in
        if (length st' <=? lim)%nat then walk b lim fuel' st' s else None
    end
  end.
(** Enough iterations: one more than the number of nodes. *)
Definition run (b : bvh) (lim : nat) (s : St) : option (St * bool) := walk b lim (S (length (b_nch b))) [0%nat] s.
End Walk.

Section Query.
Variable b : bvh.
Variable dau : list N.       (* fLV.GetDaughters() *)
Variable p : v3.             (* localpoint *)

(* BVH.h:264-274, 307-332: loop over the children of a leaf; [accept] is the test of the volume and
   gives the point in its coordinates *)
Fixpoint locate_leaf (accept : N → option v3) (prims : list nat) : option (option (N * v3) * bool) :=
  match prims with
  | [] => Some (None, false)
  | i :: r =>
    bx ← b_aabbs b !! i;
    if bcontains bx p then
      v ← dau !! i;
      match accept v with Some q => Some (Some (v, q), true) | None => locate_leaf accept r end
    else locate_leaf accept r
  end.
(* BVH.h:276-280, 334-339 *)
Definition locate_push (_ : option (N * v3)) (id : nat) : option (list nat) :=
  l ← b_nodes b !! (2 * id + 1)%nat; r ← b_nodes b !! (2 * id + 2)%nat;
  Some ((if bcontains l p then [2 * id + 1]%nat else []) ++ (if bcontains r p then [2 * id + 2]%nat else [])).
Definition locate (accept : N → option v3) (lim : nat) : option (option (N * v3)) :=
  r ← run (λ _ prims, locate_leaf accept prims) locate_push b lim None; Some r.1.
(* BVH.h:255-285; [cont v] is VPlacedVolume::Contains with the local point *)
Definition level_locate (cont : N → v3 → option v3) (excl : option N) (lim : nat) : option (option (N * v3)) :=
  locate (λ v, if bool_decide (Some v = excl) then None else cont v p) lim.
Inductive inside_t := kInside | kSurface | kOutside.
(* BVH.h:297-344 *)
Definition level_locate_dir (tr : N → trans) (inside : N → v3 → inside_t) (normal : N → v3 → v3)
    (dir : v3) (excl : option N) (lim : nat) : option (option (N * v3)) :=
  locate (λ v, if bool_decide (Some v = excl) then None else
    let q := transform (tr v) p in
    match inside v q with
    | kInside => Some q
    | kSurface => if rltb (vdot (normal v q) (transform_direction (tr v) dir)) 0 then Some q else None
    | kOutside => None
    end) lim.

(* BVH.h:110-119; the state is (step, hitcandidate), [dti v step] the distance to the volume *)
Fixpoint ray_leaf (inv : v3) (dti : N → R → R) (last : option N) (s : R * option N) (prims : list nat) : option ((R * option N) * bool) :=
  match prims with
  | [] => Some (s, false)
  | i :: r =>
    bx ← b_aabbs b !! i;
    if bhit_inv bx p inv s.1 then
      v ← dau !! i;
      let dist := dti v s.1 in
      if rltb dist s.1 && negb (rleb dist 0 && bool_decide (Some v = last)) then ray_leaf inv dti last (dist, Some v) r
      else ray_leaf inv dti last s r
    else ray_leaf inv dti last s r
  end.
(* BVH.h:121-144 *)
Definition ray_push (inv : v3) (s : R * option N) (id : nat) : option (list nat) :=
  l ← b_nodes b !! (2 * id + 1)%nat; r ← b_nodes b !! (2 * id + 2)%nat;
  let L := if bhit_inv l p inv s.1 then [2 * id + 1]%nat else [] in
  let R := if bhit_inv r p inv s.1 then [2 * id + 2]%nat else [] in
  Some (if rltb (bintersection r p inv).1 (bintersection l p inv).1 then R ++ L else L ++ R).
(* BVH.h:96-146 *)
Definition check_intersections (dir : v3) (dti : N → R → R) (last : option N) (step : R) (hit : option N) (lim : nat) : option (R * option N) :=
  let inv := vinv (vnonzero dir) in
  r ← run (ray_leaf inv dti last) (ray_push inv) b lim (step, hit); Some r.1.

(* BVH.h:180-187 *)
Fixpoint safety_leaf (sti : N → R) (s : R) (prims : list nat) : option (R * bool) :=
  match prims with
  | [] => Some (s, false)
  | i :: r =>
    bx ← b_aabbs b !! i;
    if rltb (bsafety bx p) s then
      v ← dau !! i;
      let dist := sti v in
      safety_leaf sti (if rltb dist s then dist else s) r
    else safety_leaf sti s r
  end.
(* BVH.h:189-205 *)
Definition safety_push (s : R) (id : nat) : option (list nat) :=
  l ← b_nodes b !! (2 * id + 1)%nat; r ← b_nodes b !! (2 * id + 2)%nat;
  let L := if rltb (bsafety l p) s then [2 * id + 1]%nat else [] in
  let R := if rltb (bsafety r p) s then [2 * id + 2]%nat else [] in
  Some (if rltb (bsafety r p) (bsafety l p) then R ++ L else L ++ R).
(* BVH.h:172-209 *)
Definition compute_safety (sti : N → R) (safety : R) (lim : nat) : option R :=
  r ← run (safety_leaf sti) safety_push b lim safety; Some r.1.
End Query.
