(** Vocabulary for the bounding volume hierarchy. *)
From stdpp Require Import list option.
From Coq Require Import Reals ZArith NArith.
From Verif Require Import Real3 AABBModel AABBSpec BVHModel.

(** What a splitting function must do: only reorder, and return a position in the range. *)
Definition splits (sp : splitter) : Prop :=
  ∀ boxes seg node, (sp boxes seg node).1 ≡ₚ seg ∧ ((sp boxes seg node).2 ≤ length seg)%nat.
(** std::partition and std::sort. *)
Definition partitions (part : (nat → bool) → list nat → list nat * nat) : Prop :=
  ∀ f l, (part f l).1 ≡ₚ l ∧ ((part f l).2 ≤ length l)%nat ∧
    (∀ i x, (part f l).1 !! i = Some x → (f x = true ↔ (i < (part f l).2)%nat)).
Definition sorts (srt : (nat → nat → bool) → list nat → list nat) : Prop := ∀ lt l, srt lt l ≡ₚ l.

(** The box of node [id] contains the boxes of all daughters in positions [f..l). *)
Definition bounds (b : bvh) (id f l : nat) : Prop :=
  ∃ bx, b_nodes b !! id = Some bx ∧
    ∀ i, i ∈ slice f l (b_prim b) → ∃ bi, b_aabbs b !! i = Some bi ∧ box_le bi bx.
(** The subtree of node [id], with at most [k] levels below it, holds the positions [f..l):
    a leaf lists them all, an inner node splits them between its children. *)
Inductive tree_ok (b : bvh) : nat → nat → nat → nat → Prop :=
| tree_leaf k id f l :
    (f ≤ l ≤ length (b_prim b))%nat → b_nch b !! id = Some (Z.of_nat (l - f)) → b_off b !! id = Some (Z.of_nat f) →
    bounds b id f l → (l - f ≤ 8 ∨ k = 0)%nat → tree_ok b k id f l
| tree_node k id f m l :
    (f ≤ m ≤ l)%nat → (8 < l - f)%nat → b_nch b !! id = Some (-1)%Z → bounds b id f l →
    tree_ok b k (2 * id + 1) f m → tree_ok b k (2 * id + 2) m l → tree_ok b (S k) id f l.
(** A hierarchy over [n] daughters with [d] levels below the root. *)
Definition bvh_ok (b : bvh) (d : nat) : Prop :=
  b_prim b ≡ₚ seq 0 (length (b_aabbs b)) ∧ length (b_nch b) = (2 ^ S d - 1)%nat ∧
  tree_ok b d 0 0 (length (b_prim b)).

(** Daughter [i] is volume [v] with box [bx]. *)
Definition daughter (b : bvh) (dau : list N) (v : N) (bx : aabb) : Prop :=
  ∃ i, b_aabbs b !! i = Some bx ∧ dau !! i = Some v.
