(** The points of a volume on the heap, and what flattening may do to the heap. *)
From Coq Require Import Reals.
From stdpp Require Import list option gmap fin_maps.
From Verif Require Import Real3 TransModel TransSpec BoolModel BoolSpec FlattenModel.
Import stdpp.list.

(** [u] occupies the set [S]. *)
Inductive occupies (h : heap) : N → (v3 → Prop) → Prop :=
| occ_leaf u f S : h !! u = Some (VLeaf f) → (∀ p, S p ↔ f p = true) → occupies h u S
| occ_bool u op l r A B S : h !! u = Some (VBool op l r) → occupies h l.2 A → occupies h r.2 B →
    (∀ p, S p ↔ combined op (put l.1 A) (put r.1 B) p) → occupies h u S
| occ_multi u cs G S : h !! u = Some (VMulti cs) → (∀ j c, cs !! j = Some c → occupies h c.2 (G j)) →
    (∀ p, S p ↔ ∃ j c, cs !! j = Some c ∧ put c.1 (G j) p) → occupies h u S.
(** [k] union nodes in the tree at [u]. *)
Inductive unions (h : heap) : N → nat → Prop :=
| uni_leaf u v : h !! u = Some v → boolean_struct v = None → unions h u 0
| uni_bool u op l r a b : h !! u = Some (VBool op l r) → unions h l.2 a → unions h r.2 b →
    unions h u ((match op with kUnion => 1 | _ => 0 end) + a + b).
Definition rigid (t : trans) : Prop := flags_ok t ∧ ortho t.
Definition children (v : volume) : list child := match v with VLeaf _ => [] | VBool _ l r => [l; r] | VMulti cs => cs end.
(** All placements are rigid motions. *)
Definition rigid_heap (h : heap) : Prop := ∀ u v c, h !! u = Some v → c ∈ children v → rigid c.1.
(** Operands exist, and there is no cycle. *)
Definition ranked (rk : N → nat) (h : heap) : Prop :=
  ∀ u v c, h !! u = Some v → c ∈ children v → is_Some (h !! c.2) ∧ (rk c.2 < rk u)%nat.
(** Not a union that would have been worth flattening. *)
Definition flat (min_unions : nat) (h : heap) (u : N) : Prop :=
  (∃ k, unions h u k ∧ (k < min_unions)%nat) ∨ ∃ op l r, h !! u = Some (VBool op l r) ∧ op ≠ kUnion.
