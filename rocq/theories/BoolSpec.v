(** Sets of points, and what the functions of a solid should say about its set. *)
From Coq Require Import Reals.
From stdpp Require Import list.
From Verif Require Import Real3 AABBModel AABBSpec TransModel BoxModel ShapeModel BoolModel.
Local Open Scope R_scope.

(** The set occupied by a solid with set [S] placed with [t], and the three combinations. *)
Definition put (t : trans) (S : v3 → Prop) (p : v3) : Prop := S (transform t p).
Definition combined (op : bop) (A B : v3 → Prop) (p : v3) : Prop :=
  match op with kUnion => A p ∨ B p | kIntersection => A p ∧ B p | kSubtraction => A p ∧ ¬ B p end.
(** Contains is exact for the set; Inside contradicts Contains nowhere. *)
Definition decides (f : v3 → bool) (S : v3 → Prop) : Prop := ∀ p, f p = true ↔ S p.
Definition consistent (s : shape) : Prop :=
  ∀ p, (s_inside s p = kInside → s_contains s p = true) ∧ (s_inside s p = kOutside → s_contains s p = false).
(** Safeties: no point of the set is closer than SafetyToIn says, no point outside it closer than SafetyToOut says. *)
Definition safe_in (s : shape) (S : v3 → Prop) : Prop := ∀ p q, ¬ S p → S q → s_safety_in s p <= vdist p q.
Definition safe_out (s : shape) (S : v3 → Prop) : Prop :=
  (∀ p q, S p → ¬ S q → s_safety_out s p <= vdist p q) ∧ ∀ p, ¬ S p → s_safety_out s p <= 0.
(** A tree of Boolean operations over solids. *)
Inductive bexp := Leaf (s : shape) | Node (op : bop) (tl : trans) (l : bexp) (tr : trans) (r : bexp).
Fixpoint solid (inf : R) (fuel : nat) (e : bexp) : shape :=
  match e with
  | Leaf s => s
  | Node op tl l tr r => bool_shape inf (Placed tl (solid inf fuel l)) (Placed tr (solid inf fuel r)) fuel op
  end.
Fixpoint points (e : bexp) : v3 → Prop :=
  match e with
  | Leaf s => λ p, s_contains s p = true
  | Node op tl l tr r => combined op (put tl (points l)) (put tr (points r))
  end.

(** ** Along a ray: subsets of the line, positions are ray parameters. *)
(** Starting in [A] at [s], the first way out is after [t]; starting outside, the first way in. *)
Definition exit_after (A : R → Prop) (s t : R) : Prop :=
  0 <= t ∧ (∀ u, s <= u < s + t → A u) ∧ ∀ e, 0 < e → ∃ u, s + t <= u < s + t + e ∧ ¬ A u.
Definition entry_after (A : R → Prop) (s t : R) : Prop :=
  0 <= t ∧ (∀ u, s <= u < s + t → ¬ A u) ∧ ∀ e, 0 < e → ∃ u, s + t <= u < s + t + e ∧ A u.
Definition never (A : R → Prop) (s : R) : Prop := ∀ u, s <= u → ¬ A u.
Definition always (A : R → Prop) (s : R) : Prop := ∀ u, s <= u → A u.
(** Exact answers; [inf]: no crossing. *)
Definition exit_is (inf : R) (A : R → Prop) (s t : R) : Prop := (t < inf ∧ exit_after A s t) ∨ (t = inf ∧ always A s).
Definition entry_is (inf : R) (A : R → Prop) (s t : R) : Prop := (t < inf ∧ entry_after A s t) ∨ (t = inf ∧ never A s).
(** Functions of the ray parameter: exact from the right side; from inside, the entry distance is negative, or
    infinite if nothing of the solid is left further on. *)
Definition exact_out (inf : R) (A : R → Prop) (f : R → option R) : Prop :=
  ∀ s, 0 <= s → ∃ t, f s = Some t ∧ (A s → exit_is inf A s t) ∧ (¬ A s → t < 0).
Definition exact_in (inf : R) (A : R → Prop) (f : R → option R) : Prop :=
  ∀ s, 0 <= s → ∃ t, f s = Some t ∧ (¬ A s → entry_is inf A s t) ∧ (A s → t < 0 ∨ (t = inf ∧ never A (s + kTolerance))).
(** Within [e] of [s]. *)
Definition nearby (e : R) (A : R → Prop) (s : R) : Prop := ∃ u, s - e <= u <= s + e ∧ A u.
(** A set on the ray. *)
Definition on_ray (S : v3 → Prop) (p d : v3) (s : R) : Prop := S (along p d s).
(** A solid in its own frame, seen along a ray: its distances are exact for the set [S]. *)
Definition ray_in (inf : R) (s : shape) (S : v3 → Prop) (p d : v3) (smax : R) : Prop :=
  exact_in inf (on_ray S p d) (λ u, s_to_in s (along p d u) d smax).
Definition ray_out (inf : R) (s : shape) (S : v3 → Prop) (p d : v3) (smax : R) : Prop :=
  exact_out inf (on_ray S p d) (λ u, s_to_out s (along p d u) d smax).
(** The same for a placed solid: the ray in its frame. *)
Definition placed_in_ok (inf : R) (v : placed) (S : v3 → Prop) (p d : v3) (smax : R) : Prop :=
  ray_in inf (pl_shape v) S (transform (pl_tr v) p) (transform_direction (pl_tr v) d) smax.
Definition placed_out_ok (inf : R) (v : placed) (S : v3 → Prop) (p d : v3) (smax : R) : Prop :=
  ray_out inf (pl_shape v) S (transform (pl_tr v) p) (transform_direction (pl_tr v) d) smax.
(** Between [s] and [d] there is nothing of the set, up to [e]. *)
Definition missed (e : R) (S : R → Prop) (s d : R) : Prop := ∀ u, s <= u < d → nearby e (λ u, ¬ S u) u.
Definition missed_all (e : R) (S : R → Prop) (s : R) : Prop := ∀ u, s <= u → nearby e (λ u, ¬ S u) u.
Definition overlap (A B : R → Prop) (u : R) : Prop := A u ∧ B u.
Definition except (A B : R → Prop) (u : R) : Prop := A u ∧ ¬ B u.
(** Wherever the set is left, it is not entered again within the push. *)
Definition no_narrow_gap (B : R → Prop) : Prop := ∀ s t, 0 <= s → B s → exit_after B s t → ¬ B (s + t + kPush).
(** Not kOutside for the operand, where it is placed. *)
Definition touched (v : placed) (p d : v3) (s : R) : Prop := s_inside (pl_shape v) (transform (pl_tr v) (along p d s)) ≠ kOutside.
(** At [t] one operand is left, and just behind it the other one is not there. *)
Definition left_at (p d : v3) (SX SY : R → Prop) (X Y : placed) (t : R) : Prop :=
  (¬ touched Y p d (t + kPush) ∧ ∀ e, 0 < e → ∃ u, t <= u < t + e ∧ ¬ SX u) ∨
  (¬ touched X p d (t + kPush) ∧ ∀ e, 0 < e → ∃ u, t <= u < t + e ∧ ¬ SY u).
(** What a solid must guarantee about its safeties, so that they can be combined. *)
Definition good_safety (s : shape) (S : v3 → Prop) : Prop := safe_in s S ∧ safe_out s S ∧ ∀ p, S p → s_safety_in s p <= 0.
Fixpoint leaves_good (e : bexp) : Prop :=
  match e with Leaf s => good_safety s (λ p, s_contains s p = true) | Node _ _ l _ r => leaves_good l ∧ leaves_good r end.
(** Left operands unmoved, right operands moved by rigid motions. *)
Fixpoint left_unmoved (rigid : trans → Prop) (e : bexp) : Prop :=
  match e with Leaf _ => True | Node _ tl l tr r => tl = tr_one ∧ rigid tr ∧ left_unmoved rigid l ∧ left_unmoved rigid r end.
(** The normal of a solid placed with [t], in the frame of the mother. *)
Definition facing (v : placed) (p : v3) : v3 * bool :=
  (inverse_transform_direction (pl_tr v) (s_normal (pl_shape v) (transform (pl_tr v) p)).1, (s_normal (pl_shape v) (transform (pl_tr v) p)).2).
(** On the surface of an operand, as far as its safeties tell; clear of the surface, on either side. *)
Definition on_surface (v : placed) (p : v3) : Prop :=
  s_safety_in (pl_shape v) (transform (pl_tr v) p) <= 0 ∧ s_safety_out (pl_shape v) (transform (pl_tr v) p) <= 0.
Definition clear_in (v : placed) (p : v3) : Prop :=
  s_contains (pl_shape v) (transform (pl_tr v) p) = true ∧ 0 < s_safety_out (pl_shape v) (transform (pl_tr v) p).
Definition clear_out (v : placed) (p : v3) : Prop :=
  s_contains (pl_shape v) (transform (pl_tr v) p) = false ∧ 0 < s_safety_in (pl_shape v) (transform (pl_tr v) p).
(** For the examples: the points with -h <= x < h, seen along the direction (1, 0, 0). *)
Definition slab (inf h : R) : shape :=
  let inside p := rleb (- h) (vx p) && rltb (vx p) h in
  Shape inside (λ p, if inside p then kInside else kOutside)
    (λ p _ _, Some (if rltb (vx p) (- h) then - h - vx p else if rltb (vx p) h then -1 else inf))
    (λ p _ _, Some (if inside p then h - vx p else -1))
    (λ p, Rabs (vx p) - h) (λ p, h - Rabs (vx p)) (λ p, (V3 (rsign (vx p)) 0 0, true)) (V3 (- h) (- inf) (- inf), V3 h inf inf).
Definition x_axis : v3 := V3 1 0 0.
