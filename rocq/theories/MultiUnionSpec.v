(** What a multi-union should be: the set of points of its components. *)
From Coq Require Import Reals.
From stdpp Require Import list option.
From Verif Require Import Real3 AABBModel AABBSpec TransModel TransSpec BoxModel ExtentSpec ShapeModel BoolSpec.
Local Open Scope R_scope.

(** Some component says so. *)
Definition some_comp (P : placed → Prop) (vols : list placed) : Prop := ∃ v, v ∈ vols ∧ P v.
(** The placement is rigid, and the extent of the shape holds its points up to half a millesimal: those with Contains, and
    those that are not kOutside. *)
Definition held (v : placed) : Prop :=
  ortho (pl_tr v) ∧ ∀ q, s_contains (pl_shape v) q = true ∨ s_inside (pl_shape v) q ≠ kOutside →
    ∃ q', in_box (Box (s_extent (pl_shape v)).1 (s_extent (pl_shape v)).2) q' ∧ vdist q q' < 1 / 2000.
(** Boxes with common points, up to the tolerance. *)
Definition meeting (e : R) (a b : aabb) : Prop :=
  (vx (bmin b) - vx (bmax a) <= e ∧ vx (bmin a) - vx (bmax b) <= e) ∧
  (vy (bmin b) - vy (bmax a) <= e ∧ vy (bmin a) - vy (bmax b) <= e) ∧
  (vz (bmin b) - vz (bmax a) <= e ∧ vz (bmin a) - vz (bmax b) <= e).
(** Rows of neighbours of the boxes. *)
Definition adjacent (e : R) (boxes : list aabb) (i j : nat) : Prop := i ≠ j ∧ ∃ a b, boxes !! i = Some a ∧ boxes !! j = Some b ∧ meeting e a b.
(** [D i]: distance to component [i] along the ray; exact below [smax]. *)
Definition distances (vols : list placed) (p d : v3) (smax : R) (D : nat → R) : Prop :=
  ∀ i v, vols !! i = Some v → ∃ t, pv_to_in v p d smax = Some t ∧ (D i < smax → t = D i) ∧ (smax <= D i → smax <= t).
(** The ray meets component [i] at [D i], or starts in it. *)
Definition meets (vols : list placed) (p d : v3) (smax : R) (D : nat → R) : Prop :=
  ∀ i v, vols !! i = Some v → D i < smax →
    let S q := in_box (Box (s_extent (pl_shape v)).1 (s_extent (pl_shape v)).2) q in
    (0 <= D i → put (pl_tr v) S (along p d (D i))) ∧ (D i < 0 → put (pl_tr v) S p).
(** Points of a set less than [e] apart have no gap in between. *)
Definition no_gap_below (e : R) (U : R → Prop) : Prop := ∀ a b u, U a → U b → b - a < e → a <= u <= b → U u.
(** On a ray: points of a component, points of the union. *)
Definition hits (v : placed) (p d : v3) (u : R) : Prop := pv_contains v (along p d u) = true.
Definition some_hit (vols : list placed) (p d : v3) (u : R) : Prop := some_comp (λ v, hits v p d u) vols.
(** The way from [s] to [t] is in the union, up to [e]; and exactly, if the union has no gaps below [2 * e]. *)
Definition covered (e : R) (vols : list placed) (p d : v3) (s t : R) : Prop :=
  (∀ u, s <= u < t → nearby e (some_hit vols p d) u) ∧ (no_gap_below (2 * e) (some_hit vols p d) → ∀ u, s <= u < t → some_hit vols p d u).
(** At [t] a component is left, and [e] further on no other one goes on. *)
Definition left_for_good (e : R) (vols : list placed) (p d : v3) (t : R) : Prop :=
  ∃ k v, vols !! k = Some v ∧ (∀ x, 0 < x → ∃ u, t <= u < t + x ∧ ¬ hits v p d u) ∧ ∀ j w, vols !! j = Some w → j ≠ k → pv_inside w (along p d (t + e)) ≠ kInside.
(** Where the loop over the components calls one of them: at the start, or [e] behind the exit of some component. *)
Definition stop (e : R) (vols : list placed) (p d : v3) (s : R) : Prop :=
  s = 0 ∨ ∃ w a t, w ∈ vols ∧ 0 <= a ∧ 0 < t ∧ exit_after (hits w p d) a t ∧ s = a + t + e.
(** At its stops a component that is kInside contains the point, has an exact exit distance, and one above the tolerance. *)
Definition deep (e : R) (vols : list placed) (p d : v3) (smax : R) : Prop :=
  ∀ v s, v ∈ vols → 0 <= s → stop e vols p d s → pv_inside v (along p d s) = kInside →
    hits v p d s ∧ ∃ t, pv_to_out_placed v (along p d s) d smax = Some t ∧ exit_after (hits v p d) s t ∧ kTolerance < t.
(** For the examples: the points with -h <= x < h and -1 < y, z < 1, seen along the direction (1, 0, 0). *)
Definition bar (inf h : R) : shape :=
  let inside p := (rleb (- h) (vx p) && rltb (vx p) h) && (rltb (Rabs (vy p)) 1 && rltb (Rabs (vz p)) 1) in
  Shape inside (λ p, if inside p then kInside else kOutside)
    (λ p _ _, Some (if rltb (vx p) (- h) then - h - vx p else if rltb (vx p) h then -1 else inf))
    (λ p _ _, Some (if inside p then h - vx p else -1))
    (λ p, Rabs (vx p) - h) (λ p, h - Rabs (vx p)) (λ p, (V3 (rsign (vx p)) 0 0, true)) (V3 (- h) (-1) (-1), V3 h 1 1).
