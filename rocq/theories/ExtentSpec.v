(** Points of placed volumes and assemblies. *)
From Coq Require Import Reals.
From stdpp Require Import list.
From Verif Require Import Real3 AABBModel AABBSpec TransModel TransSpec ExtentModel.
Local Open Scope R_scope.

(** The eight corners of a box, and a box spanned by points: each face touches one of them. *)
Definition is_corner (b : aabb) (c : v3) : Prop :=
  (vx c = vx (bmin b) ∨ vx c = vx (bmax b)) ∧ (vy c = vy (bmin b) ∨ vy c = vy (bmax b)) ∧ (vz c = vz (bmin b) ∨ vz c = vz (bmax b)).
Definition spanned (P : v3 → Prop) (b : aabb) : Prop :=
  (∀ q, P q → in_box b q) ∧
  (∃ q, P q ∧ vx q = vx (bmin b)) ∧ (∃ q, P q ∧ vy q = vy (bmin b)) ∧ (∃ q, P q ∧ vz q = vz (bmin b)) ∧
  (∃ q, P q ∧ vx q = vx (bmax b)) ∧ (∃ q, P q ∧ vy q = vy (bmax b)) ∧ (∃ q, P q ∧ vz q = vz (bmax b)).
(** Box made smaller (or larger) by [e] on every side. *)
Definition shrunk (e : R) (b : aabb) : aabb := Box (vadd (bmin b) (V3 e e e)) (vsub (bmax b) (V3 e e e)).
(** [p] is in volume [k]: inside its shape, or inside a daughter of the assembly. *)
Inductive in_vol (shape : nat → v3 → bool) (s : list lvol) : nat → v3 → Prop :=
| In_plain k lo up p : s !! k = Some (Plain lo up) → shape k p = true → in_vol shape s k p
| In_assembly k daus c t j p : s !! k = Some (Assembly daus c) → (t, j) ∈ daus → in_vol shape s j (transform t p) → in_vol shape s k p.
(** A step of building: daughter [j] placed into [k] with transformation [t]. *)
Definition placed_in (s : list lvol) (j : nat) : Prop := ∃ k daus c t, s !! k = Some (Assembly daus c) ∧ (t, j) ∈ daus.
(** Built from the bottom up: a volume gets no daughters once it is placed in an assembly itself. *)
Inductive built (inf : R) (fuel : nat) : list lvol → list lvol → Prop :=
| Built_start s : (∀ k v, s !! k = Some v → (∃ lo up, v = Plain lo up) ∨ v = new_assembly inf) → built inf fuel s s
| Built_step s0 s s' k t j : built inf fuel s0 s → ortho t → ¬ placed_in s k → k ≠ j → place_daughter inf fuel s k t j = Some s' → built inf fuel s0 s'.
