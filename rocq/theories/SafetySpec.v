(** What a safety promises, independent of the estimator. *)
From stdpp Require Import list option.
From Coq Require Import Reals NArith.
From Verif Require Import Real3 AABBModel AABBSpec.
Local Open Scope R_scope.

(** [In v]: points of daughter [v]; [Out]: points outside the volume.  A ball of radius [s] meets neither. *)
Definition safe (dau : list N) (In : N → v3 → Prop) (Out : v3 → Prop) (p : v3) (s : R) : Prop :=
  (∀ v q, v ∈ dau → In v q → s <= vdist p q) ∧ (∀ q, Out q → s <= vdist p q).
(** The least of a starting value and the safeties of the daughters. *)
Definition least (dau : list N) (sti : N → R) (s0 s : R) : Prop :=
  s <= s0 ∧ (∀ v, v ∈ dau → s <= sti v) ∧ (s = s0 ∨ ∃ v, v ∈ dau ∧ s = sti v).
(** The contract of the shapes: SafetyToIn, SafetyToOut and the boxes. *)
Definition sti_safe (dau : list N) (sti : N → R) (In : N → v3 → Prop) (p : v3) : Prop := ∀ v q, v ∈ dau → In v q → sti v <= vdist p q.
Definition boxed (boxes : list aabb) (dau : list N) (In : N → v3 → Prop) : Prop :=
  length boxes = length dau ∧ ∀ i b v q, boxes !! i = Some b → dau !! i = Some v → In v q → in_box b q.
