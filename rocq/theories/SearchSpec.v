(** The daughter a ray enters first, independent of the search. *)
From stdpp Require Import list option.
From Coq Require Import Reals NArith.
From Verif Require Import Real3 AABBModel AABBSpec.
Local Open Scope R_scope.

(** [D v]: distance to daughter [v] along the ray, -1 from inside.  A daughter that was just left
    and would be entered again at once does not count. *)
Definition counts (D : N → R) (last : option N) (v : N) : Prop := ¬ (D v <= 0 ∧ Some v = last).
(** [r] is (step, hit): the least distance below [step0], with a daughter at that distance. *)
Definition nearest (dau : list N) (D : N → R) (last : option N) (step0 : R) (hit0 : option N) (r : R * option N) : Prop :=
  r.1 <= step0 ∧ (∀ v, v ∈ dau → counts D last v → r.1 <= D v) ∧
  ((r.1 = step0 ∧ r.2 = hit0) ∨ ∃ v, v ∈ dau ∧ counts D last v ∧ r.2 = Some v ∧ r.1 = D v ∧ D v < step0).
(** The same with any rule for the daughters that do not count. *)
Definition nearest_except (skip : N → Prop) (dau : list N) (D : N → R) (step0 : R) (hit0 : option N) (r : R * option N) : Prop :=
  r.1 <= step0 ∧ (∀ v, v ∈ dau → ¬ skip v → r.1 <= D v) ∧
  ((r.1 = step0 ∧ r.2 = hit0) ∨ ∃ v, v ∈ dau ∧ ¬ skip v ∧ r.2 = Some v ∧ r.1 = D v ∧ D v < step0).
(** DistanceToIn asked with a limit: exact below the limit, otherwise anything not below it. *)
Definition exact_below (D : N → R) (dti : N → R → R) : Prop :=
  ∀ v step, (D v < step → dti v step = D v) ∧ (step <= D v → step <= dti v step).
(** Box [i] holds the points at which the ray enters daughter [i], before [step0]. *)
Definition boxes_hold (boxes : list aabb) (dau : list N) (D : N → R) (p dir : v3) (step0 : R) : Prop :=
  length boxes = length dau ∧ ∀ i b v, boxes !! i = Some b → dau !! i = Some v → D v < step0 →
    (0 <= D v → in_box b (along p dir (D v))) ∧ (D v < 0 → D v = -1 ∧ in_interior b p).
(** The ray does not reach the point used to fill unused lanes before [t1]. *)
Definition unreached (M : R) (p dir : v3) (t1 : R) : Prop :=
  ∀ t, - kTolerance < t < t1 → along p dir t ≠ V3 (- M) (- M) (- M).
