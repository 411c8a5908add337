(** Vocabulary for the hybrid structure, independent of its layout. *)
From stdpp Require Import list option.
From Coq Require Import Reals.
From Verif Require Import Real3 AABBModel.

(** Corners of [a] within those of [b]. *)
Definition within (a b : aabb) : Prop :=
  (vx (bmin b) <= vx (bmin a) /\ vy (bmin b) <= vy (bmin a) /\ vz (bmin b) <= vz (bmin a) /\
   vx (bmax a) <= vx (bmax b) /\ vy (bmax a) <= vy (bmax b) /\ vz (bmax a) <= vz (bmax b))%R.
(** [cs] splits the daughters 0 .. n-1 into nonempty groups of at most [w]. *)
Definition clustering (n w : nat) (cs : list (list nat)) : Prop :=
  mjoin cs ≡ₚ seq 0 n ∧ Forall (λ c, (1 ≤ length c ≤ w)%nat) cs.
(** The answer to a search for boxes passing a test: every passing box once, with its index. *)
Definition finds (boxes : list aabb) (test : aabb → bool) (l : list (nat * aabb)) : Prop :=
  NoDup l.*1 ∧ ∀ x b, (x, b) ∈ l ↔ boxes !! x = Some b ∧ test b = true.
(** A test that a larger box passes too. *)
Definition grows (test : aabb → bool) : Prop := ∀ a b, within a b → test a = true → test b = true.
