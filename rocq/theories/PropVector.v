(** Properties C07, C08: vecgeom::Vector. *)
From stdpp Require Import list option.
From Verif Require Import VectorModel VectorSpec VectorProofs.
Local Open Scope nat_scope.

(** C07.  Every legal history (indices in range) on a Vector constructed with
    non-zero capacity runs without out-of-bounds access and shows exactly the
    elements of the mathematical sequence. *)
Theorem C07_vector_is_sequence :
  ∀ (A : Type) (n : nat) (os : list (vop A)) (l : list A),
    0 < n → seq_run [] os = Some l →
    ∃ v0 v, make n = Some v0 ∧ vrun v0 os = Some v ∧ shows v l ∧ vwf v.
Proof. exact @vector_is_sequence. Qed.
Print Assumptions C07_vector_is_sequence.
Example C07_example :
  let os := [VPush 4; VPush 5; VPush 6; VErase 1; VResize 4 9; VSet 0 7; VReserve 20; VErase 3] in
  seq_run [] os = Some [7; 6; 9] ∧
  (v0 ← make 1; v ← vrun v0 os; Some (v_size v, v_mem v, map (get v) [0; 1; 2])) =
    Some (3, 20, [Some 7; Some 6; Some 9]).
Proof. done. Qed.

(** C07, the excluded case: with capacity zero the first push_back writes outside
    the buffer, for every element. *)
Theorem C07_zero_capacity_refuted :
  ∀ (A : Type) (x : A), ∃ v, make 0 = Some v ∧ push_back v x = None.
Proof. exact @push_empty_capacity. Qed.
Print Assumptions C07_zero_capacity_refuted.

(** C07, vectors over caller-owned memory: push_back succeeds exactly below the
    declared maximum size. *)
Theorem C07_fixed_vector :
  ∀ (A : Type) (mem : list (option A)) sz maxsize l x,
    shows (make_fixed mem sz maxsize) l → vwf (make_fixed mem sz maxsize) →
    if decide (sz < maxsize)
    then ∃ v', push_back (make_fixed mem sz maxsize) x = Some v' ∧ shows v' (l ++ [x]) ∧ vwf v'
    else push_back (make_fixed mem sz maxsize) x = None.
Proof. exact @fixed_push. Qed.
Print Assumptions C07_fixed_vector.
Example C07_fixed_example :
  let v := make_fixed [Some 1; Some 2; None] 2 3 in
  shows v [1; 2] ∧ vwf v ∧ (w ← push_back v 8; Some (v_size w, get w 2)) = Some (3, Some 8).
Proof.
  split; [|split; [split; simpl; lia|done]]. split; [done|].
  intros [|[|i]] Hi; simpl in *; (done || lia).
Qed.

(** C08.  Copy construction. *)
Theorem C08_copy_construct :
  ∀ (A : Type) (v : vec A) l, shows v l → vwf v →
    ∃ v', copy_construct v = Some v' ∧ shows v' l ∧ vwf v' ∧ v_mem v' = v_mem v.
Proof. exact @copy_construct_shows. Qed.
Print Assumptions C08_copy_construct.

(** C08.  Full statement: for every destination, assignment makes it show the
    source's elements.  Proved for empty destinations only; for every non-empty
    destination it is false (the elements are appended). *)
Theorem C08_assign_to_empty_partial :
  ∀ (A : Type) (v o : vec A) lo, v_size v = 0 → vwf v → v_alloc v = true → shows o lo → vwf o →
    0 < v_mem v →
    ∃ v', assign v o = Some v' ∧ shows v' lo ∧ vwf v'.
Proof. exact @assign_to_empty. Qed.
Print Assumptions C08_assign_to_empty_partial.

Theorem C08_assign_appends :
  ∀ (A : Type) (v : vec A) l o lo, shows v l → vwf v → v_alloc v = true → shows o lo → vwf o →
    0 < v_mem v →
    ∃ v', assign v o = Some v' ∧ shows v' (l ++ lo) ∧ vwf v'.
Proof. exact @assign_appends. Qed.
Print Assumptions C08_assign_appends.

Theorem C08_assign_refuted :
  ∀ (A : Type) (v : vec A) l o lo, shows v l → vwf v → v_alloc v = true → shows o lo → vwf o →
    0 < v_mem v → l ≠ [] →
    ∃ v', assign v o = Some v' ∧ v_size v' ≠ v_size o.
Proof. exact @assign_not_copy. Qed.
Print Assumptions C08_assign_refuted.
Example C08_example :
  ∃ v o, (v0 ← make 2; vrun v0 [VPush 1]) = Some v ∧ (v0 ← make 1; vrun v0 [VPush 5; VPush 6]) = Some o ∧
    v_alloc v = true ∧ 0 < v_mem v ∧
    (w ← assign v o; Some (v_size w, map (get w) [0; 1; 2])) = Some (3, [Some 1; Some 5; Some 6]) ∧
    (w ← copy_construct o; Some (v_size w, map (get w) [0; 1])) = Some (2, [Some 5; Some 6]).
Proof. eexists _, _. split; [vm_compute; reflexivity|]. split; [vm_compute; reflexivity|].
  split; [done|]. split; [simpl; lia|done]. Qed.

(** C08.  The initializer-list constructor writes past its buffer for every
    non-empty list of elements of at least two bytes. *)
Theorem C08_initializer_list_refuted :
  ∀ (A : Type) sizeof (l : list A), 2 ≤ sizeof → l ≠ [] → of_init_list sizeof l = None.
Proof. exact @init_list_ub. Qed.
Print Assumptions C08_initializer_list_refuted.
