(** Vocabulary for the container-assignment properties. *)
From stdpp Require Import list option gmap fin_maps.
From Verif Require Import ArrayModel.
Local Open Scope nat_scope.

Section Spec.
Context {A : Type}.

(** [p] points to a live block of at least [n] cells. *)
Definition live (h : heap A) (p : ptr) (n : nat) : Prop :=
  ∃ b c, p = Some b ∧ h !! b = Some c ∧ n ≤ length c.

(** [p] is null (nothing owned, nothing held) or points to a live block. *)
Definition sane (h : heap A) (own : bool) (p : ptr) (n : nat) : Prop :=
  (p = None ∧ own = false ∧ n = 0) ∨ live h p n.

(** Sane program states: no dangling pointers, the storage is as large as the object
    claims, and the storage owned by an object is not used by any other object. *)
Definition arr_ok (st : astate A) : Prop :=
  ∀ o a, a_objs st !! o = Some a →
    sane (a_heap st) (a_own a) (a_ptr a) (a_size a) ∧
    (a_own a = true → ∀ o' a', o' ≠ o → a_objs st !! o' = Some a' → a_ptr a' ≠ a_ptr a).
Definition aos_ok (st : ostate A) : Prop :=
  ∀ o a, o_objs st !! o = Some a →
    o_size a ≤ o_cap a ∧
    sane (o_heap st) (o_own a) (o_ptr a) (o_cap a) ∧
    (o_own a = true → 0 < o_cap a ∧
       ∀ o' a', o' ≠ o → o_objs st !! o' = Some a' → o_ptr a' ≠ o_ptr a).
(** For SOA3D, [pts] are the three arrays. *)
Definition pts (a : soa) : list ptr := [s_x a; s_y a; s_z a].
Definition soa_ok (st : sstate A) : Prop :=
  ∀ o a, s_objs st !! o = Some a →
    s_size a ≤ s_cap a ∧
    (∀ p, p ∈ pts a → sane (s_heap st) (s_own a) p (s_cap a)) ∧
    (s_own a = true → NoDup (pts a) ∧
       ∀ o' a', o' ≠ o → s_objs st !! o' = Some a' → ∀ p, p ∈ pts a → p ∉ pts a').

(** Two objects show the same elements: same size() and same value at every index
    below it (uninitialised cells included: reading one is undefined in both). *)
Definition arr_same (st : astate A) (o : nat) (st' : astate A) (o' : nat) : Prop :=
  ∃ a a', a_objs st !! o = Some a ∧ a_objs st' !! o' = Some a' ∧ a_size a = a_size a' ∧
    ∀ i, i < a_size a → arr_get st o i = arr_get st' o' i.
Definition aos_same (st : ostate A) (o : nat) (st' : ostate A) (o' : nat) : Prop :=
  ∃ a a', o_objs st !! o = Some a ∧ o_objs st' !! o' = Some a' ∧ o_size a = o_size a' ∧
    ∀ i, i < o_size a → aos_get st o i = aos_get st' o' i.
Definition soa_same (st : sstate A) (o : nat) (st' : sstate A) (o' : nat) : Prop :=
  ∃ a a', s_objs st !! o = Some a ∧ s_objs st' !! o' = Some a' ∧ s_size a = s_size a' ∧
    ∀ i, i < s_size a → soa_get st o i = soa_get st' o' i.
End Spec.

(** No storage is lost: every block of the heap is owned by some object or belongs to
    somebody else ([ext]). *)
Definition arr_noleak {A} (ext : nat → Prop) (st : astate A) : Prop :=
  ∀ b, is_Some (a_heap st !! b) → ext b ∨ ∃ o a, a_objs st !! o = Some a ∧ a_own a = true ∧ a_ptr a = Some b.
Definition aos_noleak {A} (ext : nat → Prop) (st : ostate A) : Prop :=
  ∀ b, is_Some (o_heap st !! b) → ext b ∨ ∃ o a, o_objs st !! o = Some a ∧ o_own a = true ∧ o_ptr a = Some b.
Definition soa_noleak {A} (ext : nat → Prop) (st : sstate A) : Prop :=
  ∀ b, is_Some (s_heap st !! b) → ext b ∨ ∃ o a, s_objs st !! o = Some a ∧ s_own a = true ∧ Some b ∈ pts a.
