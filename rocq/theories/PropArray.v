(** Property C09: assignment of Array, AOS3D, SOA3D.
    Full statement: for all objects d, s (equal or not) d = s makes d show the elements of s,
    changes no other object and shares no storage.  Proved for d <> s; refuted for d = s. *)
From stdpp Require Import list option gmap fin_maps.
From Verif Require Import ArrayModel ArraySpec ArrayProofs.
Local Open Scope nat_scope.

(** Array, distinct objects. *)
Theorem C09_array_assign_partial :
  ∀ (A : Type) (st : astate A) d s,
    arr_ok st → d ≠ s → is_Some (a_objs st !! d) → is_Some (a_objs st !! s) →
    ∃ st', arr_assign st d s = Some st' ∧ arr_ok st' ∧ arr_same st s st' d ∧
      (∀ o, o ≠ d → is_Some (a_objs st !! o) → arr_same st o st' o) ∧
      (∀ o a a', o ≠ d → a_objs st' !! o = Some a → a_objs st' !! d = Some a' → 0 < a_size a' →
         a_ptr a ≠ a_ptr a').
Proof. exact @arr_assign_spec. Qed.
Print Assumptions C09_array_assign_partial.
Example C09_array_example :
  arr_ok ex_arr ∧ (st ← arr_assign ex_arr 1 0; Some (arr_get st 1 0, arr_get st 1 1)) = Some (Some 1, Some 2).
Proof. split; [exact ex_arr_ok|done]. Qed.

(** Array, self-assignment: every array ends up empty. *)
Theorem C09_array_self_assign_refuted :
  ∀ (A : Type) (st : astate A) d a, arr_ok st → a_objs st !! d = Some a →
    ∃ st', arr_assign st d d = Some st' ∧ a_objs st' !! d = Some (Arr None 0 false).
Proof. exact @arr_self_assign. Qed.
Print Assumptions C09_array_self_assign_refuted.

(** AOS3D, distinct objects, source owning its storage. *)
Theorem C09_aos_assign_partial :
  ∀ (A : Type) (st : ostate A) d s r,
    aos_ok st → d ≠ s → is_Some (o_objs st !! d) → o_objs st !! s = Some r → o_own r = true →
    ∃ st', aos_assign st d s = Some st' ∧ aos_ok st' ∧ aos_same st s st' d ∧
      (∀ o, o ≠ d → is_Some (o_objs st !! o) → aos_same st o st' o) ∧
      (∀ o a a', o ≠ d → o_objs st' !! o = Some a → o_objs st' !! d = Some a' → o_ptr a ≠ o_ptr a').
Proof. exact @aos_assign_spec. Qed.
Print Assumptions C09_aos_assign_partial.
Example C09_aos_example :
  aos_ok ex_aos ∧ (st ← aos_assign ex_aos 1 0; Some (aos_get st 1 0, aos_get st 1 1)) = Some (Some 1, Some 2).
Proof. split; [exact ex_aos_ok|done]. Qed.
Theorem C09_aos_self_assign_refuted :
  ∀ (A : Type) (st : ostate A) d a, aos_ok st → o_objs st !! d = Some a →
    ∃ st', aos_assign st d d = Some st' ∧ o_objs st' !! d = Some (Aos false 0 0 None).
Proof. exact @aos_self_assign. Qed.
Print Assumptions C09_aos_self_assign_refuted.

(** SOA3D, distinct objects, non-empty source owning its storage. *)
Theorem C09_soa_assign_partial :
  ∀ (A : Type) (st : sstate A) d s r,
    soa_ok st → d ≠ s → is_Some (s_objs st !! d) → s_objs st !! s = Some r → s_own r = true →
    0 < s_size r →
    ∃ st', soa_assign st d s = Some st' ∧ soa_ok st' ∧ soa_same st s st' d ∧
      (∀ o, o ≠ d → is_Some (s_objs st !! o) → soa_same st o st' o) ∧
      (∀ o a a', o ≠ d → s_objs st' !! o = Some a → s_objs st' !! d = Some a' →
         ∀ p, p ∈ pts a → p ∉ pts a').
Proof. exact @soa_assign_spec. Qed.
Print Assumptions C09_soa_assign_partial.
Example C09_soa_example :
  soa_ok ex_soa ∧ (st ← soa_assign ex_soa 1 0; soa_get st 1 0) = Some (1, 3, 5).
Proof. split; [exact ex_soa_ok|done]. Qed.
(** SOA3D, self-assignment: afterwards every element access is through a freed pointer. *)
Theorem C09_soa_self_assign_refuted :
  ∀ (A : Type) (st : sstate A) d a, soa_ok st → s_objs st !! d = Some a → s_own a = true →
    ∃ st', soa_assign st d d = Some st' ∧ ∀ i, soa_get st' d i = None.
Proof. exact @soa_self_assign. Qed.
Print Assumptions C09_soa_self_assign_refuted.
(** SOA3D, empty source with reserved storage: the two objects share storage, a
    push_back on the copy overwrites the original. *)
Theorem C09_soa_empty_source_shares_refuted :
  soa_ok ex_soa_empty ∧
  ∃ st1 st2 st3, soa_assign ex_soa_empty 1 0 = Some st1 ∧ soa_push_back st1 0 1 1 1 = Some st2 ∧
    soa_get st2 0 0 = Some (1, 1, 1) ∧
    soa_push_back st2 1 2 2 2 = Some st3 ∧ soa_get st3 0 0 = Some (2, 2, 2).
Proof. exact (conj ex_soa_empty_ok soa_empty_shares). Qed.
Print Assumptions C09_soa_empty_source_shares_refuted.

(** No storage is lost by an assignment (whatever the objects): if every block of the
    heap was owned by an object (or belongs to somebody else), the same holds after. *)
Theorem C09_assign_no_leak :
  ∀ (A : Type) (ext : nat → Prop),
    (∀ (st st' : astate A) d s, arr_noleak ext st → arr_assign st d s = Some st' → arr_noleak ext st') ∧
    (∀ (st st' : ostate A) d s, aos_noleak ext st → aos_ok st → aos_assign st d s = Some st' → aos_noleak ext st') ∧
    (∀ (st st' : sstate A) d s, soa_noleak ext st → soa_ok st → soa_assign st d s = Some st' → soa_noleak ext st').
Proof. exact (λ A ext, conj (arr_assign_noleak ext) (conj (aos_assign_noleak ext) (soa_assign_noleak ext))). Qed.
Print Assumptions C09_assign_no_leak.
Example C09_no_leak_example : arr_noleak (λ _, False) ex_arr.
Proof. exact ex_arr_noleak. Qed.
