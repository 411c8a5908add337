(** Properties C01-C06, C55, C56: vecgeom::BitSet. *)
From stdpp Require Import list option.
From Coq Require Import NArith Arith.
From Verif Require Import BitSetModel BitSetSpec BitSetProofs BitSetProofs2.
Local Open Scope nat_scope.

(** C01.  Any sequence of SetBitNumber/ResetBitNumber calls on a fresh bit set is
    free of undefined behaviour; afterwards every position reads back the value
    last written to it; each call reports success exactly when the position fits
    the capacity (the nominal size rounded up to whole bytes). *)
Theorem C01_last_write :
  ∀ (n : nat) (ws : list (nat * bool)) (i : nat),
    ∃ s rets, run_writes (make_instance n) ws = Some (s, rets) ∧
      test_bit s i = Some (last_written (8 * ((Nat.max n 1 + 7) / 8)) ws i) ∧
      rets = map (λ w, fst w <? 8 * ((Nat.max n 1 + 7) / 8)) ws.
Proof. exact last_write_max. Qed.
Print Assumptions C01_last_write.
Example C01_example :
  ∃ s rets, run_writes (make_instance 10) [(3, true); (12, true); (3, false); (9, true); (99, true)]
              = Some (s, rets) ∧ rets = [true; true; true; true; false] ∧
            map (test_bit s) [3; 9; 12; 13; 99] = map Some [false; true; true; false; false].
Proof. vm_compute. eauto. Qed.

(** C01, assignment through the non-const operator[]: only the named position
    changes, and only when it is below the nominal size. *)
Theorem C01_reference_write :
  ∀ s i v, wf s →
    ∃ s', ref_assign s i v = Some s' ∧ wf s' ∧ bs_nbits s' = bs_nbits s ∧
      ∀ j, test_bit s' j = if (i =? j) && (i <? bs_nbits s) then Some v else test_bit s j.
Proof. exact ref_assign_test. Qed.
Print Assumptions C01_reference_write.
Example C01_reference_example :
  wf (make_instance 10) ∧
  (s ← ref_assign (make_instance 10) 9 true; test_bit s 9) = Some true.
Proof. split; [apply wf_make|done]. Qed.

(** C02.  Full statement: for every s reachable through the public interface and
    every start, CountBits(start) is the number of positions >= start that read
    true.  It is false for unaligned start (the inner loop tests bit [ibit]
    instead of bit [i]) and after a left shift (shifted-out bits are counted).
    Proved: aligned start positions, in every state reached by histories that do
    not push bits beyond the nominal size.  Missing: unaligned starts and
    histories with <<=, |=, ^=, Set, ResetAllBits(true), for which it fails. *)
Theorem C02_count_bits_partial :
  ∀ n os k, Forall (tame (capacity (make_instance n))) os →
    ∃ s, bs_run (make_instance n) os = Some s ∧
      count_bits s (8 * k) = Some (count_true (test_bit s) (8 * k) (bs_nbits s)).
Proof. exact count_bits_reachable. Qed.
Print Assumptions C02_count_bits_partial.
Example C02_example :
  let os := [OpSet 3 true; OpSet 17 true; OpRef 9 true; OpShr 1; OpAnd (BitSet [255; 255; 255]%N 20)] in
  Forall (tame (capacity (make_instance 20))) os ∧
  (s ← bs_run (make_instance 20) os; count_bits s 8) = Some 2.
Proof. simpl. split; [repeat constructor; vm_compute; try lia; discriminate|done]. Qed.

Theorem C02_count_bits_unaligned_refuted :
  ∃ s start, wf s ∧ clean s ∧ start < bs_nbits s ∧
    count_bits s start ≠ Some (count_true (test_bit s) start (bs_nbits s)).
Proof. exact count_unaligned_wrong. Qed.
Print Assumptions C02_count_bits_unaligned_refuted.

Theorem C02_count_bits_after_shift_refuted :
  ∃ os s, bs_run (make_instance 3) os = Some s ∧
    count_bits s 0 ≠ Some (count_true (test_bit s) 0 (bs_nbits s)).
Proof. exact count_after_shift_wrong. Qed.
Print Assumptions C02_count_bits_after_shift_refuted.

(** C03.  The four searches return the first / last position with the wanted
    value, the nominal size when there is none. *)
Theorem C03_first_set_bit :
  ∀ s start, wf s → clean s →
    first_set_bit s start =
      Some (search (test_bit s) true (seq start (bs_nbits s - start)) (bs_nbits s)).
Proof. exact first_set_bit_correct. Qed.
Print Assumptions C03_first_set_bit.
Theorem C03_first_null_bit :
  ∀ s start, wf s → clean s →
    first_null_bit s start =
      Some (search (test_bit s) false (seq start (bs_nbits s - start)) (bs_nbits s)).
Proof. exact first_null_bit_correct. Qed.
Print Assumptions C03_first_null_bit.
Theorem C03_last_set_bit :
  ∀ s start, wf s → 0 < bs_nbits s →
    last_set_bit s start =
      Some (search (test_bit s) true (rev (seq 0 (Nat.min start (bs_nbits s - 1) + 1))) (bs_nbits s)).
Proof. exact last_set_bit_correct. Qed.
Print Assumptions C03_last_set_bit.
Theorem C03_last_null_bit :
  ∀ s start, wf s → 0 < bs_nbits s →
    last_null_bit s start =
      Some (search (test_bit s) false (rev (seq 0 (Nat.min start (bs_nbits s - 1) + 1))) (bs_nbits s)).
Proof. exact last_null_bit_correct. Qed.
Print Assumptions C03_last_null_bit.
Example C03_example :
  let s := BitSet [0; 36; 1]%N 20 in
  wf s ∧ clean s ∧ first_set_bit s 11 = Some 13 ∧ first_null_bit s 10 = Some 11 ∧
  last_set_bit s 12 = Some 10 ∧ last_null_bit s 10 = Some 9.
Proof. exact search_example. Qed.

(** C03, boundary: with nominal size zero (e.g. after Clear) the backward
    searches read outside the buffer. *)
Theorem C03_last_bit_of_empty_refuted :
  ∃ s, bs_run (make_instance 5) [OpClear] = Some s ∧
       last_set_bit s 0 = None ∧ last_null_bit s 0 = None.
Proof. exact last_of_empty_ub. Qed.
Print Assumptions C03_last_bit_of_empty_refuted.

(** C03, boundary: when bits beyond the nominal size are set (here: by <<=), a
    search may answer a position at which TestBitNumber is false. *)
Theorem C03_first_set_after_shift_refuted :
  ∃ s p, bs_run (make_instance 3) [OpSet 2 true; OpShl 2] = Some s ∧
         first_set_bit s 0 = Some p ∧ bs_nbits s < p ∧ test_bit s p = Some false.
Proof. exact first_set_after_shift_wrong. Qed.
Print Assumptions C03_first_set_after_shift_refuted.

(** C04.  Pointwise logic; missing positions of the right operand read as zero. *)
Theorem C04_and : ∀ s r, wf s → wf r → clean r →
  ∃ s', and_equal s r = Some s' ∧ wf s' ∧ bs_nbits s' = bs_nbits s ∧
    ∀ i, test_bit s' i = (a ← test_bit s i; b ← test_bit r i; Some (a && b)).
Proof. exact and_test. Qed.
Print Assumptions C04_and.
Theorem C04_or : ∀ s r, wf s → wf r → clean r →
  ∃ s', or_equal s r = Some s' ∧ wf s' ∧ bs_nbits s' = bs_nbits s ∧
    ∀ i, i < bs_nbits s → test_bit s' i = (a ← test_bit s i; b ← test_bit r i; Some (a || b)).
Proof. exact or_test. Qed.
Print Assumptions C04_or.
Theorem C04_xor : ∀ s r, wf s → wf r → clean r →
  ∃ s', xor_equal s r = Some s' ∧ wf s' ∧ bs_nbits s' = bs_nbits s ∧
    ∀ i, i < bs_nbits s → test_bit s' i = (a ← test_bit s i; b ← test_bit r i; Some (xorb a b)).
Proof. exact xor_test. Qed.
Print Assumptions C04_xor.
Theorem C04_flip : ∀ s, wf s →
  ∃ s', do_flip s = Some s' ∧ wf s' ∧ bs_nbits s' = bs_nbits s ∧
    ∀ i, i < bs_nbits s → test_bit s' i = (a ← test_bit s i; Some (negb a)).
Proof. exact flip_test. Qed.
Print Assumptions C04_flip.
Example C04_example :
  let s := BitSet [7; 7; 7]%N 24 in let r := BitSet [5; 3]%N 12 in
  wf s ∧ wf r ∧ clean r ∧
  (t ← and_equal s r; Some (bs_data t)) = Some [5; 3; 0]%N ∧
  (t ← or_equal s r; Some (bs_data t)) = Some [7; 7; 7]%N ∧
  (t ← xor_equal s r; Some (bs_data t)) = Some [2; 4; 7]%N.
Proof. exact logic_example. Qed.

(** C05.  Shifts by at most the capacity (left), less than the capacity (right).
    The full claim "for every shift amount" is false: see the refutations. *)
Theorem C05_shift_left : ∀ s k, wf s → k ≤ capacity s →
  ∃ s', shift_left s k = Some s' ∧ wf s' ∧ bs_nbits s' = bs_nbits s ∧
    ∀ i, i < bs_nbits s → test_bit s' i = if i <? k then Some false else test_bit s (i - k).
Proof. exact shift_left_test. Qed.
Print Assumptions C05_shift_left.
Theorem C05_shift_right : ∀ s k, wf s → clean s → k < capacity s →
  ∃ s', shift_right s k = Some s' ∧ wf s' ∧ bs_nbits s' = bs_nbits s ∧
    ∀ i, test_bit s' i = test_bit s (i + k).
Proof. exact shift_right_test. Qed.
Print Assumptions C05_shift_right.
Example C05_example :
  let s := BitSet [129; 3]%N 16 in
  wf s ∧ clean s ∧ 11 ≤ capacity s ∧
  (t ← shift_left s 3; Some (bs_data t)) = Some [8; 28]%N ∧
  (t ← shift_right s 7; Some (bs_data t)) = Some [7; 0]%N ∧
  (t ← shift_left s 16; Some (bs_data t)) = Some [0; 0]%N.
Proof. exact shift_example. Qed.
Theorem C05_shift_left_too_far_refuted : ∀ s k, wf s → capacity s < k → shift_left s k = None.
Proof. exact shift_left_ub. Qed.
Print Assumptions C05_shift_left_too_far_refuted.
Theorem C05_shift_right_too_far_refuted : ∀ s k, wf s → capacity s ≤ k → shift_right s k = None.
Proof. exact shift_right_ub. Qed.
Print Assumptions C05_shift_right_too_far_refuted.

(** C06. *)
Theorem C06_reset_all_false : ∀ s, wf s →
  ∃ s', reset_all s false = Some s' ∧ wf s' ∧ bs_nbits s' = bs_nbits s ∧
        ∀ i, test_bit s' i = Some false.
Proof. exact reset_all_false_test. Qed.
Print Assumptions C06_reset_all_false.
Theorem C06_reset_all_true_refuted :
  ∃ s', reset_all (make_instance 8) true = Some s' ∧ test_bit s' 1 = Some false.
Proof. exact reset_all_true_wrong. Qed.
Print Assumptions C06_reset_all_true_refuted.
Theorem C06_set_then_get : ∀ s n array,
  wf s → n ≤ capacity s → (n + 7) / 8 ≤ length array → Forall (λ b, (b < 256)%N) array →
  ∃ s', set_raw s n array = Some (s', true) ∧ wf s' ∧ bs_nbits s' = n ∧
    get_raw s' = Some (take ((n + 7) / 8) array) ∧
    ∀ i, i < n → test_bit s' i = Some (raw_bit array i).
Proof. exact set_get_raw'. Qed.
Print Assumptions C06_set_then_get.
Theorem C06_set_rejects : ∀ s n array, capacity s < n → set_raw s n array = Some (s, false).
Proof. exact set_raw_reject. Qed.
Print Assumptions C06_set_rejects.
Example C06_example :
  wf (make_instance 20) ∧ 13 ≤ capacity (make_instance 20) ∧
  (r ← set_raw (make_instance 20) 13 [170; 21]%N; get_raw r.1) = Some [170; 21]%N.
Proof. split; [apply wf_make|]. split; [vm_compute; lia|done]. Qed.

(** C55.  operator== is extensional equality of the two sets. *)
Theorem C55_equality : ∀ s o, wf s → wf o → clean s → clean o →
  ∃ r, bs_eq s o = Some r ∧ (r = true ↔ ∀ i, test_bit s i = test_bit o i).
Proof. exact bs_eq_spec. Qed.
Print Assumptions C55_equality.
Example C55_example :
  let s := BitSet [5]%N 3 in let o := BitSet [5; 0; 0]%N 20 in
  wf s ∧ wf o ∧ clean s ∧ clean o ∧ bs_eq s o = Some true.
Proof. exact equality_example. Qed.
Theorem C55_equality_after_shift_refuted :
  ∃ s o, bs_run (make_instance 3) [OpSet 2 true; OpShl 2] = Some s ∧ o = make_instance 3 ∧
    bs_eq s o = Some false ∧ ∀ i, test_bit s i = test_bit o i.
Proof. exact equality_after_shift_wrong. Qed.
Print Assumptions C55_equality_after_shift_refuted.

(** C56.  Assignment and sized copies. *)
Theorem C56_assign : ∀ s r, wf s → wf r → bs_nbits r ≤ capacity s →
  ∃ s', assign s r = Some s' ∧ wf s' ∧ capacity s' = capacity s ∧ bs_nbits s' = bs_nbits r ∧
        ∀ i, test_bit s' i = test_bit r i.
Proof. exact assign_spec. Qed.
Print Assumptions C56_assign.
Theorem C56_assign_to_smaller_refuted :
  ∃ s' , assign (make_instance 8) (BitSet [1; 1]%N 16) = Some s' ∧ test_bit s' 8 = None.
Proof. exact assign_smaller_ub. Qed.
Print Assumptions C56_assign_to_smaller_refuted.
Theorem C56_copy_grow : ∀ garbage o, wf o → clean o → Forall (λ b, (b < 256)%N) garbage →
  length (bs_data o) ≤ length garbage →
  ∃ c, make_copy_sized garbage o = Some c ∧ wf c ∧ ∀ i, test_bit c i = test_bit o i.
Proof. exact make_copy_grow. Qed.
Print Assumptions C56_copy_grow.
Theorem C56_copy_shrink_refuted : ∀ garbage o, wf o → length garbage < length (bs_data o) →
  make_copy_sized garbage o = None.
Proof. exact make_copy_shrink. Qed.
Print Assumptions C56_copy_shrink_refuted.
Example C56_example :
  let o := BitSet [5; 2]%N 10 in
  wf o ∧ clean o ∧ bs_nbits o ≤ capacity (make_instance 30) ∧
  (c ← make_copy_sized [9; 9; 9; 9]%N o; Some (bs_data c, bs_nbits c)) = Some ([5; 2; 0; 0]%N, 32).
Proof. exact copy_example. Qed.
