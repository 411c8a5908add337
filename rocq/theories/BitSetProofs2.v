(** Proofs about counting, searching, comparing and copying bit sets. *)
From stdpp Require Import list option.
From Coq Require Import NArith Arith Lia ZifyBool ZifyNat ZifyN.
From Verif Require Import BitSetModel BitSetSpec BitSetProofs.
Local Open Scope nat_scope.
Ltac Zify.zify_post_hook ::= Z.div_mod_to_equations.

(** * Table checks: all 256 bytes *)
Definition all_bytes : list N := map N.of_nat (seq 0 256).

Lemma all_bytes_in b : (b < 256)%N → In b all_bytes.
Proof.
  intros. apply in_map_iff. exists (N.to_nat b). split; [lia|]. apply in_seq. lia.
Qed.

Lemma check_bytes (P : N → bool) : forallb P all_bytes = true → ∀ b, (b < 256)%N → P b = true.
Proof. intros H b Hb. rewrite forallb_forall in H. by apply H, all_bytes_in. Qed.

Definition popcount8 (b : N) : nat := length (List.filter (λ j, N.testbit b (N.of_nat j)) (seq 0 8)).

Lemma count_table_ok b : (b < 256)%N → table_at count_table b = Some (popcount8 b).
Proof.
  intros Hb.
  assert (bool_decide (table_at count_table b = Some (popcount8 b)) = true) as H.
  { revert b Hb. apply check_bytes. vm_compute. reflexivity. }
  by apply bool_decide_eq_true in H.
Qed.

Definition first_ok (want : bool) (skip : N) (t : list nat) (b : N) : bool :=
  if (b =? skip)%N then forallb (λ j, Bool.eqb (N.testbit b (N.of_nat j)) (negb want)) (seq 0 8)
  else match table_at t b with
       | Some p => (p <? 8) && Bool.eqb (N.testbit b (N.of_nat p)) want
                   && forallb (λ j, Bool.eqb (N.testbit b (N.of_nat j)) (negb want)) (seq 0 p)
       | None => false
       end.
Definition last_ok (want : bool) (skip : N) (t : list nat) (b : N) : bool :=
  if (b =? skip)%N then forallb (λ j, Bool.eqb (N.testbit b (N.of_nat j)) (negb want)) (seq 0 8)
  else match table_at t b with
       | Some p => (p <? 8) && Bool.eqb (N.testbit b (N.of_nat p)) want
                   && forallb (λ j, Bool.eqb (N.testbit b (N.of_nat j)) (negb want)) (seq (S p) (7 - p))
       | None => false
       end.
Lemma first_null_ok b : (b < 256)%N → first_ok false 255 first_null_table b = true.
Proof. revert b. apply check_bytes. vm_compute. reflexivity. Qed.
Lemma first_set_ok b : (b < 256)%N → first_ok true 0 first_set_table b = true.
Proof. revert b. apply check_bytes. vm_compute. reflexivity. Qed.
Lemma last_null_ok b : (b < 256)%N → last_ok false 255 last_null_table b = true.
Proof. revert b. apply check_bytes. vm_compute. reflexivity. Qed.
Lemma last_set_ok b : (b < 256)%N → last_ok true 0 last_set_table b = true.
Proof. revert b. apply check_bytes. vm_compute. reflexivity. Qed.

(** * Counting *)
Definition raw_count (d : list N) (from n : nat) : nat := length (List.filter (raw_bit d) (seq from n)).

Lemma raw_count_app d from n m : raw_count d from (n + m) = raw_count d from n + raw_count d (from + n) m.
Proof. unfold raw_count. by rewrite seq_app, filter_app, app_length. Qed.

Lemma filter_length_ext {A B} (p : A → bool) (q : B → bool) (f : A → B) (l : list A) :
  (∀ x, In x l → p x = q (f x)) → length (List.filter p l) = length (List.filter q (map f l)).
Proof.
  induction l as [|a l IH]; simpl; intros H; [done|].
  rewrite <-(H a) by auto. destruct (p a); simpl; rewrite IH; auto.
Qed.

Lemma raw_count_byte d n b : d !! n = Some b → raw_count d (8 * n) 8 = popcount8 b.
Proof.
  intros Hb. unfold raw_count, popcount8.
  rewrite (filter_length_ext (λ j, N.testbit b (N.of_nat j)) (raw_bit d) (λ j, 8 * n + j)).
  - assert (∀ k m z, seq (m + z) k = map (λ j, m + j) (seq z k)) as Hseq.
    { clear. induction k as [|k IH]; intros m z; simpl; [done|].
      f_equal. rewrite <-IH. f_equal. lia. }
    rewrite <-Hseq. by rewrite Nat.add_0_r.
  - intros j Hj%in_seq. symmetry. apply raw_bit_byte; [done|lia].
Qed.

Lemma count_loop_spec d i n c : bytes_ok d → i + n ≤ length d →
  count_loop d i n c = Some (c + raw_count d (8 * i) (8 * n)).
Proof.
  revert i c. induction n as [|n IH]; intros i c Hok Hl; simpl.
  - unfold raw_count. rewrite Nat.mul_0_r. simpl. f_equal. lia.
  - destruct (lookup_lt_is_Some_2 d i) as [b Hb]; [lia|]. rewrite Hb. simpl.
    rewrite count_table_ok by (by eapply Forall_lookup_1 in Hok). simpl.
    rewrite IH by (done || lia).
    replace (8 * S n) with (8 + 8 * n) by lia. rewrite raw_count_app.
    rewrite (raw_count_byte _ _ _ Hb). f_equal.
    replace (8 * i + 8) with (8 * S i) by lia. lia.
Qed.

Lemma raw_count_clean s from n : clean s → bs_nbits s ≤ from → raw_count (bs_data s) from n = 0.
Proof.
  intros Hcl. revert from. unfold raw_count. induction n as [|n IH]; intros from H; simpl; [done|].
  rewrite Hcl by done. apply IH. lia.
Qed.

Lemma count_true_raw s from upto : wf s → clean s →
  count_true (test_bit s) from upto = raw_count (bs_data s) from (upto - from).
Proof.
  intros Hwf Hcl. unfold count_true, raw_count. f_equal. apply List.filter_ext.
  intros i. rewrite test_bit_clean by done. by destruct (raw_bit _ _).
Qed.

Lemma count_true_split f a b c : a ≤ b ≤ c →
  count_true f a c = count_true f a b + count_true f b c.
Proof.
  intros. unfold count_true. replace (c - a) with ((b - a) + (c - b)) by lia.
  rewrite seq_app, filter_app, app_length. do 2 f_equal. f_equal. f_equal. lia.
Qed.

Lemma count_bits_clean s : wf s → clean s →
  count_bits s 0 = Some (count_true (test_bit s) 0 (bs_nbits s)).
Proof.
  intros Hwf Hcl. pose proof Hwf as (Hp & Hok & Hn). unfold count_bits, get_nbytes, capacity in *. simpl.
  rewrite count_loop_spec by (done || lia). f_equal. rewrite count_true_raw by done.
  replace (8 * length (bs_data s)) with ((bs_nbits s - 0) + (8 * length (bs_data s) - bs_nbits s)) by lia.
  rewrite raw_count_app. rewrite (raw_count_clean s (8 * 0 + (bs_nbits s - 0))) by (done || lia).
  replace (8 * 0) with 0 by lia. lia.
Qed.

Lemma count_bits_aligned s k : wf s → clean s →
  count_bits s (8 * k) = Some (count_true (test_bit s) (8 * k) (bs_nbits s)).
Proof.
  intros Hwf Hcl. destruct (decide (k = 0)) as [->|Hk]; [by apply count_bits_clean|].
  pose proof Hwf as (Hp & Hok & Hn). unfold count_bits, get_nbytes, capacity in *.
  destruct (Nat.eqb_spec (8 * k) 0); [lia|].
  destruct (Nat.leb_spec (bs_nbits s) (8 * k)).
  - f_equal. unfold count_true. replace (bs_nbits s - 8 * k) with 0 by lia. done.
  - replace ((8 * k) / 8) with k by lia. replace ((8 * k) mod 8) with 0 by lia. simpl.
    rewrite count_loop_spec by (done || lia). f_equal. rewrite count_true_raw by done.
    replace (8 * (length (bs_data s) - k)) with
      ((bs_nbits s - 8 * k) + (8 * length (bs_data s) - bs_nbits s)) by lia.
    rewrite raw_count_app. rewrite (raw_count_clean s (8 * k + (bs_nbits s - 8 * k))) by (done || lia). lia.
Qed.

(** * Forward searches *)
Definition is_first (d : list N) (want : bool) (from upto : nat) (r : option nat) : Prop :=
  match r with
  | Some p => from ≤ p < upto ∧ raw_bit d p = want ∧ ∀ j, from ≤ j < p → raw_bit d j = negb want
  | None => ∀ j, from ≤ j < upto → raw_bit d j = negb want
  end.

Lemma first_loop_spec want skip t d i n dflt :
  (∀ b, (b < 256)%N → first_ok want skip t b = true) → bytes_ok d → i + n ≤ length d →
  ∃ r, is_first d want (8 * i) (8 * (i + n)) r ∧
       first_loop skip t d i n dflt = Some (match r with Some p => p | None => dflt end).
Proof.
  intros Ht Hok. revert i. induction n as [|n IH]; intros i Hl; simpl.
  - exists None. split; [|done]. intros j Hj. lia.
  - destruct (lookup_lt_is_Some_2 d i) as [b Hb]; [lia|]. rewrite Hb. simpl.
    assert (b < 256)%N as Hb256 by (by eapply Forall_lookup_1 in Hok).
    specialize (Ht b Hb256) as Hbt. unfold first_ok in Hbt.
    destruct (N.eqb_spec b skip) as [E|E].
    + destruct (IH (S i)) as (r & Hr & ->); [lia|]. exists r. split; [|done].
      assert (∀ j, 8 * i ≤ j < 8 * S i → raw_bit d j = negb want) as Hbyte.
      { intros j Hj. replace j with (8 * i + (j - 8 * i)) by lia.
        rewrite (raw_bit_byte _ _ _ _ Hb) by lia.
        rewrite forallb_forall in Hbt. apply eqb_prop, Hbt, in_seq. lia. }
      destruct r as [p|]; simpl in *.
      * destruct Hr as (Hp & Hw & Hj). split_and!; [lia|lia|done|].
        intros j Hj'. destruct (decide (j < 8 * S i)); [apply Hbyte; lia|apply Hj; lia].
      * intros j Hj'. destruct (decide (j < 8 * S i)); [apply Hbyte; lia|apply Hr; lia].
    + destruct (table_at t b) as [p|]; [|done]. simpl. exists (Some (8 * i + p)). split; [|done].
      apply andb_true_iff in Hbt as [Hbt Hall]. apply andb_true_iff in Hbt as [Hp Hw].
      apply Nat.ltb_lt in Hp. apply eqb_prop in Hw. rewrite forallb_forall in Hall.
      simpl. split_and!; [lia|lia| |].
      * by rewrite (raw_bit_byte _ _ _ _ Hb).
      * intros j Hj. replace j with (8 * i + (j - 8 * i)) by lia.
        rewrite (raw_bit_byte _ _ _ _ Hb) by lia. apply eqb_prop, Hall, in_seq. lia.
Qed.

Lemma first_partial_spec want b i n :
  match first_partial want b i n with
  | Some p => i ≤ p < i + n ∧ N.testbit b (N.of_nat p) = want ∧
              ∀ j, i ≤ j < p → N.testbit b (N.of_nat j) = negb want
  | None => ∀ j, i ≤ j < i + n → N.testbit b (N.of_nat j) = negb want
  end.
Proof.
  revert i. induction n as [|n IH]; intros i; simpl; [intros; lia|].
  rewrite land_bitmask_eqb.
  destruct (Bool.eqb (N.testbit b (N.of_nat i)) want) eqn:E.
  - apply eqb_prop in E. split_and!; [lia|lia|done|intros; lia].
  - assert (N.testbit b (N.of_nat i) = negb want) as E'.
    { by destruct (N.testbit b (N.of_nat i)), want. }
    specialize (IH (S i)). destruct (first_partial want b (S i) n) as [p|].
    + destruct IH as (? & ? & Hj). split_and!; [lia|lia|done|].
      intros j Hj'. destruct (decide (j = i)) as [->|]; [done|apply Hj; lia].
    + intros j Hj'. destruct (decide (j = i)) as [->|]; [done|apply IH; lia].
Qed.

Lemma first_bit_raw want skip t s start :
  (∀ b, (b < 256)%N → first_ok want skip t b = true) → wf s → start < bs_nbits s ∨ start = 0 →
  ∃ r, is_first (bs_data s) want start (capacity s) r ∧
       first_bit want skip t s start = Some (match r with Some p => p | None => bs_nbits s end).
Proof.
  intros Ht (Hp & Hok & Hn) Hst. unfold first_bit, get_nbytes, capacity in *.
  destruct (Nat.eqb_spec start 0) as [->|H0].
  { destruct (first_loop_spec want skip t (bs_data s) 0 (length (bs_data s)) (bs_nbits s))
      as (r & Hr & ->); [done|done|lia|]. exists r. done. }
  destruct (Nat.leb_spec (bs_nbits s) start); [lia|].
  destruct (Nat.eqb_spec (start mod 8) 0) as [Hm|Hm].
  - destruct (first_loop_spec want skip t (bs_data s) (start / 8) (length (bs_data s) - start / 8) (bs_nbits s))
      as (r & Hr & ->); [done|done|lia|]. exists r. split; [|done].
    replace (8 * (start / 8)) with start in Hr by lia.
    replace (start / 8 + (length (bs_data s) - start / 8)) with (length (bs_data s)) in Hr by lia. done.
  - destruct (lookup_lt_is_Some_2 (bs_data s) (start / 8)) as [b Hb]; [lia|]. rewrite Hb. simpl.
    pose proof (first_partial_spec want b (start mod 8) (8 - start mod 8)) as Hpart.
    assert (∀ j, start ≤ j < 8 * (start / 8) + 8 →
              raw_bit (bs_data s) j = N.testbit b (N.of_nat (j - 8 * (start / 8)))) as Hj0.
    { intros j Hj. rewrite <-(raw_bit_byte _ _ _ _ Hb) by lia. f_equal. lia. }
    destruct (first_partial want b (start mod 8) (8 - start mod 8)) as [p|].
    + exists (Some (8 * (start / 8) + p)). split; [|done]. destruct Hpart as (Hp1 & Hp2 & Hp3).
      simpl. split_and!; [lia|lia| |].
      * rewrite Hj0 by lia. rewrite <-Hp2. do 2 f_equal. lia.
      * intros j Hj. rewrite Hj0 by lia. apply Hp3. lia.
    + destruct (first_loop_spec want skip t (bs_data s) (S (start / 8))
                  (length (bs_data s) - S (start / 8)) (bs_nbits s)) as (r & Hr & ->); [done|done|lia|].
      exists r. split; [|done].
      assert (∀ j, start ≤ j < 8 * S (start / 8) → raw_bit (bs_data s) j = negb want) as Hbyte.
      { intros j Hj. rewrite Hj0 by lia. apply Hpart. lia. }
      replace (S (start / 8) + (length (bs_data s) - S (start / 8))) with (length (bs_data s)) in Hr by lia.
      destruct r as [p|]; simpl in *.
      * destruct Hr as (Hp1 & Hw & Hj). split_and!; [lia|lia|done|].
        intros j Hj'. destruct (decide (j < 8 * S (start / 8))); [apply Hbyte; lia|apply Hj; lia].
      * intros j Hj'. destruct (decide (j < 8 * S (start / 8))); [apply Hbyte; lia|apply Hr; lia].
Qed.

Lemma find_seq_first (p : nat → bool) from n r :
  from ≤ r < from + n → p r = true → (∀ j, from ≤ j < r → p j = false) →
  List.find p (seq from n) = Some r.
Proof.
  revert from. induction n as [|n IH]; intros from Hr Hp Hj; [lia|]. simpl.
  destruct (decide (from = r)) as [->|]; [by rewrite Hp|].
  rewrite Hj by lia. apply IH; [lia|done|]. intros; apply Hj; lia.
Qed.
Lemma find_seq_none (p : nat → bool) from n :
  (∀ j, from ≤ j < from + n → p j = false) → List.find p (seq from n) = None.
Proof.
  revert from. induction n as [|n IH]; intros from Hj; [done|]. simpl.
  rewrite Hj by lia. apply IH. intros; apply Hj; lia.
Qed.

Lemma first_bit_clean want skip t s start :
  (∀ b, (b < 256)%N → first_ok want skip t b = true) → wf s → clean s →
  first_bit want skip t s start =
    Some (search (test_bit s) want (seq start (bs_nbits s - start)) (bs_nbits s)).
Proof.
  intros Ht Hwf Hcl. pose proof Hwf as (Hp & Hok & Hn).
  destruct (decide (start < bs_nbits s ∨ start = 0)) as [Hst|Hst].
  - destruct (first_bit_raw want skip t s start Ht Hwf Hst) as (r & Hr & ->). f_equal.
    unfold search.
    assert (∀ j, match test_bit s j with Some b => Bool.eqb b want | None => false end
                 = Bool.eqb (raw_bit (bs_data s) j) want) as Hext.
    { intros j. by rewrite test_bit_clean. }
    destruct r as [p|]; simpl in Hr.
    + destruct Hr as (Hp1 & Hw & Hj).
      destruct (decide (p < bs_nbits s)).
      * rewrite (find_seq_first _ _ _ p); [done|lia| |].
        -- rewrite Hext, Hw. apply eqb_reflx.
        -- intros j Hj'. rewrite Hext, Hj by lia. by destruct want.
      * rewrite find_seq_none.
        -- (* the answer found lies in the slack: it must be the first slack bit *)
           destruct (decide (p = bs_nbits s)) as [|Hne]; [done|].
           assert (raw_bit (bs_data s) (bs_nbits s) = negb want) as E1 by (apply Hj; lia).
           rewrite Hcl in E1 by lia. rewrite Hcl in Hw by lia. by destruct want.
        -- intros j Hj'. rewrite Hext, Hj by lia. by destruct want.
    + rewrite find_seq_none; [done|].
      intros j Hj'. rewrite Hext, Hr by (unfold capacity in *; lia). by destruct want.
  - unfold first_bit. destruct (Nat.eqb_spec start 0); [lia|].
    destruct (Nat.leb_spec (bs_nbits s) start); [|lia].
    replace (bs_nbits s - start) with 0 by lia. done.
Qed.

(** * Backward searches *)
Definition is_last (d : list N) (want : bool) (upto : nat) (r : option nat) : Prop :=
  match r with
  | Some p => p < upto ∧ raw_bit d p = want ∧ ∀ j, p < j < upto → raw_bit d j = negb want
  | None => ∀ j, j < upto → raw_bit d j = negb want
  end.

Lemma last_loop_spec want skip t d i dflt :
  (∀ b, (b < 256)%N → last_ok want skip t b = true) → bytes_ok d → i ≤ length d →
  ∃ r, is_last d want (8 * i) r ∧
       last_loop skip t d i dflt = Some (match r with Some p => p | None => dflt end).
Proof.
  intros Ht Hok. induction i as [|i IH]; intros Hl; simpl.
  - exists None. split; [|done]. intros j Hj. lia.
  - destruct (lookup_lt_is_Some_2 d i) as [b Hb]; [lia|]. rewrite Hb. simpl.
    assert (b < 256)%N as Hb256 by (by eapply Forall_lookup_1 in Hok).
    specialize (Ht b Hb256) as Hbt. unfold last_ok in Hbt.
    destruct (N.eqb_spec b skip) as [E|E].
    + destruct IH as (r & Hr & ->); [lia|]. exists r. split; [|done].
      assert (∀ j, 8 * i ≤ j < 8 * S i → raw_bit d j = negb want) as Hbyte.
      { intros j Hj. replace j with (8 * i + (j - 8 * i)) by lia.
        rewrite (raw_bit_byte _ _ _ _ Hb) by lia.
        rewrite forallb_forall in Hbt. apply eqb_prop, Hbt, in_seq. lia. }
      destruct r as [p|]; simpl in *.
      * destruct Hr as (Hp & Hw & Hj). split_and!; [lia|done|].
        intros j Hj'. destruct (decide (8 * i ≤ j)); [apply Hbyte; lia|apply Hj; lia].
      * intros j Hj'. destruct (decide (8 * i ≤ j)); [apply Hbyte; lia|apply Hr; lia].
    + destruct (table_at t b) as [p|]; [|done]. simpl. exists (Some (8 * i + p)). split; [|done].
      apply andb_true_iff in Hbt as [Hbt Hall]. apply andb_true_iff in Hbt as [Hp Hw].
      apply Nat.ltb_lt in Hp. apply eqb_prop in Hw. rewrite forallb_forall in Hall.
      simpl. split_and!; [lia| |].
      * by rewrite (raw_bit_byte _ _ _ _ Hb).
      * intros j Hj. replace j with (8 * i + (j - 8 * i)) by lia.
        rewrite (raw_bit_byte _ _ _ _ Hb) by lia. apply eqb_prop, Hall, in_seq. lia.
Qed.

Lemma last_partial_spec want b i :
  match last_partial want b i with
  | Some p => p < i ∧ N.testbit b (N.of_nat p) = want ∧
              ∀ j, p < j < i → N.testbit b (N.of_nat j) = negb want
  | None => ∀ j, j < i → N.testbit b (N.of_nat j) = negb want
  end.
Proof.
  induction i as [|i IH]; simpl; [intros; lia|].
  rewrite land_bitmask_eqb.
  destruct (Bool.eqb (N.testbit b (N.of_nat i)) want) eqn:E.
  - apply eqb_prop in E. split_and!; [lia|done|intros; lia].
  - assert (N.testbit b (N.of_nat i) = negb want) as E'.
    { by destruct (N.testbit b (N.of_nat i)), want. }
    destruct (last_partial want b i) as [p|].
    + destruct IH as (? & ? & Hj). split_and!; [lia|done|].
      intros j Hj'. destruct (decide (j = i)) as [->|]; [done|apply Hj; lia].
    + intros j Hj'. destruct (decide (j = i)) as [->|]; [done|apply IH; lia].
Qed.

Lemma find_rev_seq_last (p : nat → bool) n r :
  r < n → p r = true → (∀ j, r < j < n → p j = false) → List.find p (rev (seq 0 n)) = Some r.
Proof.
  induction n as [|n IH]; intros Hr Hp Hj; [lia|].
  rewrite seq_S, rev_app_distr. simpl.
  destruct (decide (n = r)) as [->|]; [by rewrite Hp|].
  rewrite Hj by lia. apply IH; [lia|done|]. intros; apply Hj; lia.
Qed.
Lemma find_rev_seq_none (p : nat → bool) n :
  (∀ j, j < n → p j = false) → List.find p (rev (seq 0 n)) = None.
Proof.
  induction n as [|n IH]; intros Hj; [done|]. rewrite seq_S, rev_app_distr. simpl.
  rewrite Hj by lia. apply IH. intros; apply Hj; lia.
Qed.

Lemma last_bit_spec want skip t s start :
  (∀ b, (b < 256)%N → last_ok want skip t b = true) → wf s → 0 < bs_nbits s →
  last_bit want skip t s start =
    Some (search (test_bit s) want (rev (seq 0 (Nat.min start (bs_nbits s - 1) + 1))) (bs_nbits s)).
Proof.
  intros Ht Hwf Hpos. pose proof Hwf as (Hp & Hok & Hn). unfold last_bit, capacity in *.
  destruct (Nat.eqb_spec (bs_nbits s) 0); [lia|].
  set (st := if bs_nbits s <=? start then bs_nbits s - 1 else start).
  assert (st = Nat.min start (bs_nbits s - 1)) as Hst.
  { unfold st. destruct (Nat.leb_spec (bs_nbits s) start); lia. }
  rewrite <-Hst. assert (st < bs_nbits s) as Hlt by lia. clearbody st. clear Hst.
  assert (∃ r, is_last (bs_data s) want (st + 1) r ∧
     (if st mod 8 <? 7
      then b ← bs_data s !! (st / 8);
           match last_partial want b (st mod 8 + 1) with
           | Some i => Some (8 * (st / 8) + i)
           | None => last_loop skip t (bs_data s) (st / 8) (bs_nbits s)
           end
      else last_loop skip t (bs_data s) (st / 8 + 1) (bs_nbits s))
     = Some (match r with Some p => p | None => bs_nbits s end)) as (r & Hr & ->).
  { destruct (Nat.ltb_spec (st mod 8) 7).
    - destruct (lookup_lt_is_Some_2 (bs_data s) (st / 8)) as [b Hb]; [lia|]. rewrite Hb. simpl.
      pose proof (last_partial_spec want b (st mod 8 + 1)) as Hpart.
      assert (∀ j, 8 * (st / 8) ≤ j < 8 * (st / 8) + 8 →
                raw_bit (bs_data s) j = N.testbit b (N.of_nat (j - 8 * (st / 8)))) as Hj0.
      { intros j Hj. rewrite <-(raw_bit_byte _ _ _ _ Hb) by lia. f_equal. lia. }
      destruct (last_partial want b (st mod 8 + 1)) as [p|].
      + exists (Some (8 * (st / 8) + p)). split; [|done]. destruct Hpart as (Hp1 & Hp2 & Hp3).
        simpl. split_and!; [lia| |].
        * rewrite Hj0 by lia. rewrite <-Hp2. do 2 f_equal. lia.
        * intros j Hj. rewrite Hj0 by lia. apply Hp3. lia.
      + destruct (last_loop_spec want skip t (bs_data s) (st / 8) (bs_nbits s))
          as (r & Hr & ->); [done|done|lia|]. exists r. split; [|done].
        assert (∀ j, 8 * (st / 8) ≤ j < st + 1 → raw_bit (bs_data s) j = negb want) as Hbyte.
        { intros j Hj. rewrite Hj0 by lia. apply Hpart. lia. }
        destruct r as [p|]; simpl in *.
        * destruct Hr as (Hp1 & Hw & Hj). split_and!; [lia|done|].
          intros j Hj'. destruct (decide (8 * (st / 8) ≤ j)); [apply Hbyte; lia|apply Hj; lia].
        * intros j Hj'. destruct (decide (8 * (st / 8) ≤ j)); [apply Hbyte; lia|apply Hr; lia].
    - destruct (last_loop_spec want skip t (bs_data s) (st / 8 + 1) (bs_nbits s))
        as (r & Hr & ->); [done|done|lia|]. exists r. split; [|done].
      replace (8 * (st / 8 + 1)) with (st + 1) in Hr by lia. done. }
  f_equal. unfold search.
  assert (∀ j, j < st + 1 → match test_bit s j with Some b => Bool.eqb b want | None => false end
               = Bool.eqb (raw_bit (bs_data s) j) want) as Hext.
  { intros j Hj. rewrite test_bit_spec by done. destruct (Nat.leb_spec (bs_nbits s) j); [lia|done]. }
  destruct r as [p|]; simpl in Hr.
  - destruct Hr as (Hp1 & Hw & Hj). rewrite (find_rev_seq_last _ _ p); [done|lia| |].
    + rewrite Hext, Hw by lia. apply eqb_reflx.
    + intros j Hj'. rewrite Hext, Hj by lia. by destruct want.
  - rewrite find_rev_seq_none; [done|].
    intros j Hj'. rewrite Hext, Hr by lia. by destruct want.
Qed.

(** * Bulk operations *)
Lemma reset_all_false s : wf s →
  ∃ s', reset_all s false = Some s' ∧ wf s' ∧ bs_nbits s' = bs_nbits s ∧ capacity s' = capacity s ∧
        ∀ i, raw_bit (bs_data s') i = false.
Proof.
  intros (Hp & Hok & Hn). unfold reset_all, get_nbytes, capacity in *.
  destruct (memset_spec (bs_data s) 0 (length (bs_data s)) 0%N) as (d & -> & Hl & Hd); [lia|].
  simpl. eexists. split_and!; [done| |done|simpl; lia|].
  - split_and!; simpl; [lia| |unfold capacity; simpl; lia].
    apply bytes_ok_lookup. intros i b. rewrite Hd. destruct (decide _); [by intros [= <-]|].
    intros. by eapply Forall_lookup_1 in Hok.
  - intros i. simpl. unfold raw_bit. rewrite Hd. destruct (decide _); [apply N.bits_0|].
    rewrite lookup_ge_None_2; [done|lia].
Qed.

Lemma clear_spec s : wf s →
  ∃ s', clear s = Some s' ∧ wf s' ∧ bs_nbits s' = 0 ∧ capacity s' = capacity s ∧
        ∀ i, raw_bit (bs_data s') i = false.
Proof.
  intros Hwf. destruct (reset_all_false s Hwf) as (s' & H & Hwf' & Hn & Hc & Hb).
  unfold reset_all, clear in *. destruct (memset _ _ _ _) as [d|]; simpl in *; [|done].
  injection H as <-. simpl in *. eexists. split_and!; [done| |done|done|done].
  destruct Hwf' as (? & ? & ?). split_and!; simpl; [done|done|lia].
Qed.

Lemma copy_out_spec d i n : i + n ≤ length d → copy_out d i n = Some (take n (drop i d)).
Proof.
  revert i. induction n as [|n IH]; intros i Hl; simpl; [done|].
  destruct (lookup_lt_is_Some_2 d i) as [b Hb]; [lia|]. rewrite Hb. simpl.
  rewrite IH by lia. simpl. rewrite (drop_S d b i Hb). done.
Qed.

Lemma set_get_raw s n array : wf s → (n + 7) / 8 ≤ length array → bytes_ok array →
  n ≤ capacity s →
  ∃ s', set_raw s n array = Some (s', true) ∧ wf s' ∧ bs_nbits s' = n ∧ capacity s' = capacity s ∧
    get_raw s' = Some (take ((n + 7) / 8) array) ∧
    ∀ i, i < n → test_bit s' i = Some (raw_bit array i).
Proof.
  intros (Hp & Hok & Hn) Hl Ha Hc. unfold set_raw, get_nbytes, capacity in *.
  destruct (Nat.ltb_spec (length (bs_data s)) ((n + 7) / 8)); [lia|].
  destruct (memcpy_spec (bs_data s) array 0 ((n + 7) / 8)) as (d & -> & Hld & Hd); [lia|lia|].
  simpl. eexists.
  assert (wf (BitSet d n)) as Hwf'.
  { split_and!; simpl; [lia| |unfold capacity; simpl; lia].
    apply bytes_ok_lookup. intros i b. rewrite Hd. destruct (decide _).
    - intros. by eapply Forall_lookup_1 in Ha.
    - intros. by eapply Forall_lookup_1 in Hok. }
  split_and!; [done|done|done|simpl; lia| |].
  - unfold get_raw. simpl. rewrite copy_out_spec by lia. rewrite drop_0. f_equal.
    apply list_eq. intros i. destruct (decide (i < (n + 7) / 8)).
    + rewrite !lookup_take by done. rewrite Hd. by rewrite decide_True by lia.
    + rewrite !lookup_take_ge by lia. done.
  - intros i Hi. rewrite test_bit_spec by done. simpl.
    destruct (Nat.leb_spec n i); [lia|]. f_equal. apply raw_bit_eq. rewrite Hd.
    by rewrite decide_True by lia.
Qed.

Lemma set_raw_reject s n array : capacity s < n → set_raw s n array = Some (s, false).
Proof.
  unfold set_raw, get_nbytes, capacity. intros.
  destruct (Nat.ltb_spec (length (bs_data s)) ((n + 7) / 8)); [done|lia].
Qed.

(** * Element references *)
Lemma ref_assign_spec s i v : wf s →
  ∃ s', ref_assign s i v = Some s' ∧ wf s' ∧ bs_nbits s' = bs_nbits s ∧ capacity s' = capacity s ∧
    ∀ j, raw_bit (bs_data s') j =
         if (i =? j) && (i <? bs_nbits s) then v else raw_bit (bs_data s) j.
Proof.
  intros Hwf. unfold ref_assign. destruct (Nat.leb_spec (bs_nbits s) i).
  - exists s. split_and!; try done. intros j.
    replace (i <? bs_nbits s) with false by (symmetry; apply Nat.ltb_ge; lia). by rewrite andb_false_r.
  - destruct (set_bit_spec s i v Hwf) as (s' & E & Hwf' & Hc & Hn & Hb).
    unfold set_bit in E. destruct (Nat.leb_spec (bs_nbits s) i); [lia|].
    pose proof Hwf as (_ & _ & Hcap).
    replace (i <? capacity s) with true in * by (symmetry; apply Nat.ltb_lt; lia).
    destruct (bs_data s !! (i / 8)) as [b|]; [|done]. simpl in *.
    destruct (store _ _ _) as [d|]; [|done]. simpl in *. injection E as <-. simpl in *.
    eexists. split_and!; [done|done|done|done|]. intros j. rewrite Hb.
    by replace (i <? bs_nbits s) with true by (symmetry; apply Nat.ltb_lt; lia).
Qed.

(** * Histories that keep the slack clean *)
Lemma tame_step s o : wf s → clean s → tame (capacity s) o →
  ∃ s', bs_step s o = Some s' ∧ wf s' ∧ clean s' ∧ capacity s' = capacity s.
Proof.
  intros Hwf Hcl Ho. destruct o; simpl in *; try done.
  - destruct (set_bit_spec s i v Hwf) as (s' & E & Hwf' & Hc & _).
    pose proof (set_bit_clean _ _ _ _ _ Hwf Hcl E). rewrite E. simpl. eauto 10.
  - destruct (ref_assign_spec s i v Hwf) as (s' & E & Hwf' & Hn & Hc & Hb). rewrite E.
    exists s'. split_and!; try done. intros j Hj. rewrite Hb. rewrite Hn in Hj.
    destruct (Nat.eqb_spec i j), (Nat.ltb_spec i (bs_nbits s)); simpl; try (by apply Hcl). lia.
  - subst. destruct (reset_all_false s Hwf) as (s' & E & ? & ? & ? & Hb). rewrite E.
    exists s'. split_and!; try done. intros j _. apply Hb.
  - destruct (clear_spec s Hwf) as (s' & E & ? & ? & ? & Hb). rewrite E.
    exists s'. split_and!; try done. intros j _. apply Hb.
  - destruct (and_equal_spec s rhs Hwf Ho) as (s' & E & ? & Hn & ? & Hb). rewrite E.
    exists s'. split_and!; try done. intros j Hj. rewrite Hb, Hcl; [done|lia].
  - destruct (shift_right_spec s k Hwf Ho) as (s' & E & ? & Hn & ? & Hb). rewrite E.
    exists s'. split_and!; try done. intros j Hj. rewrite Hb. apply Hcl. lia.
Qed.

Lemma tame_run os s : wf s → clean s → Forall (tame (capacity s)) os →
  ∃ s', bs_run s os = Some s' ∧ wf s' ∧ clean s' ∧ capacity s' = capacity s.
Proof.
  revert s. induction os as [|o os IH]; intros s Hwf Hcl Ho; simpl; [eauto 10|].
  apply Forall_cons_1 in Ho as [Ho Hos].
  destruct (tame_step s o Hwf Hcl Ho) as (s1 & -> & Hwf1 & Hcl1 & Hc1). simpl.
  rewrite <-Hc1 in Hos. destruct (IH s1 Hwf1 Hcl1 Hos) as (s2 & -> & ? & ? & ?).
  exists s2. split_and!; try done. congruence.
Qed.

(** * Equality *)
Lemma memcmp_eq_spec a b i n : i + n ≤ length a → i + n ≤ length b →
  ∃ r : bool, memcmp_eq a b i n = Some r ∧
    (r = true ↔ ∀ j, i ≤ j < i + n → a !! j = b !! j).
Proof.
  revert i. induction n as [|n IH]; intros i Ha Hb; simpl.
  - exists true. split; [done|]. split; [intros; lia|done].
  - destruct (lookup_lt_is_Some_2 a i) as [x Hx]; [lia|].
    destruct (lookup_lt_is_Some_2 b i) as [y Hy]; [lia|]. rewrite Hx, Hy. simpl.
    destruct (N.eqb_spec x y) as [->|Hne].
    + destruct (IH (S i)) as (r & -> & Hr); [lia|lia|]. exists r. split; [done|]. rewrite Hr.
      split; intros H j Hj.
      * destruct (decide (j = i)) as [->|]; [congruence|]. apply H. lia.
      * apply H. lia.
    + exists false. split; [done|]. split; [done|]. intros H.
      exfalso. apply Hne. specialize (H i). rewrite Hx, Hy in H. by injection H; [|lia].
Qed.

Lemma byte_eq a b : (a < 256)%N → (b < 256)%N →
  (∀ j, j < 8 → N.testbit a (N.of_nat j) = N.testbit b (N.of_nat j)) → a = b.
Proof.
  intros Ha Hb H. apply N.bits_inj. intros n. replace n with (N.of_nat (N.to_nat n)) by lia.
  destruct (decide (N.to_nat n < 8)); [by apply H|].
  rewrite !(proj1 (byte_lt_testbit _)) by (done || lia). done.
Qed.

Lemma bytes_bits_eq a b n : bytes_ok a → bytes_ok b → n ≤ length a → n ≤ length b →
  (∀ j, 0 ≤ j < 0 + n → a !! j = b !! j) ↔ (∀ i, i < 8 * n → raw_bit a i = raw_bit b i).
Proof.
  intros Ha Hb Hla Hlb. split.
  - intros H i Hi. apply raw_bit_eq. apply H. lia.
  - intros H j Hj. destruct (lookup_lt_is_Some_2 a j) as [x Hx]; [lia|].
    destruct (lookup_lt_is_Some_2 b j) as [y Hy]; [lia|]. rewrite Hx, Hy. f_equal.
    apply byte_eq; [by eapply Forall_lookup_1 in Ha|by eapply Forall_lookup_1 in Hb|].
    intros k Hk. rewrite <-(raw_bit_byte _ _ _ _ Hx), <-(raw_bit_byte _ _ _ _ Hy) by done.
    apply H. lia.
Qed.

Lemma first_set_eq_nbits o k : wf o → clean o → k < bs_nbits o →
  ∃ f, first_set_bit o k = Some f ∧
    (f = bs_nbits o ↔ ∀ i, k ≤ i → raw_bit (bs_data o) i = false).
Proof.
  intros Hwf Hcl Hk. unfold first_set_bit. pose proof Hwf as (Hp & Hok & Hn).
  destruct (first_bit_raw true 0 first_set_table o k first_set_ok Hwf ltac:(lia)) as (r & Hr & ->).
  eexists. split; [done|]. destruct r as [p|]; simpl in Hr.
  - destruct Hr as (Hp1 & Hw & Hj).
    assert (p < bs_nbits o) as Hlt.
    { destruct (decide (p < bs_nbits o)); [done|]. rewrite Hcl in Hw by lia. done. }
    split; [lia|]. intros H. rewrite H in Hw by lia. done.
  - split; [|done]. intros _ i Hi. destruct (decide (i < capacity o)); [by apply Hr|].
    apply raw_bit_ge. unfold capacity in *. lia.
Qed.

Lemma bs_eq_lt s o : wf s → wf o → clean s → clean o → bs_nbits s < bs_nbits o →
  ∃ r, (c ← memcmp_eq (bs_data s) (bs_data o) 0 ((bs_nbits s + 7) / 8);
        if (c : bool) then f ← first_set_bit o (bs_nbits s); Some (f =? bs_nbits o) else Some false) = Some r ∧
    (r = true ↔ ∀ i, raw_bit (bs_data s) i = raw_bit (bs_data o) i).
Proof.
  intros Hs Ho Cs Co Hlt. pose proof Hs as (Hp & Hok & Hn). pose proof Ho as (Hp' & Hok' & Hn').
  unfold capacity in *.
  destruct (memcmp_eq_spec (bs_data s) (bs_data o) 0 ((bs_nbits s + 7) / 8)) as (c & -> & Hc); [lia|lia|].
  simpl. rewrite bytes_bits_eq in Hc by (done || lia).
  destruct c.
  - destruct (first_set_eq_nbits o (bs_nbits s) Ho Co Hlt) as (f & -> & Hf). simpl.
    eexists. split; [done|]. rewrite Nat.eqb_eq, Hf. split.
    + intros H i. destruct (decide (i < bs_nbits s)).
      * apply Hc; [done|lia].
      * rewrite H by lia. apply Cs. lia.
    + intros H i Hi. rewrite <-H. by apply Cs.
  - exists false. split; [done|]. split; [done|]. intros H. apply Hc. intros. apply H.
Qed.

Lemma bs_eq_spec s o : wf s → wf o → clean s → clean o →
  ∃ r, bs_eq s o = Some r ∧ (r = true ↔ ∀ i, test_bit s i = test_bit o i).
Proof.
  intros Hs Ho Cs Co.
  assert (∃ r, bs_eq s o = Some r ∧
     (r = true ↔ ∀ i, raw_bit (bs_data s) i = raw_bit (bs_data o) i)) as (r & -> & Hr).
  { unfold bs_eq. destruct (Nat.eqb_spec (bs_nbits s) (bs_nbits o)) as [E|E].
    - pose proof Hs as (Hp & Hok & Hn). pose proof Ho as (Hp' & Hok' & Hn'). unfold capacity in *.
      destruct (memcmp_eq_spec (bs_data s) (bs_data o) 0 ((bs_nbits s + 7) / 8)) as (c & -> & Hc); [lia|lia|].
      exists c. split; [done|]. rewrite Hc, bytes_bits_eq by (done || lia). split.
      + intros H i. destruct (decide (i < bs_nbits s)); [apply H; lia|].
        rewrite Cs, Co by lia. done.
      + intros H i _. apply H.
    - destruct (Nat.ltb_spec (bs_nbits s) (bs_nbits o)) as [Hlt|Hge].
      + by apply bs_eq_lt.
      + destruct (bs_eq_lt o s Ho Hs Co Cs ltac:(lia)) as (r & Hr & Hr').
        exists r. split; [|rewrite Hr'; split; intros H i; by rewrite H].
        rewrite <-Hr. pose proof Hs as (Hp & Hok & Hn). pose proof Ho as (Hp' & Hok' & Hn'). unfold capacity in *.
        destruct (memcmp_eq_spec (bs_data s) (bs_data o) 0 ((bs_nbits o + 7) / 8)) as (c & -> & Hc); [lia|lia|].
        destruct (memcmp_eq_spec (bs_data o) (bs_data s) 0 ((bs_nbits o + 7) / 8)) as (c' & -> & Hc'); [lia|lia|].
        assert (c = c') as ->; [|done].
        destruct c, c'; try done.
        * symmetry. apply Hc'. intros j Hj. symmetry. by apply Hc.
        * apply Hc. intros j Hj. symmetry. by apply Hc'. }
  exists r. split; [done|]. rewrite Hr. split; intros H i.
  - by rewrite !test_bit_clean, H.
  - specialize (H i). rewrite !test_bit_clean in H by done. by injection H.
Qed.

(** * Assignment and sized copies *)
Lemma assign_spec s r : wf s → wf r → bs_nbits r ≤ capacity s →
  ∃ s', assign s r = Some s' ∧ wf s' ∧ capacity s' = capacity s ∧ bs_nbits s' = bs_nbits r ∧
        ∀ i, test_bit s' i = test_bit r i.
Proof.
  intros (Hp & Hok & Hn) Hr Hc. pose proof Hr as (Hp' & Hok' & Hn').
  unfold assign, get_nbytes, capacity in *.
  assert (∃ d, (if length (bs_data r) <=? length (bs_data s)
     then d1 ← memcpy (bs_data s) (bs_data r) 0 (length (bs_data r));
          memset d1 (length (bs_data r)) (length (bs_data s) - length (bs_data r)) 0%N
     else memcpy (bs_data s) (bs_data r) 0 (length (bs_data s))) = Some d ∧
     length d = length (bs_data s) ∧ bytes_ok d ∧
     ∀ i, i < length (bs_data s) → i < length (bs_data r) → d !! i = bs_data r !! i)
    as (d & -> & Hl & Hd & Hi).
  { destruct (Nat.leb_spec (length (bs_data r)) (length (bs_data s))).
    - destruct (memcpy_spec (bs_data s) (bs_data r) 0 (length (bs_data r))) as (d1 & -> & Hl1 & H1); [lia|lia|].
      simpl. destruct (memset_spec d1 (length (bs_data r)) (length (bs_data s) - length (bs_data r)) 0%N)
        as (d2 & -> & Hl2 & H2); [lia|].
      exists d2. split_and!; [done|lia| |].
      + apply bytes_ok_lookup. intros i b. rewrite H2, H1. destruct (decide _); [by intros [= <-]|].
        destruct (decide _); intros; [by eapply Forall_lookup_1 in Hok'|by eapply Forall_lookup_1 in Hok].
      + intros i Hi Hi'. rewrite H2, H1. rewrite decide_False, decide_True by lia. done.
    - destruct (memcpy_spec (bs_data s) (bs_data r) 0 (length (bs_data s))) as (d1 & -> & Hl1 & H1); [lia|lia|].
      exists d1. split_and!; [done|lia| |].
      + apply bytes_ok_lookup. intros i b. rewrite H1.
        destruct (decide _); intros; [by eapply Forall_lookup_1 in Hok'|by eapply Forall_lookup_1 in Hok].
      + intros i Hi Hi'. rewrite H1. rewrite decide_True by lia. done. }
  simpl. eexists.
  assert (wf (BitSet d (bs_nbits r))) as Hwf'.
  { split_and!; simpl; [lia|done|unfold capacity; simpl; lia]. }
  split_and!; [done|done|simpl; lia|done|].
  intros i. rewrite !test_bit_spec by done. simpl. destruct (Nat.leb_spec (bs_nbits r) i); [done|].
  f_equal. apply raw_bit_eq. apply Hi; lia.
Qed.

Lemma make_copy_grow g o : wf o → clean o → bytes_ok g → get_nbytes o ≤ length g →
  ∃ c, make_copy_sized g o = Some c ∧ wf c ∧ ∀ i, test_bit c i = test_bit o i.
Proof.
  intros Ho Co Hg Hl. pose proof Ho as (Hp & Hok & Hn). unfold make_copy_sized, get_nbytes, capacity in *.
  destruct (memcpy_spec g (bs_data o) 0 (length (bs_data o))) as (d1 & -> & Hl1 & H1); [lia|lia|].
  cbn [mbind option_bind].
  set (nb := if length g <? bs_nbits o * 8 then 8 * length g else bs_nbits o).
  assert (bs_nbits o ≤ nb ∧ nb ≤ 8 * length g) as Hnb.
  { unfold nb. destruct (Nat.ltb_spec (length g) (bs_nbits o * 8)); lia. }
  assert (∃ d, (if length (bs_data o) <? length g
       then memset d1 (length (bs_data o)) (length g - length (bs_data o)) 0%N else Some d1) = Some d ∧
     length d = length g ∧ bytes_ok d ∧ ∀ i, raw_bit d i = raw_bit (bs_data o) i) as (d & -> & Hld & Hd & Hi).
  { destruct (Nat.ltb_spec (length (bs_data o)) (length g)).
    - destruct (memset_spec d1 (length (bs_data o)) (length g - length (bs_data o)) 0%N)
        as (d2 & -> & Hl2 & H2); [lia|].
      exists d2. split_and!; [done|lia| |].
      + apply bytes_ok_lookup. intros i b. rewrite H2, H1. destruct (decide _); [by intros [= <-]|].
        destruct (decide _); intros; [by eapply Forall_lookup_1 in Hok|by eapply Forall_lookup_1 in Hg].
      + intros i. unfold raw_bit. rewrite H2, H1. destruct (decide _).
        * rewrite N.bits_0. rewrite lookup_ge_None_2; [done|lia].
        * destruct (decide (0 ≤ i/8 < 0 + length (bs_data o))); [done|].
          rewrite !lookup_ge_None_2; [done|lia|lia].
    - exists d1. split_and!; [done|lia| |].
      + apply bytes_ok_lookup. intros i b. rewrite H1.
        destruct (decide _); intros; [by eapply Forall_lookup_1 in Hok|by eapply Forall_lookup_1 in Hg].
      + intros i. unfold raw_bit. rewrite H1.
        destruct (decide (0 ≤ i/8 < 0 + length (bs_data o))); [done|].
        rewrite !lookup_ge_None_2; [done|lia|lia]. }
  cbn [mbind option_bind]. eexists.
  assert (wf (BitSet d nb)) as Hwf'.
  { split_and!; simpl; [lia|done|unfold capacity; simpl; lia]. }
  assert (clean (BitSet d nb)) as Hcl'.
  { intros i Hi'. simpl in *. rewrite Hi. apply Co. lia. }
  split_and!; [done|done|]. intros i. rewrite !test_bit_clean by done. simpl. by rewrite Hi.
Qed.

Lemma memcpy_overflow d src from n : length d < from + n → 0 < n → memcpy d src from n = None.
Proof.
  revert d from. induction n as [|n IH]; intros d from H Hn; [lia|]. simpl.
  destruct (src !! from); [|done]. simpl.
  unfold store. destruct (decide (from < length d)); [|done]. simpl.
  apply IH; rewrite ?insert_length; lia.
Qed.

Lemma make_copy_shrink g o : wf o → length g < get_nbytes o → make_copy_sized g o = None.
Proof.
  intros (Hp & _) Hl. unfold make_copy_sized, get_nbytes in *. rewrite memcpy_overflow; [done|lia|lia].
Qed.

(** * Statements in terms of TestBitNumber *)
Lemma nbytes_for_max n : nbytes_for n = (Nat.max n 1 + 7) / 8.
Proof. unfold nbytes_for. destruct (Nat.eqb_spec n 0); lia. Qed.

Lemma last_write_max n ws i :
  ∃ s rets, run_writes (make_instance n) ws = Some (s, rets) ∧
    test_bit s i = Some (last_written (8 * ((Nat.max n 1 + 7) / 8)) ws i) ∧
    rets = map (λ w, fst w <? 8 * ((Nat.max n 1 + 7) / 8)) ws.
Proof. rewrite <-nbytes_for_max. apply last_write. Qed.

Lemma ref_assign_test s i v : wf s →
  ∃ s', ref_assign s i v = Some s' ∧ wf s' ∧ bs_nbits s' = bs_nbits s ∧
    ∀ j, test_bit s' j = if (i =? j) && (i <? bs_nbits s) then Some v else test_bit s j.
Proof.
  intros Hwf. destruct (ref_assign_spec s i v Hwf) as (s' & E & Hwf' & Hn & _ & Hb).
  exists s'. split_and!; try done. intros j. rewrite !test_bit_spec by done. rewrite Hn, Hb.
  destruct (Nat.eqb_spec i j), (Nat.ltb_spec i (bs_nbits s)); simpl; try done.
  subst. destruct (Nat.leb_spec (bs_nbits s) j); [lia|done].
Qed.

Lemma count_bits_reachable n os k : Forall (tame (capacity (make_instance n))) os →
  ∃ s, bs_run (make_instance n) os = Some s ∧
    count_bits s (8 * k) = Some (count_true (test_bit s) (8 * k) (bs_nbits s)).
Proof.
  intros H. destruct (tame_run os _ (wf_make n) (clean_make n) H) as (s & E & Hwf & Hcl & _).
  exists s. split; [done|]. by apply count_bits_aligned.
Qed.

Definition wfb (s : bitset) : bool :=
  (0 <? length (bs_data s)) && forallb (λ b, (b <? 256)%N) (bs_data s) && (bs_nbits s <=? capacity s).
Lemma wfb_wf s : wfb s = true → wf s.
Proof.
  unfold wfb, wf. rewrite !andb_true_iff, Nat.ltb_lt, Nat.leb_le, forallb_forall.
  intros [[H1 H2] H3]. split_and!; [done| |done].
  apply Forall_forall. intros x Hx. apply N.ltb_lt, H2. first [done|by apply elem_of_list_In].
Qed.
Definition cleanb (s : bitset) : bool :=
  forallb (λ i, negb (raw_bit (bs_data s) i)) (seq (bs_nbits s) (capacity s - bs_nbits s)).
Lemma cleanb_clean s : cleanb s = true → clean s.
Proof.
  unfold cleanb, clean. rewrite forallb_forall. intros H i Hi.
  destruct (decide (i < capacity s)).
  - apply negb_true_iff, H, in_seq. lia.
  - apply raw_bit_ge. unfold capacity in *. lia.
Qed.

Lemma count_unaligned_wrong :
  ∃ s start, wf s ∧ clean s ∧ start < bs_nbits s ∧
    count_bits s start ≠ Some (count_true (test_bit s) start (bs_nbits s)).
Proof.
  exists (BitSet [2]%N 8), 1. split_and!; [by apply wfb_wf|by apply cleanb_clean|simpl; lia|].
  vm_compute. discriminate.
Qed.
Lemma count_after_shift_wrong :
  ∃ os s, bs_run (make_instance 3) os = Some s ∧
    count_bits s 0 ≠ Some (count_true (test_bit s) 0 (bs_nbits s)).
Proof.
  exists [OpSet 2 true; OpShl 1]. eexists. split; [vm_compute; reflexivity|]. vm_compute. discriminate.
Qed.

Lemma first_set_bit_correct s start : wf s → clean s →
  first_set_bit s start = Some (search (test_bit s) true (seq start (bs_nbits s - start)) (bs_nbits s)).
Proof. apply first_bit_clean, first_set_ok. Qed.
Lemma first_null_bit_correct s start : wf s → clean s →
  first_null_bit s start = Some (search (test_bit s) false (seq start (bs_nbits s - start)) (bs_nbits s)).
Proof. apply first_bit_clean, first_null_ok. Qed.
Lemma last_set_bit_correct s start : wf s → 0 < bs_nbits s →
  last_set_bit s start =
    Some (search (test_bit s) true (rev (seq 0 (Nat.min start (bs_nbits s - 1) + 1))) (bs_nbits s)).
Proof. apply last_bit_spec, last_set_ok. Qed.
Lemma last_null_bit_correct s start : wf s → 0 < bs_nbits s →
  last_null_bit s start =
    Some (search (test_bit s) false (rev (seq 0 (Nat.min start (bs_nbits s - 1) + 1))) (bs_nbits s)).
Proof. apply last_bit_spec, last_null_ok. Qed.
Lemma search_example :
  let s := BitSet [0; 36; 1]%N 20 in
  wf s ∧ clean s ∧ first_set_bit s 11 = Some 13 ∧ first_null_bit s 10 = Some 11 ∧
  last_set_bit s 12 = Some 10 ∧ last_null_bit s 10 = Some 9.
Proof. split_and!; [by apply wfb_wf|by apply cleanb_clean|done..]. Qed.
Lemma last_of_empty_ub :
  ∃ s, bs_run (make_instance 5) [OpClear] = Some s ∧
       last_set_bit s 0 = None ∧ last_null_bit s 0 = None.
Proof. eexists. split; [vm_compute; reflexivity|]. done. Qed.
Lemma first_set_after_shift_wrong :
  ∃ s p, bs_run (make_instance 3) [OpSet 2 true; OpShl 2] = Some s ∧
         first_set_bit s 0 = Some p ∧ bs_nbits s < p ∧ test_bit s p = Some false.
Proof.
  eexists. exists 4. split; [vm_compute; reflexivity|]. split; [done|]. split; [simpl; lia|done].
Qed.

Lemma and_test s r : wf s → wf r → clean r →
  ∃ s', and_equal s r = Some s' ∧ wf s' ∧ bs_nbits s' = bs_nbits s ∧
    ∀ i, test_bit s' i = (a ← test_bit s i; b ← test_bit r i; Some (a && b)).
Proof.
  intros Hs Hr Cr. destruct (and_equal_spec s r Hs Hr) as (s' & E & Hwf & Hn & _ & Hb).
  exists s'. split_and!; try done. intros i. rewrite (test_bit_clean r) by done.
  rewrite !test_bit_spec by done. rewrite Hn, Hb. simpl. by destruct (bs_nbits s <=? i).
Qed.
Lemma or_test s r : wf s → wf r → clean r →
  ∃ s', or_equal s r = Some s' ∧ wf s' ∧ bs_nbits s' = bs_nbits s ∧
    ∀ i, i < bs_nbits s → test_bit s' i = (a ← test_bit s i; b ← test_bit r i; Some (a || b)).
Proof.
  intros Hs Hr Cr. pose proof Hs as (_ & _ & Hc).
  destruct (or_equal_spec s r Hs Hr) as (s' & E & Hwf & Hn & _ & Hb).
  exists s'. split_and!; try done. intros i Hi. rewrite (test_bit_clean r) by done.
  rewrite !test_bit_spec by done. rewrite Hn, Hb by lia. simpl.
  destruct (Nat.leb_spec (bs_nbits s) i); [lia|done].
Qed.
Lemma xor_test s r : wf s → wf r → clean r →
  ∃ s', xor_equal s r = Some s' ∧ wf s' ∧ bs_nbits s' = bs_nbits s ∧
    ∀ i, i < bs_nbits s → test_bit s' i = (a ← test_bit s i; b ← test_bit r i; Some (xorb a b)).
Proof.
  intros Hs Hr Cr. pose proof Hs as (_ & _ & Hc).
  destruct (xor_equal_spec s r Hs Hr) as (s' & E & Hwf & Hn & _ & Hb).
  exists s'. split_and!; try done. intros i Hi. rewrite (test_bit_clean r) by done.
  rewrite !test_bit_spec by done. rewrite Hn, Hb by lia. simpl.
  destruct (Nat.leb_spec (bs_nbits s) i); [lia|done].
Qed.
Lemma flip_test s : wf s →
  ∃ s', do_flip s = Some s' ∧ wf s' ∧ bs_nbits s' = bs_nbits s ∧
    ∀ i, i < bs_nbits s → test_bit s' i = (a ← test_bit s i; Some (negb a)).
Proof.
  intros Hs. pose proof Hs as (_ & _ & Hc).
  destruct (do_flip_spec s Hs) as (s' & E & Hwf & Hn & _ & Hb).
  exists s'. split_and!; try done. intros i Hi.
  rewrite !test_bit_spec by done. rewrite Hn, Hb by lia. simpl.
  destruct (Nat.leb_spec (bs_nbits s) i); [lia|done].
Qed.
Lemma logic_example :
  let s := BitSet [7; 7; 7]%N 24 in let r := BitSet [5; 3]%N 12 in
  wf s ∧ wf r ∧ clean r ∧
  (t ← and_equal s r; Some (bs_data t)) = Some [5; 3; 0]%N ∧
  (t ← or_equal s r; Some (bs_data t)) = Some [7; 7; 7]%N ∧
  (t ← xor_equal s r; Some (bs_data t)) = Some [2; 4; 7]%N.
Proof. split_and!; [by apply wfb_wf|by apply wfb_wf|by apply cleanb_clean|done..]. Qed.

Lemma shift_left_test s k : wf s → k ≤ capacity s →
  ∃ s', shift_left s k = Some s' ∧ wf s' ∧ bs_nbits s' = bs_nbits s ∧
    ∀ i, i < bs_nbits s → test_bit s' i = if i <? k then Some false else test_bit s (i - k).
Proof.
  intros Hs Hk. pose proof Hs as (_ & _ & Hc).
  destruct (shift_left_spec s k Hs Hk) as (s' & E & Hwf & Hn & _ & Hb).
  exists s'. split_and!; try done. intros i Hi.
  rewrite !test_bit_spec by done. rewrite Hn, Hb by lia.
  destruct (Nat.leb_spec (bs_nbits s) i); [lia|].
  destruct (Nat.ltb_spec i k); [done|]. destruct (Nat.leb_spec (bs_nbits s) (i - k)); [lia|done].
Qed.
Lemma shift_right_test s k : wf s → clean s → k < capacity s →
  ∃ s', shift_right s k = Some s' ∧ wf s' ∧ bs_nbits s' = bs_nbits s ∧
    ∀ i, test_bit s' i = test_bit s (i + k).
Proof.
  intros Hs Cs Hk. destruct (shift_right_spec s k Hs Hk) as (s' & E & Hwf & Hn & _ & Hb).
  exists s'. split_and!; try done. intros i. rewrite (test_bit_clean s) by done.
  rewrite test_bit_spec by done. rewrite Hn, Hb.
  destruct (Nat.leb_spec (bs_nbits s) i); [|done]. by rewrite Cs by lia.
Qed.
Lemma shift_example :
  let s := BitSet [129; 3]%N 16 in
  wf s ∧ clean s ∧ 11 ≤ capacity s ∧
  (t ← shift_left s 3; Some (bs_data t)) = Some [8; 28]%N ∧
  (t ← shift_right s 7; Some (bs_data t)) = Some [7; 0]%N ∧
  (t ← shift_left s 16; Some (bs_data t)) = Some [0; 0]%N.
Proof. split_and!; [by apply wfb_wf|by apply cleanb_clean|vm_compute; lia|done..]. Qed.

Lemma reset_all_false_test s : wf s →
  ∃ s', reset_all s false = Some s' ∧ wf s' ∧ bs_nbits s' = bs_nbits s ∧
        ∀ i, test_bit s' i = Some false.
Proof.
  intros Hs. destruct (reset_all_false s Hs) as (s' & E & Hwf & Hn & _ & Hb).
  exists s'. split_and!; try done. intros i. rewrite test_bit_spec by done. rewrite Hb.
  by destruct (bs_nbits s' <=? i).
Qed.
Lemma reset_all_true_wrong :
  ∃ s', reset_all (make_instance 8) true = Some s' ∧ test_bit s' 1 = Some false.
Proof. eexists. split; [vm_compute; reflexivity|done]. Qed.
Lemma set_get_raw' s n array :
  wf s → n ≤ capacity s → (n + 7) / 8 ≤ length array → Forall (λ b, (b < 256)%N) array →
  ∃ s', set_raw s n array = Some (s', true) ∧ wf s' ∧ bs_nbits s' = n ∧
    get_raw s' = Some (take ((n + 7) / 8) array) ∧
    ∀ i, i < n → test_bit s' i = Some (raw_bit array i).
Proof.
  intros H1 H2 H3 H4. destruct (set_get_raw s n array H1 H3 H4 H2) as (s' & ? & ? & ? & ? & ? & ?).
  eauto 10.
Qed.
Lemma equality_example :
  let s := BitSet [5]%N 3 in let o := BitSet [5; 0; 0]%N 20 in
  wf s ∧ wf o ∧ clean s ∧ clean o ∧ bs_eq s o = Some true.
Proof. split_and!; [by apply wfb_wf|by apply wfb_wf|by apply cleanb_clean|by apply cleanb_clean|done]. Qed.
Lemma equality_after_shift_wrong :
  ∃ s o, bs_run (make_instance 3) [OpSet 2 true; OpShl 2] = Some s ∧ o = make_instance 3 ∧
    bs_eq s o = Some false ∧ ∀ i, test_bit s i = test_bit o i.
Proof.
  eexists. eexists. split; [vm_compute; reflexivity|]. split; [reflexivity|]. split; [done|].
  intros i. destruct i as [|[|[|i]]]; done.
Qed.
Lemma assign_smaller_ub :
  ∃ s' , assign (make_instance 8) (BitSet [1; 1]%N 16) = Some s' ∧ test_bit s' 8 = None.
Proof. eexists. split; [vm_compute; reflexivity|done]. Qed.
Lemma copy_example :
  let o := BitSet [5; 2]%N 10 in
  wf o ∧ clean o ∧ bs_nbits o ≤ capacity (make_instance 30) ∧
  (c ← make_copy_sized [9; 9; 9; 9]%N o; Some (bs_data c, bs_nbits c)) = Some ([5; 2; 0; 0]%N, 32).
Proof. split_and!; [by apply wfb_wf|by apply cleanb_clean|vm_compute; lia|done]. Qed.
