(** Proofs about the BitSet model. *)
From stdpp Require Import list option.
From Coq Require Import NArith Arith Lia ZifyBool ZifyNat ZifyN.
From Verif Require Import BitSetModel BitSetSpec.
Local Open Scope nat_scope.
Ltac Zify.zify_post_hook ::= Z.div_mod_to_equations.
Arguments Nat.div : simpl never.
Arguments N.lxor : simpl never.
Arguments N.land : simpl never.
Arguments N.lor : simpl never.
Arguments N.shiftl : simpl never.
Arguments N.shiftr : simpl never.
Arguments N.testbit : simpl never.
Arguments N.of_nat : simpl never.
Arguments Nat.modulo : simpl never.
Arguments Nat.mul : simpl never.
Arguments Nat.sub : simpl never.

(** * Bytes *)
Lemma bitmask_testbit k j : N.testbit (bitmask k) (N.of_nat j) = (k =? j).
Proof.
  unfold bitmask. rewrite N.shiftl_1_l, N.pow2_bits_eqb.
  destruct (Nat.eqb_spec k j) as [->|H]; [apply N.eqb_refl|].
  apply N.eqb_neq. lia.
Qed.

Lemma ones8_testbit j : N.testbit 255 (N.of_nat j) = (j <? 8).
Proof.
  change 255%N with (N.ones 8).
  destruct (Nat.ltb_spec j 8).
  - apply N.ones_spec_low. lia.
  - apply N.ones_spec_high. lia.
Qed.

Lemma byte_lt_testbit b : (b < 256)%N ↔ ∀ j, 8 ≤ j → N.testbit b (N.of_nat j) = false.
Proof.
  split.
  - intros H j Hj. destruct (decide (b = 0%N)) as [->|]; [apply N.bits_0|].
    apply N.bits_above_log2.
    assert (N.log2 b < 8)%N; [|lia]. apply N.log2_lt_pow2; [lia|]. exact H.
  - intros H. assert (b = N.land b 255) as ->.
    { apply N.bits_inj. intros n. rewrite N.land_spec.
      replace n with (N.of_nat (N.to_nat n)) by lia. rewrite ones8_testbit.
      destruct (Nat.ltb_spec (N.to_nat n) 8) as [|Hn]; [by rewrite andb_true_r|].
      rewrite (H _ Hn). done. }
    change 255%N with (N.ones 8). rewrite N.land_ones.
    apply N.mod_lt. discriminate.
Qed.

Lemma land_bitmask_eqb b k : negb (N.land b (bitmask k) =? 0)%N = N.testbit b (N.of_nat k).
Proof.
  destruct (N.testbit b (N.of_nat k)) eqn:E.
  - apply negb_true_iff, N.eqb_neq. intros H.
    assert (N.testbit (N.land b (bitmask k)) (N.of_nat k) = false) as H1.
    { rewrite H. apply N.bits_0. }
    rewrite N.land_spec, E, bitmask_testbit, Nat.eqb_refl in H1. done.
  - apply negb_false_iff, N.eqb_eq. apply N.bits_inj. intros n.
    replace n with (N.of_nat (N.to_nat n)) by lia.
    rewrite N.land_spec, bitmask_testbit, N.bits_0.
    destruct (Nat.eqb_spec k (N.to_nat n)) as [->|]; [by rewrite E|by rewrite andb_false_r].
Qed.

Lemma set_byte_testbit b k v j : j < 8 →
  N.testbit (if (v : bool) then N.lor b (bitmask k) else N.land b (N.lxor 255 (bitmask k)))
            (N.of_nat j)
  = if k =? j then v else N.testbit b (N.of_nat j).
Proof.
  intros Hj. destruct v.
  - rewrite N.lor_spec, bitmask_testbit.
    destruct (k =? j); [apply orb_true_r|apply orb_false_r].
  - rewrite N.land_spec, N.lxor_spec, ones8_testbit, bitmask_testbit.
    replace (j <? 8) with true by (symmetry; apply Nat.ltb_lt; lia).
    destruct (k =? j); simpl; [apply andb_false_r|apply andb_true_r].
Qed.

Lemma set_byte_lt b k (v : bool) : (b < 256)%N → k < 8 →
  ((if v then N.lor b (bitmask k) else N.land b (N.lxor 255 (bitmask k))) < 256)%N.
Proof.
  intros Hb Hk. apply byte_lt_testbit. intros j Hj.
  apply byte_lt_testbit with (j:=j) in Hb; [|done].
  destruct v.
  - rewrite N.lor_spec, bitmask_testbit, Hb. simpl. apply Nat.eqb_neq. lia.
  - by rewrite N.land_spec, Hb.
Qed.

Lemma uchar_lt x : (to_uchar x < 256)%N.
Proof.
  unfold to_uchar. change 255%N with (N.ones 8). rewrite N.land_ones. apply N.mod_lt. discriminate.
Qed.

Lemma uchar_testbit x j : j < 8 → N.testbit (to_uchar x) (N.of_nat j) = N.testbit x (N.of_nat j).
Proof.
  intros. unfold to_uchar. rewrite N.land_spec, ones8_testbit.
  replace (j <? 8) with true by (symmetry; apply Nat.ltb_lt; lia). apply andb_true_r.
Qed.

(** * Buffers *)
Lemma store_spec d i v : i < length d → store d i v = Some (<[i:=v]> d).
Proof. intros. unfold store. by rewrite decide_True. Qed.

Lemma raw_bit_insert d i v j : i < length d →
  raw_bit (<[i:=v]> d) j = if i =? j / 8 then N.testbit v (N.of_nat (j mod 8)) else raw_bit d j.
Proof.
  intros Hi. unfold raw_bit. destruct (Nat.eqb_spec i (j / 8)) as [<-|Hne].
  - by rewrite list_lookup_insert.
  - by rewrite list_lookup_insert_ne.
Qed.

Lemma raw_bit_ge d i : 8 * length d ≤ i → raw_bit d i = false.
Proof.
  intros. unfold raw_bit. rewrite lookup_ge_None_2; [done|]. lia.
Qed.

Lemma raw_bit_lookup d i b : d !! (i / 8) = Some b → raw_bit d i = N.testbit b (N.of_nat (i mod 8)).
Proof. intros H. unfold raw_bit. by rewrite H. Qed.

Lemma raw_bit_byte d n b j : d !! n = Some b → j < 8 →
  raw_bit d (8 * n + j) = N.testbit b (N.of_nat j).
Proof.
  intros H Hj. unfold raw_bit.
  replace ((8 * n + j) / 8) with n by lia. replace ((8 * n + j) mod 8) with j by lia. by rewrite H.
Qed.

Lemma memset_spec d from n v : from + n ≤ length d →
  ∃ d', memset d from n v = Some d' ∧ length d' = length d ∧
        ∀ i, d' !! i = if decide (from ≤ i < from + n) then Some v else d !! i.
Proof.
  revert d from. induction n as [|n IH]; intros d from H; simpl.
  - exists d. split_and!; [done|done|]. intros i. by rewrite decide_False by lia.
  - rewrite store_spec by lia. simpl.
    destruct (IH (<[from:=v]> d) (S from)) as (d' & -> & Hl & Hd').
    { rewrite insert_length. lia. }
    exists d'. split_and!; [done|by rewrite Hl, insert_length|].
    intros i. rewrite Hd'. destruct (decide (i = from)) as [->|].
    + rewrite decide_False by lia. rewrite decide_True by lia.
      apply list_lookup_insert. lia.
    + destruct (decide (S from ≤ i < S from + n)).
      * by rewrite decide_True by lia.
      * rewrite decide_False by lia. by apply list_lookup_insert_ne.
Qed.

Lemma memcpy_spec d src from n : from + n ≤ length d → from + n ≤ length src →
  ∃ d', memcpy d src from n = Some d' ∧ length d' = length d ∧
        ∀ i, d' !! i = if decide (from ≤ i < from + n) then src !! i else d !! i.
Proof.
  revert d from. induction n as [|n IH]; intros d from H Hs; simpl.
  - exists d. split_and!; [done|done|]. intros i. by rewrite decide_False by lia.
  - destruct (lookup_lt_is_Some_2 src from) as [b Hb]; [lia|]. rewrite Hb. simpl.
    rewrite store_spec by lia. simpl.
    destruct (IH (<[from:=b]> d) (S from)) as (d' & -> & Hl & Hd').
    { rewrite insert_length. lia. } { lia. }
    exists d'. split_and!; [done|by rewrite Hl, insert_length|].
    intros i. rewrite Hd'. destruct (decide (i = from)) as [->|].
    + rewrite decide_False by lia. rewrite decide_True by lia. rewrite Hb.
      apply list_lookup_insert. lia.
    + destruct (decide (S from ≤ i < S from + n)).
      * by rewrite decide_True by lia.
      * rewrite decide_False by lia. by apply list_lookup_insert_ne.
Qed.

Lemma zip_loop_spec f d r from n : from + n ≤ length d → from + n ≤ length r →
  ∃ d', zip_loop f d r from n = Some d' ∧ length d' = length d ∧
        ∀ i, d' !! i = if decide (from ≤ i < from + n)
                       then (a ← d !! i; b ← r !! i; Some (f a b)) else d !! i.
Proof.
  revert d from. induction n as [|n IH]; intros d from H Hs; simpl.
  - exists d. split_and!; [done|done|]. intros i. by rewrite decide_False by lia.
  - destruct (lookup_lt_is_Some_2 d from) as [a Ha]; [lia|]. rewrite Ha. simpl.
    destruct (lookup_lt_is_Some_2 r from) as [b Hb]; [lia|]. rewrite Hb. simpl.
    rewrite store_spec by lia. simpl.
    destruct (IH (<[from:=f a b]> d) (S from)) as (d' & -> & Hl & Hd').
    { rewrite insert_length. lia. } { lia. }
    exists d'. split_and!; [done|by rewrite Hl, insert_length|].
    intros i. rewrite Hd'. destruct (decide (i = from)) as [->|].
    + rewrite decide_False by lia. rewrite decide_True by lia. rewrite Ha, Hb. simpl.
      apply list_lookup_insert. lia.
    + rewrite !list_lookup_insert_ne by done. destruct (decide (S from ≤ i < S from + n)).
      * by rewrite decide_True by lia.
      * by rewrite decide_False by lia.
Qed.

(** * Well-formedness, observables *)
Lemma nbytes_for_pos n : 0 < nbytes_for n.
Proof. unfold nbytes_for. lia. Qed.

Lemma nbytes_for_ge n : n ≤ 8 * nbytes_for n.
Proof. unfold nbytes_for. destruct (Nat.eqb_spec n 0); lia. Qed.

Lemma wf_make n : wf (make_instance n).
Proof.
  unfold wf, make_instance, capacity. simpl. rewrite replicate_length.
  split_and!; [apply nbytes_for_pos| |apply nbytes_for_ge].
  apply Forall_replicate. done.
Qed.

Lemma clean_make n : clean (make_instance n).
Proof.
  intros i _. unfold make_instance, raw_bit. simpl.
  destruct (replicate _ _ !! _) eqn:E; [|done].
  apply lookup_replicate in E as [-> _]. apply N.bits_0.
Qed.

Lemma test_bit_spec s i : wf s →
  test_bit s i = Some (if bs_nbits s <=? i then false else raw_bit (bs_data s) i).
Proof.
  intros (_ & _ & Hc). unfold test_bit, raw_bit, capacity in *.
  destruct (Nat.leb_spec (bs_nbits s) i); [done|].
  destruct (lookup_lt_is_Some_2 (bs_data s) (i / 8)) as [b Hb]; [lia|].
  rewrite Hb. simpl. by rewrite land_bitmask_eqb.
Qed.

Lemma test_bit_clean s i : wf s → clean s → test_bit s i = Some (raw_bit (bs_data s) i).
Proof.
  intros Hwf Hcl. rewrite test_bit_spec by done.
  destruct (Nat.leb_spec (bs_nbits s) i); [|done]. by rewrite Hcl.
Qed.

Lemma wf_byte s n b : wf s → bs_data s !! n = Some b → (b < 256)%N.
Proof. intros (_ & HF & _) H. by eapply Forall_lookup_1 in HF. Qed.

(** SetBitNumber *)
Lemma set_bit_spec s i v : wf s →
  ∃ s', set_bit s i v = Some (s', i <? capacity s) ∧ wf s' ∧
        capacity s' = capacity s ∧
        bs_nbits s' = (if i <? capacity s then Nat.max (bs_nbits s) (i + 1) else bs_nbits s) ∧
        ∀ j, raw_bit (bs_data s') j =
             if (i =? j) && (i <? capacity s) then v else raw_bit (bs_data s) j.
Proof.
  intros Hwf. pose proof Hwf as (Hpos & HF & Hc). unfold set_bit, get_nbytes, capacity in *.
  assert (∀ nb, i / 8 < length (bs_data s) → nb ≤ 8 * length (bs_data s) →
     ∃ s', (b ← bs_data s !! (i/8); d ← store (bs_data s) (i/8)
          (if v then N.lor b (bitmask (i mod 8))
           else N.land b (N.lxor 255 (bitmask (i mod 8))));
         Some (BitSet d nb, true)) = Some (s', true) ∧ wf s' ∧ length (bs_data s') = length (bs_data s) ∧ bs_nbits s' = nb ∧
        ∀ j, raw_bit (bs_data s') j = if i =? j then v else raw_bit (bs_data s) j) as Hgo.
  { intros nb Hi Hnb. destruct (lookup_lt_is_Some_2 (bs_data s) (i / 8)) as [b Hb]; [done|].
    rewrite Hb. simpl. rewrite store_spec by done. simpl. eexists. split_and!; [done| | | |].
    - split_and!; simpl; rewrite ?insert_length; [done| |unfold capacity; simpl; rewrite insert_length; lia].
      apply Forall_insert; [done|]. apply set_byte_lt; [by eapply wf_byte|lia].
    - simpl. by rewrite insert_length.
    - done.
    - intros j. simpl. rewrite raw_bit_insert by done.
      destruct (Nat.eqb_spec (i/8) (j/8)) as [E|E].
      + rewrite set_byte_testbit by lia. rewrite E in Hb. rewrite (raw_bit_lookup _ _ _ Hb).
        destruct (Nat.eqb_spec (i mod 8) (j mod 8)), (Nat.eqb_spec i j); try done; subst; lia.
      + destruct (Nat.eqb_spec i j); [subst; lia|done]. }
  destruct (Nat.leb_spec (bs_nbits s) i) as [Hle|Hlt].
  - destruct (Nat.ltb_spec (length (bs_data s)) (i / 8 + 1)).
    + exists s. replace (i <? 8 * length (bs_data s)) with false by (symmetry; apply Nat.ltb_ge; lia).
      split_and!; [done|done|done|done|]. intros j. by rewrite andb_false_r.
    + replace (i <? 8 * length (bs_data s)) with true by (symmetry; apply Nat.ltb_lt; lia).
      destruct (Hgo (i + 1)) as (s' & -> & ? & ? & Hn & Hb); [lia|lia|].
      exists s'. split_and!; [done|done|lia|lia|]. intros j. rewrite Hb. by rewrite andb_true_r.
  - replace (i <? 8 * length (bs_data s)) with true by (symmetry; apply Nat.ltb_lt; lia).
    destruct (Hgo (bs_nbits s)) as (s' & -> & ? & ? & Hn & Hb); [lia|lia|].
    exists s'. split_and!; [done|done|lia|lia|]. intros j. rewrite Hb. by rewrite andb_true_r.
Qed.

Lemma set_bit_clean s i v s' r : wf s → clean s → set_bit s i v = Some (s', r) → clean s'.
Proof.
  intros Hwf Hcl H. destruct (set_bit_spec s i v Hwf) as (s'' & E & _ & _ & Hn & Hb).
  rewrite H in E. injection E as <- ->. intros j Hj. rewrite Hb. rewrite Hn in Hj.
  destruct (Nat.ltb_spec i (capacity s)).
  - destruct (Nat.eqb_spec i j); simpl; [lia|]. apply Hcl. lia.
  - rewrite andb_false_r. by apply Hcl.
Qed.

(** Write histories *)
Definition lw_from (cap : nat) (f : nat → bool) (ws : list (nat * bool)) (i : nat) : bool :=
  if i <? cap then
    match List.find (λ w, fst w =? i) (rev ws) with Some w => snd w | None => f i end
  else f i.

Lemma find_app {A} (p : A → bool) l1 l2 :
  List.find p (l1 ++ l2) = match List.find p l1 with Some x => Some x | None => List.find p l2 end.
Proof. induction l1; simpl; [done|]. by destruct (p a). Qed.

Lemma run_writes_spec ws s : wf s → clean s →
  ∃ s' rets, run_writes s ws = Some (s', rets) ∧ wf s' ∧ clean s' ∧ capacity s' = capacity s ∧
    rets = map (λ w, fst w <? capacity s) ws ∧
    ∀ i, raw_bit (bs_data s') i = lw_from (capacity s) (raw_bit (bs_data s)) ws i.
Proof.
  revert s. induction ws as [|[k v] ws IH]; intros s Hwf Hcl; simpl.
  - exists s, []. split_and!; try done. intros i. unfold lw_from. simpl. by destruct (i <? _).
  - destruct (set_bit_spec s k v Hwf) as (s1 & E & Hwf1 & Hc1 & Hn1 & Hb1).
    pose proof (set_bit_clean _ _ _ _ _ Hwf Hcl E) as Hcl1. rewrite E. simpl.
    destruct (IH s1 Hwf1 Hcl1) as (s2 & rets & -> & Hwf2 & Hcl2 & Hc2 & Hr & Hb2). simpl.
    exists s2, ((k <? capacity s) :: rets).
    split_and!; try done; [congruence|by rewrite Hr, Hc1|].
    intros i. rewrite Hb2, Hc1. unfold lw_from. simpl. rewrite find_app. simpl.
    destruct (Nat.ltb_spec i (capacity s)) as [Hi|Hi].
    + destruct (List.find _ (rev ws)) as [[]|]; [done|]. rewrite Hb1.
      destruct (Nat.eqb_spec k i) as [->|]; [|done]. simpl.
      by replace (i <? capacity s) with true by (symmetry; apply Nat.ltb_lt; lia).
    + rewrite Hb1. destruct (Nat.eqb_spec k i) as [->|]; [|done]. simpl.
      by replace (i <? capacity s) with false by (symmetry; apply Nat.ltb_ge; lia).
Qed.

Lemma last_write n ws i :
  ∃ s rets, run_writes (make_instance n) ws = Some (s, rets) ∧
    test_bit s i = Some (last_written (8 * nbytes_for n) ws i) ∧
    rets = map (λ w, fst w <? 8 * nbytes_for n) ws.
Proof.
  destruct (run_writes_spec ws (make_instance n) (wf_make n) (clean_make n))
    as (s & rets & E & Hwf & Hcl & _ & Hr & Hb).
  assert (capacity (make_instance n) = 8 * nbytes_for n) as HC.
  { unfold capacity, make_instance. simpl. by rewrite replicate_length. }
  rewrite HC in *.
  exists s, rets. split_and!; [done| |done].
  rewrite test_bit_clean by done. rewrite Hb. unfold lw_from, last_written.
  assert (∀ i, raw_bit (bs_data (make_instance n)) i = false) as H0.
  { intros j. destruct (decide (n ≤ j)); [by apply clean_make|].
    unfold make_instance, raw_bit. simpl. destruct (replicate _ _ !! _) eqn:E'; [|done].
    apply lookup_replicate in E' as [-> _]. apply N.bits_0. }
  by rewrite !H0.
Qed.

(** * Logical operators *)
Lemma raw_bit_out d i : length d ≤ i / 8 → raw_bit d i = false.
Proof. intros. apply raw_bit_ge. lia. Qed.

Lemma raw_bit_eq d d' i : d' !! (i / 8) = d !! (i / 8) → raw_bit d' i = raw_bit d i.
Proof. unfold raw_bit. by intros ->. Qed.

Definition bytes_ok (d : list N) : Prop := Forall (λ b, (b < 256)%N) d.

Lemma bytes_ok_lookup d : (∀ i b, d !! i = Some b → (b < 256)%N) → bytes_ok d.
Proof. intros. by apply Forall_lookup_2. Qed.

Definition lbyte (f : N → N → N) : Prop :=
  ∀ a b, (a < 256)%N → (b < 256)%N → (f a b < 256)%N.

Lemma bitwise_lbyte f g : (∀ a b n, N.testbit (f a b) n = g (N.testbit a n) (N.testbit b n)) →
  g false false = false → lbyte f.
Proof.
  intros Hf Hg a b Ha Hb. apply byte_lt_testbit. intros j Hj.
  rewrite Hf. rewrite !(proj1 (byte_lt_testbit _)) by done. done.
Qed.
Lemma lbyte_land : lbyte N.land. Proof. apply (bitwise_lbyte _ andb); [apply N.land_spec|done]. Qed.
Lemma lbyte_lor : lbyte N.lor. Proof. apply (bitwise_lbyte _ orb); [apply N.lor_spec|done]. Qed.
Lemma lbyte_lxor : lbyte N.lxor. Proof. apply (bitwise_lbyte _ xorb); [apply N.lxor_spec|done]. Qed.

Lemma zip_bits f g d r d' m :
  (∀ a b n, N.testbit (f a b) n = g (N.testbit a n) (N.testbit b n)) →
  m ≤ length d → m ≤ length r →
  (∀ i, d' !! i = if decide (0 ≤ i < 0 + m)
                  then (a ← d !! i; b ← r !! i; Some (f a b)) else d !! i) →
  ∀ i, raw_bit d' i = if decide (i / 8 < m) then g (raw_bit d i) (raw_bit r i) else raw_bit d i.
Proof.
  intros Hf Hd Hr H i. unfold raw_bit. rewrite H.
  destruct (decide (0 ≤ i / 8 < 0 + m)) as [Hi|Hi]; [rewrite decide_True by lia|by rewrite decide_False by lia].
  destruct (lookup_lt_is_Some_2 d (i / 8)) as [a Ha]; [lia|].
  destruct (lookup_lt_is_Some_2 r (i / 8)) as [b Hb]; [lia|].
  rewrite Ha, Hb. simpl. apply Hf.
Qed.

Lemma zip_bytes_ok f d r d' m : lbyte f → bytes_ok d → bytes_ok r →
  (∀ i, d' !! i = if decide (0 ≤ i < 0 + m)
                  then (a ← d !! i; b ← r !! i; Some (f a b)) else d !! i) → bytes_ok d'.
Proof.
  intros Hf Hd Hr H. apply bytes_ok_lookup. intros i b Hi. rewrite H in Hi.
  destruct (decide _).
  - destruct (d !! i) as [x|] eqn:E1; [|done]. destruct (r !! i) as [y|] eqn:E2; [|done].
    injection Hi as <-. apply Hf; [by eapply Forall_lookup_1 in Hd|by eapply Forall_lookup_1 in Hr].
  - by eapply Forall_lookup_1 in Hd.
Qed.

Lemma and_equal_spec s r : wf s → wf r →
  ∃ s', and_equal s r = Some s' ∧ wf s' ∧ bs_nbits s' = bs_nbits s ∧ capacity s' = capacity s ∧
    ∀ i, raw_bit (bs_data s') i = raw_bit (bs_data s) i && raw_bit (bs_data r) i.
Proof.
  intros (Hp & Hs & Hn) (Hp' & Hr & Hn'). unfold and_equal, get_nbytes, capacity in *.
  set (m := if length (bs_data s) <? length (bs_data r) then length (bs_data s) else length (bs_data r)).
  assert (m = Nat.min (length (bs_data s)) (length (bs_data r))) as Hm.
  { unfold m. destruct (Nat.ltb_spec (length (bs_data s)) (length (bs_data r))); lia. }
  clearbody m.
  destruct (zip_loop_spec N.land (bs_data s) (bs_data r) 0 m) as (d1 & -> & Hl1 & H1); [lia|lia|].
  simpl. pose proof (zip_bytes_ok _ _ _ _ _ lbyte_land Hs Hr H1) as Hok1.
  pose proof (zip_bits _ andb (bs_data s) (bs_data r) d1 m N.land_spec ltac:(lia) ltac:(lia) H1) as Hb1.
  destruct (Nat.ltb_spec m (length (bs_data s))) as [Hlt|Hge].
  - destruct (memset_spec d1 m (length (bs_data s) - m) 0%N) as (d2 & -> & Hl2 & H2); [lia|].
    simpl. eexists. split_and!; [done| |done| |].
    + split_and!; simpl; [lia| |unfold capacity; simpl; lia].
      apply bytes_ok_lookup. intros i b. rewrite H2. destruct (decide _).
      * intros [= <-]. done.
      * intros. by eapply Forall_lookup_1 in Hok1.
    + simpl. lia.
    + intros i. simpl. destruct (decide (m ≤ i / 8)) as [Hi|Hi].
      * rewrite (raw_bit_out (bs_data r)) by lia. rewrite andb_false_r.
        unfold raw_bit. rewrite H2. destruct (decide _); [apply N.bits_0|].
        rewrite lookup_ge_None_2; [done|lia].
      * rewrite (raw_bit_eq d1).
        -- rewrite Hb1. by rewrite decide_True by lia.
        -- rewrite H2. by rewrite decide_False by lia.
  - simpl. eexists. split_and!; [done| |done| |].
    + split_and!; simpl; [lia|done|unfold capacity; simpl; lia].
    + simpl. lia.
    + intros i. simpl. rewrite Hb1. destruct (decide (i / 8 < m)); [done|].
      rewrite raw_bit_out by lia. done.
Qed.

Lemma zip_equal_spec f g s r :
  (∀ a b n, N.testbit (f a b) n = g (N.testbit a n) (N.testbit b n)) →
  g false false = false → (∀ b, g b false = b) → wf s → wf r →
  ∃ s', (let m := if get_nbytes s <? get_nbytes r then get_nbytes s else get_nbytes r in
         d ← zip_loop f (bs_data s) (bs_data r) 0 m; Some (BitSet d (bs_nbits s))) = Some s' ∧
    wf s' ∧ bs_nbits s' = bs_nbits s ∧ capacity s' = capacity s ∧
    ∀ i, i < capacity s → raw_bit (bs_data s') i = g (raw_bit (bs_data s) i) (raw_bit (bs_data r) i).
Proof.
  intros Hf Hg Hg' (Hp & Hs & Hn) (Hp' & Hr & Hn'). unfold get_nbytes, capacity in *.
  set (m := if length (bs_data s) <? length (bs_data r) then length (bs_data s) else length (bs_data r)).
  assert (m = Nat.min (length (bs_data s)) (length (bs_data r))) as Hm.
  { unfold m. destruct (Nat.ltb_spec (length (bs_data s)) (length (bs_data r))); lia. }
  clearbody m. simpl.
  destruct (zip_loop_spec f (bs_data s) (bs_data r) 0 m) as (d1 & -> & Hl1 & H1); [lia|lia|].
  simpl. pose proof (zip_bytes_ok _ _ _ _ _ (bitwise_lbyte _ _ Hf Hg) Hs Hr H1) as Hok1.
  pose proof (zip_bits _ g (bs_data s) (bs_data r) d1 m Hf ltac:(lia) ltac:(lia) H1) as Hb1.
  eexists. split_and!; [done| |done|simpl; lia|].
  - split_and!; simpl; [lia|done|unfold capacity; simpl; lia].
  - intros i Hi. simpl. rewrite Hb1. destruct (decide (i / 8 < m)); [done|].
    rewrite (raw_bit_out (bs_data r)) by lia. done.
Qed.

Lemma or_equal_spec s r : wf s → wf r →
  ∃ s', or_equal s r = Some s' ∧ wf s' ∧ bs_nbits s' = bs_nbits s ∧ capacity s' = capacity s ∧
    ∀ i, i < capacity s → raw_bit (bs_data s') i = raw_bit (bs_data s) i || raw_bit (bs_data r) i.
Proof. apply zip_equal_spec; [apply N.lor_spec|done|apply orb_false_r]. Qed.

Lemma xor_equal_spec s r : wf s → wf r →
  ∃ s', xor_equal s r = Some s' ∧ wf s' ∧ bs_nbits s' = bs_nbits s ∧ capacity s' = capacity s ∧
    ∀ i, i < capacity s → raw_bit (bs_data s') i = xorb (raw_bit (bs_data s) i) (raw_bit (bs_data r) i).
Proof. apply zip_equal_spec; [apply N.lxor_spec|done|apply xorb_false_r]. Qed.

Lemma flip_loop_spec d from n : from + n ≤ length d →
  ∃ d', flip_loop d from n = Some d' ∧ length d' = length d ∧
        ∀ i, d' !! i = if decide (from ≤ i < from + n) then N.lxor 255 <$> d !! i else d !! i.
Proof.
  revert d from. induction n as [|n IH]; intros d from H; simpl.
  - exists d. split_and!; [done|done|]. intros i. by rewrite decide_False by lia.
  - destruct (lookup_lt_is_Some_2 d from) as [b Hb]; [lia|]. rewrite Hb. simpl.
    rewrite store_spec by lia. simpl.
    destruct (IH (<[from:=N.lxor 255 b]> d) (S from)) as (d' & -> & Hl & Hd').
    { rewrite insert_length. lia. }
    exists d'. split_and!; [done|by rewrite Hl, insert_length|].
    intros i. rewrite Hd'. destruct (decide (i = from)) as [->|].
    + rewrite decide_False by lia. rewrite decide_True by lia. rewrite Hb. simpl.
      apply list_lookup_insert. lia.
    + rewrite !list_lookup_insert_ne by done. destruct (decide (S from ≤ i < S from + n)).
      * by rewrite decide_True by lia.
      * by rewrite decide_False by lia.
Qed.

Lemma do_flip_spec s : wf s →
  ∃ s', do_flip s = Some s' ∧ wf s' ∧ bs_nbits s' = bs_nbits s ∧ capacity s' = capacity s ∧
    ∀ i, i < capacity s → raw_bit (bs_data s') i = negb (raw_bit (bs_data s) i).
Proof.
  intros (Hp & Hs & Hn). unfold do_flip, get_nbytes, capacity in *.
  destruct (flip_loop_spec (bs_data s) 0 (length (bs_data s))) as (d1 & -> & Hl & H1); [lia|].
  simpl. eexists. split_and!; [done| |done|simpl; lia|].
  - split_and!; simpl; [lia| |unfold capacity; simpl; lia].
    apply bytes_ok_lookup. intros i b. rewrite H1. destruct (decide _).
    + destruct (bs_data s !! i) eqn:E; simpl; [|done]. intros [= <-].
      apply lbyte_lxor; [done|]. by eapply Forall_lookup_1 in Hs.
    + intros. by eapply Forall_lookup_1 in Hs.
  - intros i Hi. simpl. unfold raw_bit. rewrite H1. rewrite decide_True by lia.
    destruct (lookup_lt_is_Some_2 (bs_data s) (i/8)) as [b Hb]; [lia|]. rewrite Hb. simpl.
    rewrite N.lxor_spec, ones8_testbit. replace (i mod 8 <? 8) with true; [done|].
    symmetry. apply Nat.ltb_lt. lia.
Qed.

(** * Shifts *)
Lemma shl_loop0_spec d ws n cnt : 1 ≤ ws → n < length d → cnt + ws ≤ n + 1 →
  ∃ d', shl_loop0 d ws n cnt = Some d' ∧ length d' = length d ∧
        ∀ i, d' !! i = if decide (n < i + cnt ∧ i ≤ n) then d !! (i - ws) else d !! i.
Proof.
  revert d n. induction cnt as [|cnt IH]; intros d n Hws Hn Hc; simpl.
  - exists d. split_and!; [done|done|]. intros i. by rewrite decide_False by lia.
  - destruct (lookup_lt_is_Some_2 d (n - ws)) as [b Hb]; [lia|]. rewrite Hb. simpl.
    rewrite store_spec by lia. simpl.
    destruct (IH (<[n:=b]> d) (n - 1)) as (d' & -> & Hl & Hd'); [done|rewrite insert_length; lia|lia|].
    exists d'. split_and!; [done|by rewrite Hl, insert_length|].
    intros i. rewrite Hd'. destruct (decide (i = n)) as [->|].
    + rewrite decide_False by lia. rewrite decide_True by lia. rewrite Hb.
      apply list_lookup_insert. lia.
    + destruct (decide (n - 1 < i + cnt ∧ i ≤ n - 1)).
      * rewrite decide_True by lia. apply list_lookup_insert_ne. lia.
      * rewrite decide_False by lia. by apply list_lookup_insert_ne.
Qed.

Definition shl_byte (off : nat) (a b : N) : N :=
  to_uchar (N.lor (N.shiftl a (N.of_nat off)) (N.shiftr b (N.of_nat (8 - off)))).

Lemma shl_loop1_spec d ws off n cnt : n < length d → cnt + ws ≤ n →
  ∃ d', shl_loop1 d ws off n cnt = Some d' ∧ length d' = length d ∧
        ∀ i, d' !! i = if decide (n < i + cnt ∧ i ≤ n)
                       then (a ← d !! (i - ws); b ← d !! (i - ws - 1); Some (shl_byte off a b))
                       else d !! i.
Proof.
  revert d n. induction cnt as [|cnt IH]; intros d n Hn Hc; simpl.
  - exists d. split_and!; [done|done|]. intros i. by rewrite decide_False by lia.
  - destruct (lookup_lt_is_Some_2 d (n - ws)) as [a Ha]; [lia|]. rewrite Ha. simpl.
    destruct (lookup_lt_is_Some_2 d (n - ws - 1)) as [b Hb]; [lia|]. rewrite Hb. simpl.
    rewrite store_spec by lia. simpl. fold (shl_byte off a b).
    destruct (IH (<[n:=shl_byte off a b]> d) (n - 1)) as (d' & -> & Hl & Hd');
      [rewrite insert_length; lia|lia|].
    exists d'. split_and!; [done|by rewrite Hl, insert_length|].
    intros i. rewrite Hd'. destruct (decide (i = n)) as [->|].
    + rewrite decide_False by lia. rewrite decide_True by lia. rewrite Ha, Hb. simpl.
      apply list_lookup_insert. lia.
    + destruct (decide (n - 1 < i + cnt ∧ i ≤ n - 1)).
      * rewrite decide_True by lia. rewrite !list_lookup_insert_ne by lia. done.
      * rewrite decide_False by lia. by apply list_lookup_insert_ne.
Qed.

Lemma shl_byte_testbit off a b j : 0 < off < 8 → j < 8 → (b < 256)%N →
  N.testbit (shl_byte off a b) (N.of_nat j) =
  if j <? off then N.testbit b (N.of_nat (j + 8 - off)) else N.testbit a (N.of_nat (j - off)).
Proof.
  intros Ho Hj Hb. unfold shl_byte. rewrite uchar_testbit by done. rewrite N.lor_spec.
  rewrite N.shiftr_spec by lia.
  destruct (Nat.ltb_spec j off).
  - rewrite N.shiftl_spec_low by lia. simpl. f_equal. lia.
  - rewrite N.shiftl_spec_high by lia.
    replace (N.testbit b (N.of_nat j + N.of_nat (8 - off))) with false.
    + rewrite orb_false_r. f_equal. lia.
    + symmetry. replace (N.of_nat j + N.of_nat (8 - off))%N with (N.of_nat (j + (8 - off))) by lia.
      apply byte_lt_testbit; [done|lia].
Qed.

Lemma shl_first_testbit off a j : 0 < off < 8 → j < 8 →
  N.testbit (to_uchar (N.shiftl a (N.of_nat off))) (N.of_nat j) =
  if j <? off then false else N.testbit a (N.of_nat (j - off)).
Proof.
  intros Ho Hj. rewrite uchar_testbit by done.
  destruct (Nat.ltb_spec j off).
  - by rewrite N.shiftl_spec_low by lia.
  - rewrite N.shiftl_spec_high by lia. f_equal. lia.
Qed.

Lemma shift_left_spec s k : wf s → k ≤ capacity s →
  ∃ s', shift_left s k = Some s' ∧ wf s' ∧ bs_nbits s' = bs_nbits s ∧ capacity s' = capacity s ∧
    ∀ i, i < capacity s →
      raw_bit (bs_data s') i = if i <? k then false else raw_bit (bs_data s) (i - k).
Proof.
  intros Hwf Hk. pose proof Hwf as (Hp & Hs & Hn). unfold shift_left, get_nbytes, capacity in *.
  destruct (Nat.eqb_spec k 0) as [->|Hk0].
  { exists s. split_and!; try done. intros i Hi. simpl. f_equal. lia. }
  set (ws := k / 8). set (off := k mod 8). set (nb := length (bs_data s)) in *.
  assert (∀ d, length d = nb → ws ≤ nb →
    (∀ i b, ws ≤ i → d !! i = Some b → (b < 256)%N) →
    (∀ i, ws ≤ i / 8 → i < 8 * nb → raw_bit d i = if i <? k then false else raw_bit (bs_data s) (i - k)) →
    ∃ s', (d' ← memset d 0 ws 0%N; Some (BitSet d' (bs_nbits s))) = Some s' ∧ wf s' ∧
      bs_nbits s' = bs_nbits s ∧ 8 * length (bs_data s') = 8 * nb ∧
    ∀ i, i < 8 * nb →
      raw_bit (bs_data s') i = if i <? k then false else raw_bit (bs_data s) (i - k)) as Hfin.
  { intros d Hl Hw Hok Hb. destruct (memset_spec d 0 ws 0%N) as (d' & -> & Hl' & Hd'); [lia|].
    simpl. eexists. split_and!; [done| |done|simpl; lia|].
    - split_and!; simpl; [lia| |unfold capacity; simpl; lia].
      apply bytes_ok_lookup. intros i b. rewrite Hd'. destruct (decide _); [by intros [= <-]|].
      apply Hok. lia.
    - intros i Hi. simpl. destruct (decide (ws ≤ i / 8)).
      + rewrite <-Hb by lia. apply raw_bit_eq. rewrite Hd'. by rewrite decide_False by lia.
      + unfold raw_bit at 1. rewrite Hd'. rewrite decide_True by lia. rewrite N.bits_0.
        destruct (Nat.ltb_spec i k); [done|]. exfalso. unfold ws in *. lia. }
  destruct (Nat.eqb_spec off 0) as [Ho|Ho].
  - destruct (shl_loop0_spec (bs_data s) ws (nb - 1) (nb - ws)) as (d1 & -> & Hl1 & H1).
    { unfold ws, off in *; lia. } { unfold nb in *; lia. } { unfold ws, off in *; lia. }
    cbn [mbind option_bind].
    apply Hfin; [done|unfold ws, off in *; lia| |].
    + intros i b Hi. rewrite H1. destruct (decide _); intros; by eapply Forall_lookup_1 in Hs.
    + intros i Hi Hi2. unfold raw_bit at 1. rewrite H1. rewrite decide_True by lia.
      destruct (Nat.ltb_spec i k); [unfold ws, off in *; lia|].
      unfold raw_bit. replace ((i - k) / 8) with (i / 8 - ws) by (unfold ws, off in *; lia).
      replace ((i - k) mod 8) with (i mod 8) by (unfold ws, off in *; lia). done.
  - destruct (shl_loop1_spec (bs_data s) ws off (nb - 1) (nb - 1 - ws)) as (d1 & -> & Hl1 & H1).
    { unfold nb in *; lia. } { unfold ws, off in *; lia. }
    cbn [mbind option_bind].
    assert (ws < nb) as Hws by (unfold ws, off in *; lia).
    assert (d1 !! 0 = bs_data s !! 0) as H10.
    { rewrite H1. rewrite decide_False by lia. done. }
    destruct (lookup_lt_is_Some_2 (bs_data s) 0) as [a0 Ha0]; [lia|].
    rewrite H10, Ha0. cbn [mbind option_bind].
    rewrite store_spec by lia. cbn [mbind option_bind].
    apply Hfin; [by rewrite insert_length|lia| |].
    + intros i b Hi. destruct (decide (i = ws)) as [->|].
      * rewrite list_lookup_insert by lia. intros [= <-]. apply uchar_lt.
      * rewrite list_lookup_insert_ne by done. rewrite H1. destruct (decide _).
        -- destruct (_ !! (i - ws)); [|done]. simpl. destruct (_ !! (i - ws - 1)); [|done]. simpl.
           intros [= <-]. apply uchar_lt.
        -- intros. by eapply Forall_lookup_1 in Hs.
    + intros i Hi Hi2. rewrite raw_bit_insert by lia.
      destruct (Nat.eqb_spec ws (i / 8)) as [E|E].
      * rewrite shl_first_testbit by (unfold ws, off in *; lia).
        destruct (Nat.ltb_spec (i mod 8) off), (Nat.ltb_spec i k); try done; try (unfold ws, off in *; lia).
        unfold raw_bit. replace ((i - k) / 8) with 0 by (unfold ws, off in *; lia).
        rewrite Ha0. f_equal. unfold ws, off in *; lia.
      * unfold raw_bit at 1. rewrite H1. rewrite decide_True by lia.
        destruct (lookup_lt_is_Some_2 (bs_data s) (i / 8 - ws)) as [a Ha]; [lia|].
        destruct (lookup_lt_is_Some_2 (bs_data s) (i / 8 - ws - 1)) as [b Hb]; [lia|].
        rewrite Ha, Hb. cbn [mbind option_bind].
        rewrite shl_byte_testbit; [|unfold ws, off in *; lia|lia|by eapply Forall_lookup_1 in Hs].
        destruct (Nat.ltb_spec i k); [unfold ws, off in *; lia|].
        destruct (Nat.ltb_spec (i mod 8) off).
        -- unfold raw_bit. replace ((i - k) / 8) with (i / 8 - ws - 1) by (unfold ws, off in *; lia).
           rewrite Hb. f_equal. unfold ws, off in *; lia.
        -- unfold raw_bit. replace ((i - k) / 8) with (i / 8 - ws) by (unfold ws, off in *; lia).
           rewrite Ha. f_equal. unfold ws, off in *; lia.
Qed.

Lemma memset_overflow d from n v : length d < from + n → 0 < n → memset d from n v = None.
Proof.
  revert d from. induction n as [|n IH]; intros d from H Hn; [lia|]. simpl.
  unfold store. destruct (decide (from < length d)); [|done]. simpl.
  apply IH; rewrite ?insert_length; lia.
Qed.

Lemma shift_left_ub s k : wf s → capacity s < k → shift_left s k = None.
Proof.
  intros (Hp & Hs & Hn) Hk. unfold shift_left, get_nbytes, capacity in *.
  destruct (Nat.eqb_spec k 0); [lia|].
  destruct (Nat.eqb_spec (k mod 8) 0).
  - replace (length (bs_data s) - k / 8) with 0 by lia. simpl.
    rewrite memset_overflow; [done|lia|lia].
  - replace (length (bs_data s) - 1 - k / 8) with 0 by lia. simpl.
    destruct (bs_data s !! 0); [|done]. simpl. unfold store. rewrite decide_False by lia. done.
Qed.

Lemma shr_loop0_spec d ws n cnt : n + ws + cnt ≤ length d →
  ∃ d', shr_loop0 d ws n cnt = Some d' ∧ length d' = length d ∧
        ∀ i, d' !! i = if decide (n ≤ i < n + cnt) then d !! (i + ws) else d !! i.
Proof.
  revert d n. induction cnt as [|cnt IH]; intros d n Hc; simpl.
  - exists d. split_and!; [done|done|]. intros i. by rewrite decide_False by lia.
  - destruct (lookup_lt_is_Some_2 d (n + ws)) as [b Hb]; [lia|]. rewrite Hb. simpl.
    rewrite store_spec by lia. simpl.
    destruct (IH (<[n:=b]> d) (S n)) as (d' & -> & Hl & Hd'); [rewrite insert_length; lia|].
    exists d'. split_and!; [done|by rewrite Hl, insert_length|].
    intros i. rewrite Hd'. destruct (decide (i = n)) as [->|].
    + rewrite decide_False by lia. rewrite decide_True by lia. rewrite Hb.
      apply list_lookup_insert. lia.
    + destruct (decide (S n ≤ i < S n + cnt)).
      * rewrite decide_True by lia. apply list_lookup_insert_ne. lia.
      * rewrite decide_False by lia. by apply list_lookup_insert_ne.
Qed.

Definition shr_byte (off : nat) (a b : N) : N :=
  to_uchar (N.lor (N.shiftr a (N.of_nat off)) (N.shiftl b (N.of_nat (8 - off)))).

Lemma shr_loop1_spec d ws off n cnt : n + ws + cnt < length d →
  ∃ d', shr_loop1 d ws off n cnt = Some d' ∧ length d' = length d ∧
        ∀ i, d' !! i = if decide (n ≤ i < n + cnt)
                       then (a ← d !! (i + ws); b ← d !! (i + ws + 1); Some (shr_byte off a b))
                       else d !! i.
Proof.
  revert d n. induction cnt as [|cnt IH]; intros d n Hc; simpl.
  - exists d. split_and!; [done|done|]. intros i. by rewrite decide_False by lia.
  - destruct (lookup_lt_is_Some_2 d (n + ws)) as [a Ha]; [lia|]. rewrite Ha. simpl.
    destruct (lookup_lt_is_Some_2 d (n + ws + 1)) as [b Hb]; [lia|]. rewrite Hb. simpl.
    rewrite store_spec by lia. simpl. fold (shr_byte off a b).
    destruct (IH (<[n:=shr_byte off a b]> d) (S n)) as (d' & -> & Hl & Hd');
      [rewrite insert_length; lia|].
    exists d'. split_and!; [done|by rewrite Hl, insert_length|].
    intros i. rewrite Hd'. destruct (decide (i = n)) as [->|].
    + rewrite decide_False by lia. rewrite decide_True by lia. rewrite Ha, Hb. simpl.
      apply list_lookup_insert. lia.
    + destruct (decide (S n ≤ i < S n + cnt)).
      * rewrite decide_True by lia. rewrite !list_lookup_insert_ne by lia. done.
      * rewrite decide_False by lia. by apply list_lookup_insert_ne.
Qed.

Lemma shr_byte_testbit off a b j : 0 < off < 8 → j < 8 → (a < 256)%N →
  N.testbit (shr_byte off a b) (N.of_nat j) =
  if j + off <? 8 then N.testbit a (N.of_nat (j + off)) else N.testbit b (N.of_nat (j + off - 8)).
Proof.
  intros Ho Hj Hb. unfold shr_byte. rewrite uchar_testbit by done. rewrite N.lor_spec.
  rewrite N.shiftr_spec by lia.
  replace (N.of_nat j + N.of_nat off)%N with (N.of_nat (j + off)) by lia.
  destruct (Nat.ltb_spec (j + off) 8).
  - rewrite N.shiftl_spec_low by lia. by rewrite orb_false_r.
  - rewrite N.shiftl_spec_high by lia. rewrite (proj1 (byte_lt_testbit a)) by done.
    simpl. f_equal. lia.
Qed.

Lemma shift_right_spec s k : wf s → k < capacity s →
  ∃ s', shift_right s k = Some s' ∧ wf s' ∧ bs_nbits s' = bs_nbits s ∧ capacity s' = capacity s ∧
    ∀ i, raw_bit (bs_data s') i = raw_bit (bs_data s) (i + k).
Proof.
  intros Hwf Hk. pose proof Hwf as (Hp & Hs & Hn). unfold shift_right, get_nbytes, capacity in *.
  destruct (Nat.eqb_spec k 0) as [->|Hk0].
  { exists s. split_and!; try done. intros i. f_equal. lia. }
  set (ws := k / 8). set (off := k mod 8). set (nb := length (bs_data s)) in *.
  assert (ws < nb) as Hws by (unfold ws; lia).
  destruct (Nat.leb_spec nb ws); [lia|].
  set (limit := nb - ws - 1).
  assert (∀ d, length d = nb →
    (∀ i b, i ≤ limit → d !! i = Some b → (b < 256)%N) →
    (∀ i, i / 8 ≤ limit → raw_bit d i = raw_bit (bs_data s) (i + k)) →
    ∃ s', (d' ← memset d (limit + 1) (nb - limit - 1) 0%N; Some (BitSet d' (bs_nbits s))) = Some s' ∧ wf s' ∧
      bs_nbits s' = bs_nbits s ∧ 8 * length (bs_data s') = 8 * nb ∧
    ∀ i, raw_bit (bs_data s') i = raw_bit (bs_data s) (i + k)) as Hfin.
  { intros d Hl Hok Hb. destruct (memset_spec d (limit+1) (nb - limit - 1) 0%N) as (d' & -> & Hl' & Hd').
    { unfold limit; lia. }
    simpl. eexists. split_and!; [done| |done|simpl; lia|].
    - split_and!; simpl; [lia| |unfold capacity; simpl; lia].
      apply bytes_ok_lookup. intros i b. rewrite Hd'. destruct (decide _); [by intros [= <-]|].
      destruct (decide (i ≤ limit)); [by apply Hok|].
      intros E. apply lookup_lt_Some in E. lia.
    - intros i. simpl. destruct (decide (i / 8 ≤ limit)).
      + rewrite <-Hb by lia. apply raw_bit_eq. rewrite Hd'. by rewrite decide_False by lia.
      + rewrite (raw_bit_out (bs_data s)) by (unfold limit, ws, nb in *; lia).
        unfold raw_bit at 1. rewrite Hd'. destruct (decide _); [apply N.bits_0|].
        rewrite lookup_ge_None_2; [done|]. unfold limit, ws in *; lia. }
  destruct (Nat.eqb_spec off 0) as [Ho|Ho].
  - destruct (shr_loop0_spec (bs_data s) ws 0 (limit + 1)) as (d1 & -> & Hl1 & H1).
    { unfold limit, nb in *; lia. }
    cbn [mbind option_bind].
    apply Hfin; [done| |].
    + intros i b Hi. rewrite H1. destruct (decide _); intros; by eapply Forall_lookup_1 in Hs.
    + intros i Hi. unfold raw_bit. rewrite H1. rewrite decide_True by lia.
      replace ((i + k) / 8) with (i / 8 + ws) by (unfold ws, off in *; lia).
      replace ((i + k) mod 8) with (i mod 8) by (unfold ws, off in *; lia). done.
  - destruct (shr_loop1_spec (bs_data s) ws off 0 limit) as (d1 & -> & Hl1 & H1).
    { unfold limit, nb in *; lia. }
    cbn [mbind option_bind].
    destruct (lookup_lt_is_Some_2 (bs_data s) (nb - 1)) as [a0 Ha0]; [unfold nb in *; lia|].
    assert (d1 !! (nb - 1) = Some a0 ∨ ws = 0) as H10.
    { destruct (decide (ws = 0)); [by right|left]. rewrite H1. rewrite decide_False by (unfold limit; lia). done. }
    assert (d1 !! (nb - 1) = Some a0) as H11.
    { rewrite H1. rewrite decide_False by (unfold limit; lia). done. }
    rewrite H11. cbn [mbind option_bind].
    rewrite store_spec by (unfold limit; lia). cbn [mbind option_bind].
    assert (a0 < 256)%N as Ha0b by (by eapply Forall_lookup_1 in Hs).
    apply Hfin; [by rewrite insert_length| |].
    + intros i b Hi. destruct (decide (i = limit)) as [->|].
      * rewrite list_lookup_insert by (unfold limit; lia). intros [= <-].
        apply byte_lt_testbit. intros j Hj. rewrite N.shiftr_spec by lia.
        replace (N.of_nat j + N.of_nat off)%N with (N.of_nat (j + off)) by lia.
        apply byte_lt_testbit; [done|lia].
      * rewrite list_lookup_insert_ne by done. rewrite H1. destruct (decide _).
        -- destruct (_ !! (i + ws)); [|done]. simpl. destruct (_ !! (i + ws + 1)); [|done]. simpl.
           intros [= <-]. apply uchar_lt.
        -- intros. by eapply Forall_lookup_1 in Hs.
    + intros i Hi. rewrite raw_bit_insert by (unfold limit; lia).
      destruct (Nat.eqb_spec limit (i / 8)) as [E|E].
      * rewrite N.shiftr_spec by lia.
        destruct (decide (i mod 8 + off < 8)).
        -- unfold raw_bit. replace ((i + k) / 8) with (nb - 1) by (unfold limit, ws, off in *; lia).
           rewrite Ha0. f_equal. unfold ws, off in *; lia.
        -- rewrite raw_bit_out by (unfold limit, ws, off in *; lia).
           replace (N.of_nat (i mod 8) + N.of_nat off)%N with (N.of_nat (i mod 8 + off)) by lia.
           apply byte_lt_testbit; [done|lia].
      * unfold raw_bit at 1. rewrite H1. rewrite decide_True by lia.
        destruct (lookup_lt_is_Some_2 (bs_data s) (i / 8 + ws)) as [a Ha]; [unfold limit in *; lia|].
        destruct (lookup_lt_is_Some_2 (bs_data s) (i / 8 + ws + 1)) as [b Hb]; [unfold limit in *; lia|].
        rewrite Ha, Hb. cbn [mbind option_bind].
        rewrite shr_byte_testbit; [|unfold ws, off in *; lia|lia|by eapply Forall_lookup_1 in Hs].
        destruct (Nat.ltb_spec (i mod 8 + off) 8).
        -- unfold raw_bit. replace ((i + k) / 8) with (i / 8 + ws) by (unfold ws, off in *; lia).
           rewrite Ha. f_equal. unfold ws, off in *; lia.
        -- unfold raw_bit. replace ((i + k) / 8) with (i / 8 + ws + 1) by (unfold ws, off in *; lia).
           rewrite Hb. f_equal. unfold ws, off in *; lia.
Qed.

Lemma shift_right_ub s k : wf s → capacity s ≤ k → shift_right s k = None.
Proof.
  intros (Hp & Hs & Hn) Hk. unfold shift_right, get_nbytes, capacity in *.
  destruct (Nat.eqb_spec k 0); [lia|].
  destruct (Nat.leb_spec (length (bs_data s)) (k / 8)); [done|lia].
Qed.
