From stdpp Require Import list option.
From Coq Require Import Arith Lia.
From Verif Require Import VectorModel VectorSpec.
Local Open Scope nat_scope.
Arguments Nat.mul : simpl never.

Section Proofs.
Context {A : Type}.
Implicit Types (d : list (option A)) (l : list A) (v : vec A).

Lemma read_Some d i x : read d i = Some x ↔ d !! i = Some (Some x).
Proof.
  unfold read. destruct (d !! i) as [c|]; simpl; [|done]. split; congruence.
Qed.

Lemma write_ok d i x : i < length d → write d i x = Some (<[i:=Some x]> d).
Proof. intros. unfold write. by rewrite decide_True. Qed.
Lemma write_oob d i x : length d ≤ i → write d i x = None.
Proof. intros. unfold write. rewrite decide_False by lia. done. Qed.

(** Cells [0, |l|) of d hold l. *)
Definition has d l : Prop := ∀ i, i < length l → read d i = l !! i.

Lemma has_length d l : has d l → length l ≤ length d.
Proof.
  intros H. destruct (decide (length l ≤ length d)) as [|Hn]; [done|].
  specialize (H (length d)). unfold read in H.
  rewrite lookup_ge_None_2 in H by lia. simpl in H.
  assert (length d < length l) as Hlt by lia. specialize (H Hlt).
  apply lookup_lt_is_Some in Hlt as [x Hx]. congruence.
Qed.

Lemma read_insert d i x : i < length d → read (<[i:=Some x]> d) i = Some x.
Proof. intros. unfold read. rewrite list_lookup_insert by done. done. Qed.
Lemma read_insert_ne d i j c : i ≠ j → read (<[i:=c]> d) j = read d j.
Proof. intros. unfold read. by rewrite list_lookup_insert_ne by done. Qed.

Lemma has_app_insert d l x : has d l → length l < length d → has (<[length l:=Some x]> d) (l ++ [x]).
Proof.
  intros H Hl i Hi. rewrite app_length in Hi. simpl in Hi.
  destruct (decide (i = length l)) as [->|].
  - rewrite read_insert by done. by rewrite list_lookup_middle.
  - rewrite read_insert_ne by done. rewrite lookup_app_l by lia. apply H. lia.
Qed.

Lemma has_take d l n : has d l → has d (take n l).
Proof.
  intros H i Hi. rewrite take_length in Hi. rewrite H by lia. by rewrite lookup_take by lia.
Qed.

Lemma destroy_range_spec d i n : (∀ j, i ≤ j < i + n → is_Some (read d j)) →
  ∃ d', destroy_range d i n = Some d' ∧ length d' = length d ∧
        ∀ j, j < i ∨ i + n ≤ j → read d' j = read d j.
Proof.
  revert d i. induction n as [|n IH]; intros d i H; simpl; [by exists d|].
  unfold destroy. destruct (H i) as [x Hx]; [lia|]. rewrite Hx. simpl.
  destruct (IH (<[i:=None]> d) (S i)) as (d' & -> & Hl & Hr).
  - intros j Hj. rewrite read_insert_ne by lia. apply H. lia.
  - exists d'. split; [done|]. rewrite insert_length in Hl. split; [done|].
    intros j Hj. rewrite Hr by lia. by rewrite read_insert_ne by lia.
Qed.

Lemma copy_range_spec dst src l i n :
  has src l → i + n = length l → length l ≤ length dst → has dst (take i l) →
  ∃ dst', copy_range dst src i n = Some dst' ∧ length dst' = length dst ∧ has dst' l.
Proof.
  revert dst i. induction n as [|n IH]; intros dst i Hs Hn Hl Hd; simpl.
  - exists dst. split_and!; [done|done|]. by rewrite take_ge in Hd by lia.
  - destruct (lookup_lt_is_Some_2 l i) as [x Hx]; [lia|].
    rewrite Hs by lia. rewrite Hx. simpl. rewrite write_ok by lia. simpl.
    destruct (IH (<[i:=Some x]> dst) (S i)) as (dst' & -> & Hl' & Hh).
    + done.
    + lia.
    + rewrite insert_length. lia.
    + rewrite (take_S_r _ _ x) by done.
      assert (length (take i l) = i) as E by (rewrite take_length; lia).
      rewrite <-E at 1. apply has_app_insert; [done|]. lia.
    + exists dst'. rewrite insert_length in Hl'. done.
Qed.

(** The abstraction relation. *)
Definition repr v l : Prop := v_size v = length l ∧ has (v_data v) l ∧ v_mem v = length (v_data v).

Lemma repr_shows v l : repr v l → shows v l ∧ vwf v.
Proof.
  intros (H1 & H2 & H3). split; [split; done|]. split; [|done].
  apply has_length in H2. lia.
Qed.
Lemma shows_repr v l : shows v l → vwf v → repr v l.
Proof. intros (H1 & H2) (H3 & H4). done. Qed.

Lemma reserve_repr v l n : repr v l →
  ∃ v', reserve v n = Some v' ∧ repr v' l ∧ v_mem v' = Nat.max (v_mem v) n ∧
        (v_alloc v = true → v_alloc v' = true).
Proof.
  intros (Hs & Hd & Hm). unfold reserve.
  destruct (Nat.leb_spec n (v_mem v)).
  - exists v. split_and!; [done|by split_and!|lia|done].
  - pose proof (has_length _ _ Hd).
    destruct (copy_range_spec (allocate n) (v_data v) l 0 (v_size v)) as (d' & -> & Hl' & Hd').
    + done.
    + lia.
    + unfold allocate. rewrite replicate_length. lia.
    + intros i Hi. simpl in Hi. lia.
    + simpl. destruct (destroy_range_spec (v_data v) 0 (v_size v)) as (d2 & -> & _).
      * intros j Hj. rewrite Hd by lia. apply lookup_lt_is_Some_2. lia.
      * simpl. eexists. split_and!; [done| |simpl; lia|done].
        split_and!; simpl; [done|done|]. unfold allocate in Hl'. rewrite replicate_length in Hl'. lia.
Qed.

Lemma make_repr n : ∃ v, make n = Some v ∧ repr v [] ∧ v_mem v = n ∧ v_alloc v = true.
Proof.
  destruct (reserve_repr (Vec [] 0 0 true) [] n) as (v & H & Hr & Hm & Ha).
  - split_and!; [done| |done]. intros i Hi. simpl in Hi. lia.
  - exists v. split_and!; [done|done| |by apply Ha]. simpl in Hm. lia.
Qed.

Lemma push_back_repr v l x : repr v l → v_alloc v = true → 0 < v_mem v →
  ∃ v', push_back v x = Some v' ∧ repr v' (l ++ [x]) ∧ v_mem v ≤ v_mem v' ∧ v_alloc v' = true.
Proof.
  intros Hr Ha Hp. unfold push_back.
  assert (∃ w, (if v_size v =? v_mem v then if v_alloc v then reserve v (2 * v_mem v) else None
                else Some v) = Some w ∧ repr w l ∧ v_size w < v_mem w ∧ v_mem v ≤ v_mem w ∧
               v_alloc w = true)
    as (w & -> & Hw & Hlt & Hle & Haw).
  { pose proof Hr as (Hs & Hd & Hm). pose proof (has_length _ _ Hd).
    destruct (Nat.eqb_spec (v_size v) (v_mem v)) as [E|E].
    - rewrite Ha. destruct (reserve_repr v l (2 * v_mem v) Hr) as (w & -> & Hw & Hmw & Haw).
      exists w. split_and!; try done; [|lia|auto]. destruct Hw as (Hsw & _). lia.
    - exists v. split_and!; try done; lia. }
  simpl. destruct Hw as (Hs & Hd & Hm). rewrite write_ok by lia. simpl.
  eexists. split_and!; [done| |done|done].
  split_and!; simpl.
  - rewrite app_length. simpl. lia.
  - rewrite Hs. apply has_app_insert; [done|lia].
  - by rewrite insert_length.
Qed.

Lemma push_n_repr v l x n : repr v l → v_alloc v = true → 0 < v_mem v →
  ∃ v', push_n v x n = Some v' ∧ repr v' (l ++ replicate n x) ∧ v_mem v ≤ v_mem v' ∧ v_alloc v' = true.
Proof.
  revert v l. induction n as [|n IH]; intros v l Hr Ha Hp; simpl.
  - exists v. rewrite app_nil_r. split_and!; try done.
  - destruct (push_back_repr v l x Hr Ha Hp) as (v1 & -> & Hr1 & Hm1 & Ha1). simpl.
    destruct (IH v1 (l ++ [x]) Hr1 Ha1) as (v2 & -> & Hr2 & Hm2 & Ha2); [lia|].
    exists v2. rewrite <-app_assoc in Hr2. simpl in Hr2. split_and!; try done. lia.
Qed.

Lemma push_from_repr v src l i n l0 : has src l → i + n = length l →
  repr v l0 → v_alloc v = true → 0 < v_mem v →
  ∃ v', push_from v src i n = Some v' ∧ repr v' (l0 ++ drop i l) ∧ v_alloc v' = true.
Proof.
  revert v i l0. induction n as [|n IH]; intros v i l0 Hs Hn Hr Ha Hp; simpl.
  - exists v. rewrite drop_ge by lia. rewrite app_nil_r. done.
  - destruct (lookup_lt_is_Some_2 l i) as [x Hx]; [lia|].
    rewrite Hs by lia. rewrite Hx. simpl.
    destruct (push_back_repr v l0 x Hr Ha Hp) as (v1 & -> & Hr1 & Hm1 & Ha1). simpl.
    destruct (IH v1 (S i) (l0 ++ [x]) Hs) as (v2 & -> & Hr2 & Ha2); [lia|done|done|lia|].
    exists v2. split_and!; try done. rewrite (drop_S l x i Hx). by rewrite <-app_assoc in Hr2.
Qed.

Lemma clear_repr v l : repr v l →
  ∃ v', clear v = Some v' ∧ repr v' [] ∧ v_mem v' = v_mem v ∧ v_alloc v' = v_alloc v.
Proof.
  intros (Hs & Hd & Hm). unfold clear.
  destruct (destroy_range_spec (v_data v) 0 (v_size v)) as (d2 & -> & Hl & _).
  - intros j Hj. rewrite Hd by lia. apply lookup_lt_is_Some_2. lia.
  - simpl. eexists. split_and!; [done| |done|done].
    split_and!; simpl; [done| |lia]. intros i Hi. simpl in Hi. lia.
Qed.

Lemma set_repr v l i x : repr v l → i < length l →
  ∃ v', set v i x = Some v' ∧ repr v' (<[i:=x]> l) ∧ v_mem v' = v_mem v ∧ v_alloc v' = v_alloc v.
Proof.
  intros (Hs & Hd & Hm) Hi. pose proof (has_length _ _ Hd). unfold set. rewrite Hd by done.
  destruct (lookup_lt_is_Some_2 l i Hi) as [y ->]. simpl. rewrite write_ok by lia. simpl.
  eexists. split_and!; [done| |done|done]. split_and!; simpl; rewrite ?insert_length; [done| |done].
  intros j Hj. rewrite insert_length in Hj. destruct (decide (i = j)) as [->|].
  - rewrite read_insert by lia. by rewrite list_lookup_insert by lia.
  - rewrite read_insert_ne, list_lookup_insert_ne by done. by apply Hd.
Qed.

Lemma resize_repr v l n x : repr v l → v_alloc v = true → 0 < v_mem v →
  ∃ v', resize v n x = Some v' ∧ repr v' (take n l ++ replicate (n - length l) x) ∧
        v_mem v ≤ v_mem v' ∧ v_alloc v' = true.
Proof.
  intros Hr Ha Hp. pose proof Hr as (Hs & Hd & Hm). unfold resize.
  destruct (Nat.leb_spec n (v_size v)).
  - destruct (destroy_range_spec (v_data v) n (v_size v - n)) as (d2 & -> & Hl & Hk).
    + intros j Hj. rewrite Hd by lia. apply lookup_lt_is_Some_2. lia.
    + simpl. eexists. split_and!; [done| |simpl; lia|done].
      replace (n - length l) with 0 by lia. simpl. rewrite app_nil_r.
      split_and!; simpl; [rewrite take_length; lia| |lia].
      intros i Hi. rewrite take_length in Hi. rewrite Hk by lia.
      rewrite Hd by lia. by rewrite lookup_take by lia.
  - assert (∃ w, (if v_mem v <? n then reserve v n else Some v) = Some w ∧ repr w l ∧
               v_mem v ≤ v_mem w ∧ v_alloc w = true) as (w & -> & Hw & Hle & Haw).
    { destruct (v_mem v <? n).
      - destruct (reserve_repr v l n Hr) as (w & -> & Hw & Hmw & Haw).
        exists w. split_and!; try done; [lia|auto].
      - exists v. split_and!; done. }
    simpl. pose proof Hw as (Hsw & _).
    destruct (push_n_repr w l x (n - v_size w) Hw Haw) as (v2 & -> & Hr2 & Hm2 & Ha2); [lia|].
    exists v2. rewrite Hsw in Hr2. rewrite take_ge by lia. split_and!; try done. lia.
Qed.

Lemma shift_down_spec d c n :
  (∀ j, c ≤ j ≤ c + n → is_Some (read d j)) → c + n < length d →
  ∃ d', shift_down d c n = Some d' ∧ length d' = length d ∧
    ∀ j, read d' j = if decide (c ≤ j < c + n) then read d (S j) else read d j.
Proof.
  revert d c. induction n as [|n IH]; intros d c H Hl; simpl.
  - exists d. split_and!; [done|done|]. intros j. by rewrite decide_False by lia.
  - destruct (H (S c)) as [x Hx]; [lia|]. rewrite Hx. simpl. rewrite write_ok by lia. simpl.
    destruct (IH (<[c:=Some x]> d) (S c)) as (d' & -> & Hl' & Hr).
    + intros j Hj. rewrite read_insert_ne by lia. apply H. lia.
    + rewrite insert_length. lia.
    + exists d'. rewrite insert_length in Hl'. split_and!; [done|done|]. intros j. rewrite Hr.
      destruct (decide (S c ≤ j < S c + n)), (decide (c ≤ j < c + S n)); try lia.
      * by rewrite read_insert_ne by lia.
      * replace j with c by lia. rewrite read_insert by lia. done.
      * rewrite read_insert_ne by lia. done.
Qed.

Lemma erase_repr v l i : repr v l → i < length l →
  ∃ v', erase v i = Some v' ∧ repr v' (take i l ++ drop (S i) l) ∧ v_mem v' = v_mem v ∧
        v_alloc v' = v_alloc v.
Proof.
  intros (Hs & Hd & Hm) Hi. pose proof (has_length _ _ Hd). unfold erase.
  destruct (Nat.leb_spec (v_size v) i); [lia|].
  assert (∃ d, (if S i =? v_size v then Some (v_data v)
                else shift_down (v_data v) i (v_size v - S i)) = Some d ∧
            length d = length (v_data v) ∧
            (∀ j, read d j = if decide (i ≤ j < v_size v - 1) then read (v_data v) (S j)
                             else read (v_data v) j)) as (d & -> & Hl & Hr).
  { destruct (Nat.eqb_spec (S i) (v_size v)).
    - exists (v_data v). split_and!; [done|done|]. intros j. by rewrite decide_False by lia.
    - destruct (shift_down_spec (v_data v) i (v_size v - S i)) as (d & -> & Hl & Hr).
      + intros j Hj. rewrite Hd by lia. apply lookup_lt_is_Some_2. lia.
      + lia.
      + exists d. split_and!; [done|done|]. intros j. rewrite Hr.
        destruct (decide (i ≤ j < i + (v_size v - S i))), (decide (i ≤ j < v_size v - 1)); try lia; done. }
  simpl.
  assert (∃ d', (if v_size v - 1 =? 0 then Some d else destroy d (v_size v - 1)) = Some d' ∧
            length d' = length d ∧ ∀ j, j < v_size v - 1 → read d' j = read d j)
    as (d' & -> & Hl' & Hr').
  { destruct (Nat.eqb_spec (v_size v - 1) 0); [by exists d|].
    unfold destroy. rewrite Hr. rewrite decide_False by lia. rewrite Hd by lia.
    destruct (lookup_lt_is_Some_2 l (v_size v - 1)) as [y ->]; [lia|]. simpl.
    eexists. split_and!; [done|by rewrite insert_length|].
    intros j Hj. by rewrite read_insert_ne by lia. }
  simpl. eexists. split_and!; [done| |done|done].
  assert (length (take i l ++ drop (S i) l) = length l - 1) as E.
  { rewrite app_length, take_length, drop_length. lia. }
  split_and!; simpl; [lia| |lia].
  intros j Hj. rewrite Hr' by lia. rewrite Hr. destruct (decide (i ≤ j < v_size v - 1)).
  - rewrite Hd by lia. rewrite lookup_app_r by (rewrite take_length; lia).
    rewrite take_length, lookup_drop. f_equal. lia.
  - rewrite Hd by lia. rewrite lookup_app_l by (rewrite take_length; lia).
    by rewrite lookup_take by lia.
Qed.

Lemma vstep_repr v l o l' : repr v l → v_alloc v = true → 0 < v_mem v →
  seq_step l o = Some l' →
  ∃ v', vstep v o = Some v' ∧ repr v' l' ∧ 0 < v_mem v' ∧ v_alloc v' = true.
Proof.
  intros Hr Ha Hp H. destruct o as [x|n|n x| |i|i x]; simpl in *.
  - injection H as <-. destruct (push_back_repr v l x Hr Ha Hp) as (v1 & E & Hr1 & Hm1 & Ha1).
    exists v1. split_and!; try done. lia.
  - injection H as <-. destruct (reserve_repr v l n Hr) as (v1 & E & Hr1 & Hm1 & Ha1).
    exists v1. split_and!; try done; [lia|auto].
  - injection H as <-. destruct (resize_repr v l n x Hr Ha Hp) as (v1 & E & Hr1 & Hm1 & Ha1).
    exists v1. split_and!; try done. lia.
  - injection H as <-. destruct (clear_repr v l Hr) as (v1 & E & Hr1 & Hm1 & Ha1).
    exists v1. split_and!; try done; [lia|congruence].
  - destruct (decide (i < length l)); [|done]. injection H as <-.
    destruct (erase_repr v l i Hr) as (v1 & E & Hr1 & Hm1 & Ha1); [done|].
    exists v1. split_and!; try done; [lia|congruence].
  - destruct (decide (i < length l)); [|done]. injection H as <-.
    destruct (set_repr v l i x Hr) as (v1 & E & Hr1 & Hm1 & Ha1); [done|].
    exists v1. split_and!; try done; [lia|congruence].
Qed.

Lemma vrun_repr v l os l' : repr v l → v_alloc v = true → 0 < v_mem v →
  seq_run l os = Some l' →
  ∃ v', vrun v os = Some v' ∧ repr v' l'.
Proof.
  revert v l. induction os as [|o os IH]; intros v l Hr Ha Hp H; simpl in *.
  - injection H as <-. eauto.
  - destruct (seq_step l o) as [l1|] eqn:E; simpl in H; [|done].
    destruct (vstep_repr v l o l1 Hr Ha Hp E) as (v1 & -> & Hr1 & Hp1 & Ha1). simpl. eauto.
Qed.

Lemma vector_is_sequence n os l : 0 < n → seq_run [] os = Some l →
  ∃ v0 v, make n = Some v0 ∧ vrun v0 os = Some v ∧ shows v l ∧ vwf v.
Proof.
  intros Hn H. destruct (make_repr n) as (v0 & E & Hr & Hm & Ha).
  destruct (vrun_repr v0 [] os l Hr Ha) as (v & E2 & Hr2); [lia|done|].
  destruct (repr_shows _ _ Hr2). exists v0, v. auto.
Qed.

Lemma push_empty_capacity x : ∃ v : vec A, make 0 = Some v ∧ push_back v x = None.
Proof. eexists. split; [reflexivity|]. done. Qed.

Lemma fixed_push mem sz maxsize l x :
  shows (make_fixed mem sz maxsize) l → vwf (make_fixed mem sz maxsize) →
  if decide (sz < maxsize)
  then ∃ v', push_back (make_fixed mem sz maxsize) x = Some v' ∧ shows v' (l ++ [x]) ∧ vwf v'
  else push_back (make_fixed mem sz maxsize) x = None.
Proof.
  intros H W. pose proof (shows_repr _ _ H W) as (Hs & Hd & Hm). destruct W as [W _]. simpl in *.
  unfold push_back. simpl. destruct (decide (sz < maxsize)).
  - destruct (Nat.eqb_spec sz maxsize); [lia|]. simpl. rewrite write_ok by lia. simpl.
    eexists. split; [done|]. apply repr_shows. split_and!; simpl.
    + rewrite app_length. simpl. lia.
    + rewrite Hs. apply has_app_insert; [done|lia].
    + by rewrite insert_length.
  - destruct (Nat.eqb_spec sz maxsize); [done|lia].
Qed.

Lemma copy_construct_repr v l : repr v l → ∃ v', copy_construct v = Some v' ∧ repr v' l ∧ v_mem v' = v_mem v.
Proof.
  intros (Hs & Hd & Hm). pose proof (has_length _ _ Hd). unfold copy_construct.
  destruct (copy_range_spec (allocate (v_mem v)) (v_data v) l 0 (v_size v)) as (d' & -> & Hl' & Hd').
  - done.
  - lia.
  - unfold allocate. rewrite replicate_length. lia.
  - intros i Hi. simpl in Hi. lia.
  - simpl. eexists. split_and!; [done| |done]. split_and!; simpl; [done|done|].
    unfold allocate in Hl'. rewrite replicate_length in Hl'. lia.
Qed.

Lemma copy_construct_shows v l : shows v l → vwf v →
  ∃ v', copy_construct v = Some v' ∧ shows v' l ∧ vwf v' ∧ v_mem v' = v_mem v.
Proof.
  intros H W. destruct (copy_construct_repr v l) as (v' & E & Hr & Hm); [by apply shows_repr|].
  exists v'. apply repr_shows in Hr as [??]. done.
Qed.

Lemma assign_appends v l o lo : shows v l → vwf v → v_alloc v = true → shows o lo → vwf o →
  0 < v_mem v →
  ∃ v', assign v o = Some v' ∧ shows v' (l ++ lo) ∧ vwf v'.
Proof.
  intros H W Ha Ho Wo Hp. pose proof (shows_repr _ _ H W) as Hr.
  pose proof (shows_repr _ _ Ho Wo) as (Hso & Hdo & Hmo). unfold assign.
  destruct (reserve_repr v l (v_mem o) Hr) as (w & -> & Hw & Hmw & Haw). simpl.
  destruct (push_from_repr w (v_data o) lo 0 (v_size o) l) as (v' & E & Hr' & _);
    [done|lia|done|auto|lia|].
  exists v'. split; [done|]. by apply repr_shows.
Qed.

Lemma init_list_ub sizeof l : 2 ≤ sizeof → l ≠ [] → of_init_list (A:=A) sizeof l = None.
Proof.
  intros Hs Hl. destruct l as [|x l]; [done|]. unfold of_init_list.
  change (push_all ?v (x :: l)) with (v' ← push_back v x; push_all v' l).
  unfold push_back. cbn [v_size v_mem v_data v_alloc].
  destruct (Nat.eqb_spec (length (x :: l)) (length (x :: l) * sizeof)); [simpl in *; nia|].
  cbn [mbind option_bind v_size v_mem v_data v_alloc].
  rewrite write_oob; [done|]. unfold allocate. rewrite replicate_length. lia.
Qed.

Lemma assign_to_empty v o lo : v_size v = 0 → vwf v → v_alloc v = true → shows o lo → vwf o →
  0 < v_mem v →
  ∃ v', assign v o = Some v' ∧ shows v' lo ∧ vwf v'.
Proof.
  intros H W Ha Ho Wo Hp. apply (assign_appends v [] o lo); try done.
  split; [done|]. simpl. lia.
Qed.

Lemma assign_not_copy v l o lo : shows v l → vwf v → v_alloc v = true → shows o lo → vwf o →
  0 < v_mem v → l ≠ [] →
  ∃ v', assign v o = Some v' ∧ v_size v' ≠ v_size o.
Proof.
  intros H W Ha Ho Wo Hp Hl. destruct (assign_appends v l o lo) as (v' & E & Hs & _); try done.
  exists v'. split; [done|]. destruct Hs as [-> _]. destruct Ho as [-> _]. rewrite app_length.
  destruct l; [done|]. simpl. lia.
Qed.
End Proofs.
