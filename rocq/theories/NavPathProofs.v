From stdpp Require Import list option gmap fin_maps.
From Coq Require Import NArith ZArith Lia ZifyN ZifyBool ZifyNat.
From Verif Require Import NavTableModel NavTableSpec NavTableProofs NavStateProofs NavPathModel NavPathSpec.
Local Open Scope N_scope.

Local Arguments N.mul : simpl never.
Local Arguments N.add : simpl never.
Local Arguments N.sub : simpl never.
Local Arguments N.modulo : simpl never.
Local Arguments N.div : simpl never.
Local Arguments N.of_nat : simpl never.
Local Arguments N.land : simpl never.
Local Arguments N.to_nat : simpl never.
Local Arguments N.ltb : simpl never.
Local Arguments N.eqb : simpl never.
Local Arguments Nat.ltb : simpl never.
Local Arguments Nat.sub : simpl never.
Local Arguments Z.add : simpl never.
Local Arguments Z.sub : simpl never.

(** * Lists *)
Lemma rev_lookup_app (l : list N) v i : (i < length l)%nat → rev (v :: l) !! i = rev l !! i.
Proof. intros. cbn. rewrite lookup_app_l by (by rewrite rev_length). done. Qed.
Lemma rev_drop (l : list N) n : (n ≤ length l)%nat → drop n (rev l) = rev (take (length l - n) l).
Proof.
  intros Hn. rewrite <-(take_drop (length l - n) l) at 1. rewrite rev_app_distr.
  rewrite drop_app_alt; [done|]. rewrite rev_length, drop_length. lia.
Qed.
Lemma take_common a b : take (common a b) a = take (common a b) b.
Proof.
  revert b. induction a as [|x a IH]; intros [|y b]; cbn; [done|done|done|].
  destruct (N.eqb_spec x y) as [->|]; [cbn; by rewrite IH|done].
Qed.
Lemma common_le a b : (common a b ≤ length a ∧ common a b ≤ length b)%nat.
Proof.
  revert b. induction a as [|x a IH]; intros [|y b]; cbn; [lia|lia|lia|].
  destruct (x =? y); [specialize (IH b); cbn; lia|cbn; lia].
Qed.
Lemma common_differ a b x y : a !! common a b = Some x → b !! common a b = Some y → x ≠ y.
Proof.
  revert b. induction a as [|u a IH]; intros [|w b]; cbn; [done|done|done|].
  destruct (N.eqb_spec u w) as [->|Hne]; cbn; [apply IH|]. intros [= <-] [= <-]. done.
Qed.

Lemma common_loop_spec (a b : list N) at1 at2 n : ∀ i,
  (i + n = Nat.min (length a) (length b))%nat →
  (∀ j : nat, (j < Nat.min (length a) (length b))%nat → at1 (Z.of_nat j) = Some (a !! j)) →
  (∀ j : nat, (j < Nat.min (length a) (length b))%nat → at2 (Z.of_nat j) = Some (b !! j)) →
  common_loop at1 at2 (Z.of_nat i) n (Z.of_nat i - 1) =
    Some (Z.of_nat i - 1 + Z.of_nat (common (drop i a) (drop i b)))%Z.
Proof.
  induction n as [|n IH]; intros i Hi H1 H2; cbn [common_loop].
  - assert (drop i a = [] ∨ drop i b = []) as [E|E].
    { destruct (Nat.min_dec (length a) (length b)) as [E|E]; [left|right]; apply drop_ge; lia. }
    + rewrite E. cbn. f_equal. lia.
    + rewrite E. destruct (drop i a); cbn; f_equal; lia.
  - rewrite H1, H2 by lia. cbn [mbind option_bind].
    destruct (lookup_lt_is_Some_2 a i) as [x Ex]; [lia|].
    destruct (lookup_lt_is_Some_2 b i) as [y Ey]; [lia|].
    rewrite Ex, Ey. cbn [eq_opt]. rewrite (drop_S _ _ _ Ex), (drop_S _ _ _ Ey). cbn [common].
    destruct (x =? y).
    + replace (Z.of_nat i + 1)%Z with (Z.of_nat (S i)) by lia.
      specialize (IH (S i)). replace (Z.of_nat (S i) - 1)%Z with (Z.of_nat i) in IH by lia.
      rewrite IH by (try done; lia). f_equal. lia.
    + f_equal. lia.
Qed.
Lemma common_loop_0 (a b : list N) at1 at2 n :
  n = Nat.min (length a) (length b) →
  (∀ j : nat, (j < Nat.min (length a) (length b))%nat → at1 (Z.of_nat j) = Some (a !! j)) →
  (∀ j : nat, (j < Nat.min (length a) (length b))%nat → at2 (Z.of_nat j) = Some (b !! j)) →
  common_loop at1 at2 0 n (-1) = Some (Z.of_nat (common a b) - 1)%Z.
Proof.
  intros Hn H1 H2. pose proof (common_loop_spec a b at1 at2 n 0) as H.
  rewrite !drop_0 in H. change (Z.of_nat 0) with 0%Z in H. change (0 - 1)%Z with (-1)%Z in H.
  rewrite H by (try done; lia). f_equal. lia.
Qed.

(** * Moves *)
Lemma moves_up n l : foldl do_move l (replicate n MUp) = drop n l.
Proof. revert l. induction n as [|n IH]; intros l; cbn [replicate foldl do_move]; [by rewrite drop_0|]. rewrite IH. destruct l; cbn [tail]; [by rewrite !drop_nil|done]. Qed.
Lemma downs_spec (b : list N) val n : ∀ i,
  (i + n = length b)%nat → (∀ j x, b !! j = Some x → val (Z.of_nat j) = Some x) →
  ∃ ms, downs val (Z.of_nat i) n = Some ms ∧ ∀ l, foldl do_move l ms = rev (drop i b) ++ l.
Proof.
  induction n as [|n IH]; intros i Hi Hv; cbn [downs].
  - eexists. split; [done|]. intros l. rewrite drop_ge by lia. done.
  - destruct (lookup_lt_is_Some_2 b i) as [x Ex]; [lia|]. rewrite (Hv _ _ Ex). cbn [mbind option_bind].
    replace (Z.of_nat i + 1)%Z with (Z.of_nat (S i)) by lia.
    destruct (IH (S i)) as (ms & -> & Hms); [lia|done|]. cbn [mbind option_bind].
    eexists. split; [done|]. intros l. cbn. rewrite Hms, (drop_S _ _ _ Ex). cbn. by rewrite <-app_assoc.
Qed.
Lemma relative_spec (a b : list N) val1 val2 :
  (∀ j x, a !! j = Some x → val1 (Z.of_nat j) = Some x) →
  (∀ j x, b !! j = Some x → val2 (Z.of_nat j) = Some x) →
  ∃ ms, relative_moves val1 val2 (Z.of_nat (length a) - 1) (Z.of_nat (length b) - 1)
          (Z.of_nat (common a b) - 1) = Some ms ∧
    foldl do_move (rev a) ms = rev b.
Proof.
  intros H1 H2. pose proof (common_le a b) as [Hla Hlb]. pose proof (take_common a b) as Htk.
  set (k := common a b) in *. unfold relative_moves.
  destruct (decide (length a = k)) as [Ea|Ea]; destruct (decide (length b = k)) as [Eb|Eb].
  - rewrite !(proj2 (Z.eqb_eq _ _)) by lia. cbn. eexists. split; [done|]. cbn.
    rewrite !take_ge in Htk by lia. by rewrite Htk.
  - rewrite (proj2 (Z.eqb_eq (Z.of_nat (length a) - 1) _)) by lia.
    rewrite (proj2 (Z.eqb_neq (Z.of_nat (length b) - 1) _)) by lia.
    rewrite (proj2 (Z.ltb_ge _ (Z.of_nat (length a) - 1))) by lia.
    rewrite (proj2 (Z.ltb_lt _ (Z.of_nat (length b) - 1))) by lia. cbn [andb].
    replace (Z.of_nat k - 1 + 1)%Z with (Z.of_nat k) by lia.
    destruct (downs_spec b val2 (Z.to_nat (Z.of_nat (length b) - 1 - (Z.of_nat k - 1))) k) as (ms & -> & Hms); [lia|done|].
    eexists. split; [done|]. rewrite Hms, <-rev_app_distr. f_equal.
    rewrite (take_ge a) in Htk by lia. rewrite Htk. apply take_drop.
  - rewrite (proj2 (Z.eqb_neq (Z.of_nat (length a) - 1) _)) by lia. cbn [andb].
    rewrite (proj2 (Z.ltb_lt _ (Z.of_nat (length a) - 1))) by lia.
    rewrite (proj2 (Z.eqb_eq (Z.of_nat (length b) - 1) _)) by lia. cbn [andb].
    eexists. split; [done|]. rewrite moves_up, rev_drop by lia.
    replace (length a - Z.to_nat (Z.of_nat (length a) - 1 - (Z.of_nat k - 1)))%nat with k by lia.
    rewrite Htk. by rewrite take_ge by lia.
  - rewrite (proj2 (Z.eqb_neq (Z.of_nat (length a) - 1) _)) by lia. cbn [andb].
    rewrite (proj2 (Z.eqb_neq (Z.of_nat (length b) - 1) _)) by lia.
    rewrite (proj2 (Z.ltb_lt _ (Z.of_nat (length a) - 1))) by lia.
    rewrite (proj2 (Z.ltb_lt _ (Z.of_nat (length b) - 1))) by lia. cbn [andb].
    destruct (lookup_lt_is_Some_2 a k) as [x Ex]; [lia|].
    destruct (lookup_lt_is_Some_2 b k) as [y Ey]; [lia|].
    pose proof (common_differ a b x y Ex Ey) as Hne.
    replace (Z.of_nat k - 1 + 1)%Z with (Z.of_nat k) by lia. rewrite (H1 _ _ Ex), (H2 _ _ Ey). cbn [mbind option_bind].
    replace (Z.of_nat k - 1 + 2)%Z with (Z.of_nat (S k)) by lia.
    destruct (downs_spec b val2 (Z.to_nat (Z.of_nat (length b) - 1 - (Z.of_nat k - 1) - 1)) (S k)) as (ms & -> & Hms); [lia|done|].
    cbn [mbind option_bind]. rewrite (proj2 (Z.eqb_neq (Z.of_N y - Z.of_N x) _)) by lia.
    eexists. split; [done|]. rewrite !foldl_app, moves_up, rev_drop by lia.
    replace (length a - Z.to_nat (Z.of_nat (length a) - 1 - (Z.of_nat k - 1) - 1))%nat with (S k) by lia.
    rewrite (take_S_r _ _ _ Ex), rev_app_distr. cbn [rev app foldl do_move].
    rewrite Hms. replace (Z.to_N (Z.of_N x + (Z.of_N y - Z.of_N x))) with y by lia.
    rewrite Htk. rewrite <-(take_drop k b) at 3. rewrite rev_app_distr, (drop_S _ _ _ Ey). cbn.
    by rewrite <-app_assoc.
Qed.

(** * NavStatePath *)
Section Path.
Context {T : Type} (G : geo T) (TO : tops T).

(** The state holds path [l] (innermost first) in an object with [cap] slots. *)
Definition PRep (cap : nat) (l : list N) (s : nsp) : Prop :=
  p_cur s = N.of_nat (length l) ∧ (length l ≤ 255)%nat ∧ (length l ≤ cap)%nat ∧
  take (length l) (p_vals s) = rev l ∧ p_n s = cap ∧ length (p_vals s) = cap.

Lemma PRep_make m : PRep (m + 1) [] (nsp_make m).
Proof. unfold PRep, nsp_make, nsp_new. cbn. rewrite replicate_length. split_and!; done || lia. Qed.
Lemma PRep_slot cap l s i : PRep cap l s → (i < length l)%nat → slot s (N.of_nat i) = rev l !! i.
Proof.
  intros (_ & _ & _ & Ht & _) Hi. unfold slot. rewrite Nat2N.id, <-Ht. by rewrite lookup_take by done.
Qed.
Lemma PRep_slot' cap l s i x : PRep cap l s → rev l !! i = Some x → slot s (N.of_nat i) = Some x.
Proof. intros HP Hx. rewrite (PRep_slot cap l); [done|done|]. apply lookup_lt_Some in Hx. by rewrite rev_length in Hx. Qed.
Lemma PRep_push cap l s v : PRep cap l s → (length l < cap)%nat → (length l < 255)%nat →
  ∃ s', nsp_push s v = Some s' ∧ PRep cap (v :: l) s' ∧ p_bnd s' = p_bnd s.
Proof.
  intros (Hc & H1 & H2 & Ht & Hn & Hl) Hcap H255. unfold nsp_push, set_slot. rewrite Hc, Nat2N.id.
  destruct (Nat.ltb_spec (length l) (length (p_vals s))); [|lia]. cbn [mbind option_bind].
  eexists. split; [done|]. split; [|done]. unfold PRep. cbn [p_cur p_vals p_n length rev].
  split_and!; [|lia|lia| |done|by rewrite insert_length].
  - rewrite N.mod_small by lia. lia.
  - rewrite (take_S_r _ _ v) by (apply list_lookup_insert; lia). by rewrite take_insert by lia; rewrite Ht.
Qed.
Lemma PRep_pop cap l s : PRep cap l s → PRep cap (tail l) (nsp_pop s) ∧ p_bnd (nsp_pop s) = p_bnd s.
Proof.
  intros HP. pose proof HP as (Hc & H1 & H2 & Ht & Hn & Hl). unfold nsp_pop. rewrite Hc. destruct l as [|v l]; cbn [length tail].
  - destruct (N.ltb_spec 0 (N.of_nat 0)); [lia|]. done.
  - destruct (N.ltb_spec 0 (N.of_nat (S (length l)))); [|lia]. split; [|done].
    unfold PRep. cbn [p_cur p_vals p_n length] in *. split_and!; [lia|lia|lia| |done|done].
    assert (take (length l) (take (S (length l)) (p_vals s)) = take (length l) (rev (v :: l))) as E by (by rewrite Ht).
    rewrite take_take, Nat.min_l in E by lia. rewrite E. cbn. apply take_app_alt. by rewrite rev_length.
Qed.
Lemma PRep_clear cap l s : PRep cap l s → PRep cap [] (nsp_clear s).
Proof. intros (Hc & H1 & H2 & Ht & Hn & Hl). unfold PRep. cbn. split_and!; done || lia. Qed.

Lemma PRep_step cap l s o : PRep cap l s → (length (list_step l o) ≤ cap)%nat → (length (list_step l o) ≤ 255)%nat →
  ∃ s', nsp_step s o = Some s' ∧ PRep cap (list_step l o) s' ∧ p_bnd s' = bnd_step (p_bnd s) o.
Proof.
  intros HP H1 H2. destruct o as [v| | | |b]; cbn [list_step nsp_step bnd_step] in *.
  - cbn in *. apply PRep_push; [done|lia|lia].
  - eexists. split; [done|]. by apply PRep_pop.
  - eexists. split; [done|]. split; [by eapply PRep_clear|done].
  - by exists s.
  - eexists. split; [done|]. done.
Qed.
Lemma PRep_run cap os : ∀ l s, PRep cap l s → depth_ok (Nat.min cap 255) l os →
  ∃ s', nsp_run s os = Some s' ∧ PRep cap (foldl list_step l os) s' ∧ p_bnd s' = foldl bnd_step (p_bnd s) os.
Proof.
  induction os as [|o os IH]; intros l s HP Hd; cbn [nsp_run foldl].
  - by exists s.
  - destruct Hd as [Hd Hd']. destruct (PRep_step cap l s o HP) as (s1 & -> & HP1 & Hb); [lia|lia|].
    cbn [mbind option_bind]. rewrite <-Hb. by apply IH.
Qed.

Lemma PRep_outside cap l s : PRep cap l s → nsp_outside s = bool_decide (l = []).
Proof.
  intros (Hc & _). unfold nsp_outside. rewrite Hc. destruct l; cbn [length].
  - by rewrite bool_decide_eq_true_2.
  - rewrite bool_decide_eq_false_2 by done. destruct (N.ltb_spec 0 (N.of_nat (S (length l)))); [done|lia].
Qed.
Lemma PRep_top cap l s : PRep cap l s → nsp_top s = Some (head l).
Proof.
  intros HP. pose proof HP as (Hc & _). unfold nsp_top. rewrite Hc. destruct l as [|v l]; cbn [length head].
  - done.
  - destruct (N.ltb_spec 0 (N.of_nat (S (length l)))); [|lia].
    replace (N.of_nat (S (length l)) - 1) with (N.of_nat (length l)) by lia.
    rewrite (PRep_slot' _ _ _ _ v HP); [done|]. cbn. rewrite lookup_app_r by (rewrite rev_length; lia).
    by rewrite rev_length, Nat.sub_diag.
Qed.
Lemma PRep_level cap l s : PRep cap l s → l ≠ [] → nsp_level s = N.of_nat (length l) - 1.
Proof.
  intros (Hc & H1 & _) Hl. unfold nsp_level. rewrite Hc. destruct l as [|v l]; [done|]. cbn [length] in *.
  replace (N.of_nat (S (length l)) + 255) with (N.of_nat (length l) + 1 * 256) by lia.
  rewrite N.mod_add, N.mod_small by lia. lia.
Qed.
Lemma PRep_at cap l s i : PRep cap l s → (i < length l)%nat → nsp_at s (Z.of_nat i) = Some (rev l !! i).
Proof.
  intros HP Hi. unfold nsp_at. rewrite (proj2 (Z.leb_le _ _)) by lia.
  replace (Z.to_N (Z.of_nat i)) with (N.of_nat i) by lia.
  destruct (lookup_lt_is_Some_2 (rev l) i) as [x Ex]; [by rewrite rev_length|].
  by rewrite (PRep_slot' _ _ _ _ _ HP Ex), Ex.
Qed.

Lemma same_loop_spec c1 c2 l1 l2 a b n : PRep c1 l1 a → PRep c2 l2 b →
  (n ≤ length l1)%nat → (n ≤ length l2)%nat →
  same_loop a b n = Some (bool_decide (take n (rev l1) = take n (rev l2))).
Proof.
  intros H1 H2. induction n as [|n IH]; intros Ha Hb; cbn [same_loop].
  - rewrite !take_0. by rewrite bool_decide_eq_true_2.
  - destruct (lookup_lt_is_Some_2 (rev l1) n) as [x Ex]; [rewrite rev_length; lia|].
    destruct (lookup_lt_is_Some_2 (rev l2) n) as [y Ey]; [rewrite rev_length; lia|].
    rewrite (PRep_slot' _ _ _ _ _ H1 Ex), (PRep_slot' _ _ _ _ _ H2 Ey). cbn [mbind option_bind].
    rewrite (take_S_r _ _ _ Ex), (take_S_r _ _ _ Ey).
    destruct (N.eqb_spec x y) as [->|Hne].
    + rewrite IH by lia. f_equal. apply bool_decide_ext. split; [by intros ->|]. intros E. by apply app_inj_2 in E as [? _].
    + f_equal. symmetry. apply bool_decide_eq_false_2. intros E. apply app_inj_2 in E as [_ E]; [|done]. congruence.
Qed.
Lemma nsp_same_spec c1 c2 l1 l2 a b : PRep c1 l1 a → PRep c2 l2 b →
  nsp_same a b = Some (bool_decide (l1 = l2)).
Proof.
  intros H1 H2. pose proof H1 as (Hc1 & _). pose proof H2 as (Hc2 & _). unfold nsp_same. rewrite Hc1, Hc2, Nat2N.id.
  destruct (N.eqb_spec (N.of_nat (length l1)) (N.of_nat (length l2))) as [E|E].
  - rewrite (same_loop_spec _ _ _ _ _ _ _ H1 H2) by lia. f_equal. apply bool_decide_ext.
    rewrite !take_ge by (rewrite rev_length; lia). split; [|by intros ->].
    intros Er. rewrite <-(rev_involutive l1), <-(rev_involutive l2). by rewrite Er.
  - f_equal. symmetry. apply bool_decide_eq_false_2. by intros ->.
Qed.

Lemma nsp_copy_spec cap l s o : PRep cap l s → length (p_vals o) = cap → (length l < cap)%nat →
  ∃ o', nsp_copy_to s o = Some o' ∧ PRep cap l o' ∧ p_bnd o' = p_bnd s.
Proof.
  intros (Hc & H1 & H2 & Ht & Hn & Hl) Ho Hlt. unfold nsp_copy_to. rewrite Hc, Nat2N.id.
  rewrite !(proj2 (Nat.leb_le _ _)) by lia. cbn [andb]. eexists. split; [done|]. split; [|done].
  unfold PRep. cbn [p_cur p_vals p_n]. split_and!; [done|done|done| |done|].
  - rewrite take_app_le by (rewrite take_length; lia). by rewrite take_take, Nat.min_l by lia.
  - rewrite app_length, take_length, drop_length. lia.
Qed.
Lemma nsp_assign_spec c1 c2 l1 l a b : PRep c1 l1 a → PRep c2 l b → (length l ≤ c1)%nat →
  ∃ a', nsp_assign a b = Some a' ∧ PRep c1 l a' ∧ p_bnd a' = p_bnd b.
Proof.
  intros (_ & _ & _ & _ & Hn1 & Hl1) (Hc & H1 & H2 & Ht & Hn & Hl) Hle. unfold nsp_assign. rewrite Hn, Hn1.
  assert ((if (c2 <=? c1)%nat then c2 else c1) = Nat.min c1 c2) as ->.
  { destruct (Nat.leb_spec c2 c1); lia. }
  rewrite !(proj2 (Nat.leb_le _ _)) by lia. cbn [andb]. eexists. split; [done|]. split; [|done].
  unfold PRep. cbn [p_cur p_vals p_n]. split_and!; [done|done|done| |done|].
  - rewrite take_app_le by (rewrite take_length; lia). by rewrite take_take, Nat.min_l by lia.
  - rewrite !app_length, take_length, replicate_length, drop_length. lia.
Qed.

Lemma nsp_distance_spec c1 c2 l1 l2 a b : PRep c1 l1 a → PRep c2 l2 b →
  nsp_distance a b = Some (Z.of_nat (length l1) + Z.of_nat (length l2) - 2 * Z.of_nat (common (rev l1) (rev l2)))%Z.
Proof.
  intros H1 H2. unfold nsp_distance. rewrite (proj1 H1), (proj1 H2).
  rewrite (common_loop_0 (rev l1) (rev l2)).
  - cbn [mbind option_bind]. f_equal. lia.
  - rewrite !rev_length. lia.
  - rewrite !rev_length. intros j Hj. eapply PRep_at; [done|lia].
  - rewrite !rev_length. intros j Hj. eapply PRep_at; [done|lia].
Qed.
Lemma nsp_relative_spec c1 c2 l1 l2 a b : PRep c1 l1 a → PRep c2 l2 b →
  ∃ ms, nsp_relative a b = Some ms ∧ foldl do_move l1 ms = l2.
Proof.
  intros H1 H2. unfold nsp_relative. rewrite (proj1 H1), (proj1 H2).
  rewrite (common_loop_0 (rev l1) (rev l2)).
  - cbn [mbind option_bind].
    destruct (relative_spec (rev l1) (rev l2) (λ i, slot a (Z.to_N i)) (λ i, slot b (Z.to_N i))) as (ms & E & Hms).
    + intros j x Hx. replace (Z.to_N (Z.of_nat j)) with (N.of_nat j) by lia. eapply PRep_slot'; [exact H1|done].
    + intros j x Hx. replace (Z.to_N (Z.of_nat j)) with (N.of_nat j) by lia. eapply PRep_slot'; [exact H2|done].
    + rewrite !rev_length in E. rewrite !nat_N_Z. rewrite E. exists ms. split; [done|].
      by rewrite !rev_involutive in Hms.
  - rewrite !rev_length. lia.
  - rewrite !rev_length. intros j Hj. eapply PRep_at; [done|lia].
  - rewrite !rev_length. intros j Hj. eapply PRep_at; [done|lia].
Qed.

(** Matrices and points. *)
Lemma matrix_loop_spec cap l s n : ∀ i m, PRep cap l s → (i + n ≤ length l)%nat →
  matrix_loop G TO s (N.of_nat i) n m = Some (foldl (λ a v, t_mul TO a (g_tr G v)) m (take n (drop i (rev l)))).
Proof.
  induction n as [|n IH]; intros i m HP Hi; cbn [matrix_loop]; [done|].
  destruct (lookup_lt_is_Some_2 (rev l) i) as [x Ex]; [rewrite rev_length; lia|].
  rewrite (PRep_slot' _ _ _ _ _ HP Ex). cbn [mbind option_bind]. replace (N.of_nat i + 1) with (N.of_nat (S i)) by lia.
  rewrite IH by (done || lia). by rewrite (drop_S _ _ _ Ex).
Qed.
Lemma point_loop_spec {P} (act : T → P → P) cap l s n : ∀ i p, PRep cap l s → (i + n ≤ length l)%nat →
  point_loop G act s (N.of_nat i) n p = Some (foldl (λ q v, act (g_tr G v) q) p (take n (drop i (rev l)))).
Proof.
  induction n as [|n IH]; intros i m HP Hi; cbn [point_loop]; [done|].
  destruct (lookup_lt_is_Some_2 (rev l) i) as [x Ex]; [rewrite rev_length; lia|].
  rewrite (PRep_slot' _ _ _ _ _ HP Ex). cbn [mbind option_bind]. replace (N.of_nat i + 1) with (N.of_nat (S i)) by lia.
  rewrite IH by (done || lia). by rewrite (drop_S _ _ _ Ex).
Qed.
Lemma nsp_top_matrix_spec cap l s : PRep cap l s → nsp_top_matrix G TO s = Some (path_matrix G TO (rev l)).
Proof.
  intros HP. unfold nsp_top_matrix, path_matrix. destruct l as [|v l].
  - rewrite (proj1 HP). done.
  - rewrite (proj1 HP). change 1 with (N.of_nat 1) at 1.
    rewrite (matrix_loop_spec cap (v :: l)) by (done || (cbn [length]; lia)). f_equal. f_equal.
    apply take_ge. rewrite drop_length, rev_length. lia.
Qed.
Lemma foldl_rev_foldr {P} (f : N → P → P) l p : foldl (λ q v, f v q) p (rev l) = foldr f p l.
Proof. induction l as [|v l IH]; cbn; [done|]. rewrite foldl_app, IH. done. Qed.
Lemma nsp_g2l_spec {P} (act : T → P → P) cap l s p : PRep cap l s →
  nsp_global_to_local G act s p = Some (foldr (λ d q, act (g_tr G d) q) p l).
Proof.
  intros HP. unfold nsp_global_to_local. rewrite (proj1 HP), Nat2N.id. change 0 with (N.of_nat 0).
  rewrite (point_loop_spec act cap l) by (done || lia). rewrite drop_0, take_ge by (by rewrite rev_length).
  by rewrite foldl_rev_foldr.
Qed.

(** Export and import. *)
Lemma find_index_spec ds d k : ∀ i, NoDup ds → ds !! k = Some d → find_index ds d i = Some (i + N.of_nat k).
Proof.
  revert k. induction ds as [|x ds IH]; intros k i Hnd Hk; [done|]. cbn [find_index]. apply NoDup_cons in Hnd as [Hx Hnd].
  destruct k as [|k]; cbn in Hk.
  - injection Hk as ->. rewrite N.eqb_refl. f_equal. lia.
  - destruct (N.eqb_spec x d) as [->|]; [destruct Hx; by eapply elem_of_list_lookup_2|].
    rewrite (IH k) by done. f_equal. lia.
Qed.
End Path.
