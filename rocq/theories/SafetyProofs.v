(** The safety estimators keep the promise. *)
From Coq Require Import Reals Lra Lia.
From stdpp Require Import sets list list_numbers option.
From Verif Require Import Real3 AABBModel AABBSpec AABBProofs ABBoxModel ABBoxProofs HybridModel HybridSpec HybridProofs HybridQuery SearchModel SearchSpec SearchProofs SafetyModel SafetySpec.
Import stdpp.list.
Local Open Scope nat_scope.

Lemma simple_loop_ok dau sti s0 : least dau sti s0 (simple_loop dau sti s0).
Proof.
  unfold simple_loop. assert (∀ l s, (∀ v, v ∈ l → v ∈ dau) → let r := foldl (λ s v, Rmin s (sti v)) s l in (r <= s)%R ∧ (∀ v, v ∈ l → (r <= sti v)%R) ∧ (r = s ∨ ∃ v, v ∈ dau ∧ r = sti v)) as K.
  { induction l as [|v l IH]; intros s Hl; cbn [foldl].
    - split; [lra|]. split; [intros v H; by apply elem_of_nil in H|]. by left.
    - destruct (IH (Rmin s (sti v))) as (A & B & C); [intros w Hw; apply Hl; by right|]. cbn in *. pose proof (Rmin_l s (sti v)). pose proof (Rmin_r s (sti v)).
      split; [lra|]. split; [intros w [-> | Hw]%elem_of_cons; [lra|by apply B]|]. assert (Rmin s (sti v) = s ∨ Rmin s (sti v) = sti v) as Q by (unfold Rmin; destruct (Rle_dec s (sti v)); auto).
      destruct C as [C|C]; [|by right]. destruct Q as [Q|Q]; [left; congruence|]. right. exists v. split; [apply Hl; left|congruence]. }
  destruct (K dau s0) as (A & B & C); [done|]. done.
Qed.
Lemma sqrt_le_dist b d : (0 <= d → b <= d * d → ∀ s, s * s <= b → s <= d)%R.
Proof. intros Hd Hb s Hs. destruct (Rle_dec s d); [done|]. assert (d * d < s * s)%R by (apply Rmult_le_0_lt_compat; lra). lra. Qed.

(** The pruned loop. *)
Section Loop.
Variables (dau : list N) (sti : N → R) (p : v3) (boxes : list aabb) (s0 : R).
Hypothesis Hlen : length boxes = length dau.
Hypothesis Hs0 : (0 < s0)%R.
Definition lists (cands : list (nat * R)) : Prop :=
  (∀ i x, (i, x) ∈ cands → ∃ b, boxes !! i = Some b ∧ x = ab_safety_sqr b p) ∧
  ∀ i b, boxes !! i = Some b → (ab_safety_sqr b p < s0 * s0)%R → (i, ab_safety_sqr b p) ∈ cands.
Lemma safety_loop_ok cands : lists cands →
  ∃ r, safety_loop dau sti cands s0 = Some r ∧ (r <= s0)%R ∧ (r = s0 ∨ ∃ v, v ∈ dau ∧ r = sti v) ∧
    ∀ i b v, boxes !! i = Some b → dau !! i = Some v → (r <= sti v ∨ ∃ s', r <= s' ∧ s' * s' <= ab_safety_sqr b p)%R.
Proof.
  intros [L1 L2].
  assert (∀ l s, (∀ i x, (i, x) ∈ l → ∃ b, boxes !! i = Some b ∧ x = ab_safety_sqr b p) → ∃ r, safety_loop dau sti l s = Some r ∧ (r <= s)%R ∧ (r = s ∨ ∃ v, v ∈ dau ∧ r = sti v) ∧
    ∀ i x v, (i, x) ∈ l → dau !! i = Some v → (r <= sti v ∨ ∃ s', r <= s' ∧ s' * s' <= x)%R) as K.
  { induction l as [|[i x] l IH]; intros s Hl; cbn [safety_loop].
    - exists s. split; [done|]. split; [lra|]. split; [by left|]. intros i x v H. by apply elem_of_nil in H.
    - destruct (Hl i x) as (b & Hb & ->); [left|]. destruct (lookup_lt_is_Some_2 dau i) as [v Hv]; [rewrite <- Hlen; by eapply lookup_lt_Some|].
      assert (v ∈ dau) as Hvd by (by eapply elem_of_list_lookup_2). destruct (rltb_spec (ab_safety_sqr b p) (s * s)) as [L|L].
      + rewrite Hv. cbn [mbind option_bind]. destruct (IH (if rltb (sti v) s then sti v else s)) as (r & E & A & B & C); [intros ? ? ?; apply Hl; by right|].
        exists r. split; [done|]. assert (r <= s ∧ r <= sti v)%R as [R1 R2] by (destruct (rltb_spec (sti v) s); lra). split; [done|]. split.
        { destruct B as [-> |?]; [|by right]. destruct (rltb (sti v) s); [right; by exists v|by left]. }
        intros j y w [[= -> ->]|H]%elem_of_cons Hw; [|by apply (C j y w)]. left. assert (w = v) as -> by congruence. done.
      + destruct (IH s) as (r & E & A & B & C); [intros ? ? ?; apply Hl; by right|]. exists r. split; [done|]. split; [done|]. split; [done|].
        intros j y w [[= -> ->]|H]%elem_of_cons Hw; [|by apply (C j y w)]. right. exists s. lra. }
  destruct (K cands s0 L1) as (r & E & A & B & C). exists r. split; [done|]. split; [done|]. split; [done|].
  intros i b v Hb Hv. destruct (Rlt_dec (ab_safety_sqr b p) (s0 * s0)) as [L|L]; [|right; exists s0; lra]. by apply (C i _ v); [apply L2|].
Qed.
End Loop.

Section Estimators.
Variables (kvs : nat) (M : R) (dau : list N) (sti : N → R) (p : v3) (boxes : list aabb) (s0 : R).
Hypothesis Hk : 1 ≤ kvs.
Hypothesis Hlen : length boxes = length dau.
Hypothesis Hcap : (Z.of_nat (length dau) ≤ 2000)%Z.
Hypothesis Hp : (0 < M + vx p)%R.
Hypothesis Hfar : (s0 <= M + vx p)%R.
(** The answer is the start value or the safety of a daughter; each daughter that did not take part is behind its box. *)
Definition pruned_least (r : R) : Prop :=
  (r <= s0)%R ∧ (r = s0 ∨ ∃ v, v ∈ dau ∧ r = sti v) ∧
  ∀ i b v, boxes !! i = Some b → dau !! i = Some v → (0 < s0 → r <= sti v ∨ ∃ s', r <= s' ∧ s' * s' <= ab_safety_sqr b p)%R.
Lemma far_sqr : (0 < s0)%R → (s0 * s0 <= (M + vx p) * (M + vx p))%R.
Proof. intros H. apply Rmult_le_compat; lra. Qed.
Lemma empty_far : (0 < s0)%R → rltb (ab_safety_sqr (empty_box M) p) (s0 * s0) = false.
Proof. intros H. apply rltb_false. pose proof (safety_empty M p Hp). pose proof (far_sqr H). lra. Qed.
Lemma abbox_cands_ok : (0 < s0)%R → lists p boxes s0 (abbox_safety_cands kvs M boxes p (s0 * s0)) ∧ length (abbox_safety_cands kvs M boxes p (s0 * s0)) ≤ length boxes.
Proof.
  intros H. set (f := λ x, let s := ab_safety_sqr (vector_lane M boxes x) p in if rltb s (s0 * s0) then [(x, s)] else []).
  assert (abbox_safety_cands kvs M boxes p (s0 * s0) = (seq 0 (ceil_div (length boxes) kvs * kvs) ≫= f)) as ->.
  { unfold abbox_safety_cands. change ((seq 0 (ceil_div (length boxes) kvs) ≫= λ x, seq 0 kvs ≫= λ i, f (x * kvs + i)) = (seq 0 (ceil_div (length boxes) kvs * kvs) ≫= f)). by rewrite blocks. }
  assert (∀ x y, y ∈ f x → x < length boxes ∧ y = (x, ab_safety_sqr (vector_lane M boxes x) p)) as Hf.
  { intros x y K. unfold f in K. cbv zeta in K. destruct (rltb (ab_safety_sqr (vector_lane M boxes x) p) (s0 * s0)) eqn:T; [|by apply elem_of_nil in K].
    apply elem_of_list_singleton in K as ->. split; [|done]. destruct (decide (x < length boxes)); [done|exfalso]. unfold vector_lane in T. rewrite lookup_ge_None_2 in T by lia. cbn in T. rewrite empty_far in T; done. }
  split; [split|].
  - intros i x K. apply elem_of_list_bind in K as (z & K & _). apply Hf in K as [Hz [= -> ->]]. unfold vector_lane. destruct (lookup_lt_is_Some_2 boxes z Hz) as [b Hb]. exists b. by rewrite Hb.
  - intros i b Hb L. apply elem_of_list_bind. exists i. split.
    + unfold f, vector_lane. rewrite Hb. cbn. destruct (rltb_spec (ab_safety_sqr b p) (s0 * s0)); [left|lra].
    + apply elem_of_seq. split; [lia|]. apply lookup_lt_Some in Hb. destruct (ceil_div_spec (length boxes) kvs Hk) as [? _]. lia.
  - assert (∀ n o, (seq o n ≫= f).*1 `sublist_of` seq o n) as S.
    { induction n as [|n IH]; intros o; [done|]. cbn [seq]. rewrite bind_cons, fmap_app. unfold f at 1. cbv zeta. destruct (rltb _ _); cbn; [by apply sublist_skip|by apply sublist_cons]. }
    rewrite <- (fmap_length fst). transitivity (length (seq 0 (length boxes))); [|by rewrite seq_length]. apply submseteq_length, NoDup_submseteq.
    + eapply sublist_nodup; [apply S|apply NoDup_seq].
    + intros x K. apply elem_of_list_fmap in K as (y & -> & K). apply elem_of_list_bind in K as (z & K & _). apply Hf in K as [Hz ->]. apply elem_of_seq. cbn. lia.
Qed.
Lemma stay : (s0 <= 0)%R ∨ dau = [] → pruned_least s0.
Proof. intros H. split; [lra|]. split; [by left|]. intros i b v _ Hv P. destruct H as [H|H]; [lra|]. by rewrite H in Hv. Qed.
Lemma skip_stay : rgtb s0 0 && (0 <? length dau) = false → (s0 <= 0)%R ∨ dau = [].
Proof. intros H. apply andb_false_iff in H as [H|H]; [left; unfold rgtb in H; by apply rltb_false in H|right]. apply Nat.ltb_ge in H. destruct dau; [done|cbn in H; lia]. Qed.
Lemma abbox_treat_ok : ∃ r, abbox_treat dau sti kvs M boxes p s0 = Some r ∧ pruned_least r.
Proof.
  unfold abbox_treat. destruct (rgtb s0 0 && (0 <? length dau)) eqn:C; [|exists s0; split; [done|apply stay; by apply skip_stay]].
  apply andb_true_iff in C as [C1 C2]. unfold rgtb in C1. apply rltb_true in C1. destruct (abbox_cands_ok C1) as [L Ln]. unfold in_array. rewrite decide_True by lia. cbn [mbind option_bind].
  destruct (safety_loop_ok dau sti p boxes s0 Hlen _ L) as (r & E & A & B & D). exists r. split; [done|]. split; [done|]. split; [done|]. intros i b v Hb Hv _. by apply (D i).
Qed.
Variable pick : nat → list nat → list nat → nat.
Hypothesis pick_ok : ∀ ci cl set, set ≠ [] → pick ci cl set ∈ set.
Lemma hybrid_treat_ok : ∃ r, hybrid_treat dau sti kvs M boxes p pick s0 = Some r ∧ pruned_least r.
Proof.
  unfold hybrid_treat. destruct (rgtb s0 0 && (0 <? length dau)) eqn:C; [|exists s0; split; [done|apply stay; by apply skip_stay]].
  apply andb_true_iff in C as [C1 C2]. unfold rgtb in C1. apply rltb_true in C1. apply Nat.ltb_lt in C2. assert (boxes ≠ []) as Hne by (intros ->; cbn in Hlen; lia).
  destruct (query_finds kvs M boxes Hk pick pick_ok (λ b, rltb (ab_safety_sqr b p) (s0 * s0)) Hne) as (s & l & E1 & E2 & N & F); [by apply empty_far|apply safety_grows|].
  rewrite E1. cbn [mbind option_bind]. unfold safety_candidates. rewrite E2. cbn [mbind option_bind].
  set (c := map (λ xb : nat * aabb, (xb.1, ab_safety_sqr xb.2 p)) l). assert (lists p boxes s0 c) as L.
  { split.
    - intros i x K. apply elem_of_list_fmap in K as ([y b] & [= -> ->] & K). apply F in K as [K _]. by exists b.
    - intros i b Hb Lb. apply elem_of_list_fmap. exists (i, b). split; [done|]. apply F. split; [done|]. by apply rltb_true. }
  assert (length c ≤ length boxes) as Lc.
  { unfold c. rewrite map_length. rewrite <- (fmap_length fst). transitivity (length (seq 0 (length boxes))); [|by rewrite seq_length]. apply submseteq_length, NoDup_submseteq; [done|].
    intros x K. apply elem_of_list_fmap in K as ([y b] & -> & K). apply F in K as [K _]. apply elem_of_seq. apply lookup_lt_Some in K. cbn. lia. }
  unfold in_array. rewrite decide_True by lia. cbn [mbind option_bind].
  destruct (safety_loop_ok dau sti p boxes s0 Hlen _ L) as (r & E & A & B & D). exists r. split; [done|]. split; [done|]. split; [done|]. intros i b v Hb Hv _. by apply (D i).
Qed.
End Estimators.
(** What this means. *)
Lemma pruned_safe dau sti p boxes s0 In (Out : v3 → Prop) r : pruned_least dau sti p boxes s0 r → boxed boxes dau In → sti_safe dau sti In p → (∀ q, Out q → (s0 <= vdist p q)%R) → safe dau In Out p r.
Proof.
  intros (A & B & C) [Hl Hb] Hs Ho. split; [|intros q Hq; specialize (Ho q Hq); lra]. intros v q Hv Hq. pose proof (Hs v q Hv Hq) as Hst.
  assert (0 <= vdist p q)%R as D0 by apply sqrt_pos.
  apply elem_of_list_lookup in Hv as [i Hi]. destruct (lookup_lt_is_Some_2 boxes i) as [b Eb]; [rewrite Hl; by eapply lookup_lt_Some|].
  destruct (Rlt_dec 0 s0) as [P|P]; [|lra]. destruct (C i b v Eb Hi P) as [K|(s' & K1 & K2)]; [lra|].
  pose proof (ab_safety_lower b p q (Hb i b v q Eb Hi Hq)). pose proof (sqrt_le_dist (ab_safety_sqr b p) (vdist p q) D0 ltac:(lra) s' K2). lra.
Qed.
(** The least value itself, if SafetyToIn of a daughter is not below the distance to its box. *)
Lemma pruned_exact dau sti p boxes s0 r : length boxes = length dau → pruned_least dau sti p boxes s0 r → (0 < s0)%R →
  (∀ i b v, boxes !! i = Some b → dau !! i = Some v → (0 <= ab_safety_sqr b p → 0 <= sti v ∧ ab_safety_sqr b p <= sti v * sti v)%R) → least dau sti s0 r.
Proof.
  intros Hl (A & B & C) P H. split; [done|]. split; [|done]. intros v Hv. apply elem_of_list_lookup in Hv as [i Hi]. destruct (lookup_lt_is_Some_2 boxes i) as [b Eb]; [rewrite Hl; by eapply lookup_lt_Some|].
  destruct (C i b v Eb Hi P) as [K|(s' & K1 & K2)]; [lra|]. assert (0 <= ab_safety_sqr b p)%R as Z by (pose proof (Rle_0_sqr s'); unfold Rsqr in *; lra).
  destruct (H i b v Eb Hi Z) as [H1 H2]. pose proof (sqrt_le_dist _ _ H1 H2 s' K2). lra.
Qed.
