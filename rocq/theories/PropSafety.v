(** Properties of the safety estimators: C34. *)
From Coq Require Import Reals Lra Lia.
From stdpp Require Import sets list list_numbers option.
From Verif Require Import Real3 AABBModel AABBSpec AABBProofs BVHModel BVHSpec ABBoxModel ABBoxProofs HybridModel HybridSpec HybridProofs HybridQuery SearchModel SearchSpec SearchProofs SafetyModel SafetySpec SafetyProofs PropBVH PropSearch.
Import stdpp.list.
Local Open Scope R_scope.

(** C34.  [sto] is SafetyToOut of the volume; [inf] of the ToDaughters variants takes its place. *)
Theorem C34_simple : ∀ dau sti sto (In : N → v3 → Prop) (Out : v3 → Prop) p, sti_safe dau sti In p → (∀ q, Out q → sto <= vdist p q) →
  least dau sti sto (simple_safety dau sti sto) ∧ safe dau In Out p (simple_safety dau sti sto).
Proof.
  intros dau sti sto In Out p Hs Ho. pose proof (simple_loop_ok dau sti sto) as H. split; [done|]. destruct H as (A & B & _). split.
  - intros v q Hv Hq. specialize (Hs v q Hv Hq). specialize (B v Hv). cbn in *. unfold simple_safety. lra.
  - intros q Hq. specialize (Ho q Hq). unfold simple_safety. lra.
Qed.
Print Assumptions C34_simple.
Theorem C34_abbox : ∀ kvs M dau boxes sti sto (In : N → v3 → Prop) (Out : v3 → Prop) p, (1 ≤ kvs)%nat → boxed boxes dau In → (Z.of_nat (length dau) ≤ 2000)%Z →
  0 < M + vx p → sto <= M + vx p → sti_safe dau sti In p → (∀ q, Out q → sto <= vdist p q) →
  ∃ r, abbox_safety dau sti kvs M boxes p sto = Some r ∧ safe dau In Out p r ∧ r <= sto ∧ (r = sto ∨ ∃ v, v ∈ dau ∧ r = sti v).
Proof.
  intros kvs M dau boxes sti sto In Out p Hk Hb Hc Hp Hf Hs Ho. destruct (abbox_treat_ok kvs M dau sti p boxes sto Hk (proj1 Hb) Hc Hp Hf) as (r & E & P).
  exists r. split; [done|]. split; [by eapply pruned_safe|]. destruct P as (? & ? & _). done.
Qed.
Print Assumptions C34_abbox.
Theorem C34_hybrid : ∀ kvs pick M dau boxes sti sto (In : N → v3 → Prop) (Out : v3 → Prop) p, (1 ≤ kvs)%nat → chooses pick → boxed boxes dau In → (Z.of_nat (length dau) ≤ 2000)%Z →
  0 < M + vx p → sto <= M + vx p → sti_safe dau sti In p → (∀ q, Out q → sto <= vdist p q) →
  ∃ r, hybrid_safety dau sti kvs M boxes p pick sto = Some r ∧ safe dau In Out p r ∧ (0 < sto → r <= sto ∧ (r = sto ∨ ∃ v, v ∈ dau ∧ r = sti v)) ∧ (sto <= 0 → r = 0).
Proof.
  intros kvs pick M dau boxes sti sto In Out p Hk Hpk Hb Hc Hp Hf Hs Ho. unfold hybrid_safety. destruct (rleb_spec sto 0) as [L|L].
  - exists 0. split; [done|]. split; [|split; [lra|done]]. split; intros; apply sqrt_pos.
  - destruct (hybrid_treat_ok kvs M dau sti p boxes sto Hk (proj1 Hb) Hc Hp Hf pick Hpk) as (r & E & P). exists r. split; [done|]. split; [by eapply pruned_safe|]. destruct P as (? & ? & _). split; [done|lra].
Qed.
Print Assumptions C34_hybrid.
Theorem C34_bvh : ∀ b d dau sti sto (In : N → v3 → Prop) (Out : v3 → Prop) p lim, bvh_ok b d → length dau = length (b_aabbs b) → (S d ≤ lim)%nat →
  (∀ v bx, daughter b dau v bx → proper bx ∧ (∀ q, In v q → in_box bx q ∧ sti v <= vdist p q)) → (∀ q, Out q → sto <= vdist p q) →
  ∃ r, bvh_safety dau sti p (Some b) lim sto = Some r ∧ safe dau In Out p r ∧ r <= sto ∧ (r = sto ∨ ∃ v, v ∈ dau ∧ r = sti v).
Proof.
  intros b d dau sti sto In Out p lim Hb Hl Hlim Hc Ho. unfold bvh_safety. destruct (rgtb sto 0 && (0 <? length dau)%nat) eqn:C.
  - cbn [mbind option_bind]. destruct (C26_safety_underestimates b d dau p sti sto In Hb Hl Hc) as (s & E & A & B & D). exists s. split; [by apply E|]. split; [|done]. split; [done|]. intros q Hq. specialize (Ho q Hq). lra.
  - exists sto. split; [done|]. split; [|split; [lra|by left]]. split; [|done]. intros v q Hv Hq. apply andb_false_iff in C as [C|C].
    + unfold rgtb in C. apply rltb_false in C. assert (0 <= vdist p q) by apply sqrt_pos. lra.
    + apply Nat.ltb_ge in C. destruct dau; [by apply elem_of_nil in Hv|cbn in C; lia].
Qed.
Print Assumptions C34_bvh.
(** ComputeSafetyToDaughtersForLocalPoint: below the distance to every daughter, [inf] or the
    safety of one of them. *)
Theorem C34_to_daughters : ∀ kvs pick M dau boxes sti (In : N → v3 → Prop) p b d lim inf, (1 ≤ kvs)%nat → chooses pick → boxed boxes dau In → (Z.of_nat (length dau) ≤ 2000)%Z →
  0 < inf <= M + vx p → sti_safe dau sti In p → bvh_ok b d → length dau = length (b_aabbs b) → (S d ≤ lim)%nat →
  (∀ v bx, daughter b dau v bx → proper bx ∧ (∀ q, In v q → in_box bx q ∧ sti v <= vdist p q)) →
  let good r := safe dau In (λ _, False) p r ∧ r <= inf ∧ (r = inf ∨ ∃ v, v ∈ dau ∧ r = sti v) in
  good (simple_safety_daughters dau sti inf) ∧
  (∃ r, abbox_safety_daughters dau sti kvs M boxes p inf = Some r ∧ good r) ∧
  (∃ r, hybrid_safety_daughters dau sti kvs M boxes p pick inf = Some r ∧ good r) ∧
  (∃ r, bvh_safety_daughters dau sti p (Some b) lim inf = Some r ∧ good r).
Proof.
  intros kvs pick M dau boxes sti In p b d lim inf Hk Hpk Hb Hc Hp Hs Hbo Hl Hlim Hd good.
  split. { destruct (C34_simple dau sti inf In (λ _, False) p Hs ltac:(done)) as [(A & _ & B) C]. done. }
  split. { by apply (C34_abbox kvs M dau boxes sti inf In (λ _, False) p Hk Hb Hc ltac:(lra) ltac:(lra) Hs ltac:(done)). }
  split. { destruct (C34_hybrid kvs pick M dau boxes sti inf In (λ _, False) p Hk Hpk Hb Hc ltac:(lra) ltac:(lra) Hs ltac:(done)) as (r & E & A & B & _). exists r. split; [|split; [done|by apply B; lra]].
    unfold hybrid_safety in E. destruct (rleb_spec inf 0); [lra|done]. }
  unfold bvh_safety_daughters. cbn [mbind option_bind]. destruct (C26_safety_underestimates b d dau p sti inf In Hbo Hl Hd) as (s & E & A & B & D). exists s. split; [by apply E|]. split; [|done]. split; [done|]. done.
Qed.
Print Assumptions C34_to_daughters.
(** The three give the value of the plain loop if the point is inside the volume and SafetyToIn
    of a daughter is not below the distance to its box. *)
Theorem C34_same_value : ∀ kvs pick M dau boxes sti sto p, (1 ≤ kvs)%nat → chooses pick → length boxes = length dau → (Z.of_nat (length dau) ≤ 2000)%Z →
  0 < sto <= M + vx p →
  (∀ i b v, boxes !! i = Some b → dau !! i = Some v → 0 <= ab_safety_sqr b p → 0 <= sti v ∧ ab_safety_sqr b p <= sti v * sti v) →
  abbox_safety dau sti kvs M boxes p sto = Some (simple_safety dau sti sto) ∧ hybrid_safety dau sti kvs M boxes p pick sto = Some (simple_safety dau sti sto).
Proof.
  intros kvs pick M dau boxes sti sto p Hk Hpk Hl Hc Hf Hb. pose proof (simple_loop_ok dau sti sto) as S. fold (simple_safety dau sti sto) in S.
  assert (∀ r, least dau sti sto r → r = simple_safety dau sti sto) as U.
  { intros r (A & B & C). destruct S as (A' & B' & C'). destruct C as [C|(v & Hv & C)], C' as [C'|(w & Hw & C')]; [congruence|specialize (B w Hw)|specialize (B' v Hv)|specialize (B w Hw); specialize (B' v Hv)]; lra. }
  split.
  - destruct (abbox_treat_ok kvs M dau sti p boxes sto Hk Hl Hc ltac:(lra) ltac:(lra)) as (r & E & P). unfold abbox_safety. rewrite E. f_equal. apply U. eapply pruned_exact; [done|done|lra|done].
  - destruct (hybrid_treat_ok kvs M dau sti p boxes sto Hk Hl Hc ltac:(lra) ltac:(lra) pick Hpk) as (r & E & P). unfold hybrid_safety. destruct (rleb_spec sto 0); [lra|]. rewrite E. f_equal. apply U. eapply pruned_exact; [done|done|lra|done].
Qed.
Print Assumptions C34_same_value.
(** The array for the candidates has 2000 entries, the assertion in the hybrid search says 20000:
    with more daughters nearby it is overrun. *)
Theorem C34_capacity_refuted : ∀ kvs pick M dau boxes sti sto p, (1 ≤ kvs)%nat → chooses pick → length boxes = length dau → (2000 < Z.of_nat (length dau))%Z →
  0 < sto <= M + vx p → (∀ b, b ∈ boxes → ab_safety_sqr b p < sto * sto) →
  hybrid_safety dau sti kvs M boxes p pick sto = None.
Proof.
  intros kvs pick M dau boxes sti sto p Hk Hpk Hl Hc Hf Hb. unfold hybrid_safety. destruct (rleb_spec sto 0); [lra|]. unfold hybrid_treat. destruct (rgtb_spec sto 0); [|lra].
  rewrite (proj2 (Nat.ltb_lt 0 _)) by lia. cbn [andb]. assert (boxes ≠ []) as Hne by (intros ->; cbn in Hl; lia).
  destruct (query_finds kvs M boxes Hk pick Hpk (λ b, rltb (ab_safety_sqr b p) (sto * sto)) Hne) as (s & l & E1 & E2 & N & F); [apply empty_far; lra|apply safety_grows|].
  rewrite E1. cbn [mbind option_bind]. unfold safety_candidates. rewrite E2. cbn [mbind option_bind]. unfold in_array. rewrite decide_False; [done|]. rewrite map_length.
  assert (length boxes ≤ length l)%nat; [|lia]. rewrite <- (fmap_length fst l). rewrite <- (seq_length (length boxes) 0) at 1. apply submseteq_length, NoDup_submseteq; [apply NoDup_seq|].
  intros x K. apply elem_of_seq in K. destruct (lookup_lt_is_Some_2 boxes x) as [b Hx]; [lia|]. apply elem_of_list_fmap. exists (x, b). split; [done|]. apply F. split; [done|]. apply rltb_true. apply Hb. by eapply elem_of_list_lookup_2.
Qed.
Print Assumptions C34_capacity_refuted.
(** A volume without daughters has no BVH. *)
Theorem C34_no_daughters_refuted : ∀ sti p lim inf, bvh_safety_daughters [] sti p None lim inf = None ∧ simple_safety_daughters [] sti inf = inf ∧
  ∀ kvs pick M, abbox_safety_daughters [] sti kvs M [] p inf = Some inf ∧ hybrid_safety_daughters [] sti kvs M [] p pick inf = Some inf.
Proof.
  intros sti p lim inf. split; [done|]. split; [done|]. intros kvs pick M. unfold abbox_safety_daughters, abbox_treat, hybrid_safety_daughters, hybrid_treat. cbn. by rewrite andb_false_r.
Qed.
Print Assumptions C34_no_daughters_refuted.
Example C34_example : let In (v : N) := if (v =? 1)%N then in_box (Box (V3 1 0 0) (V3 2 1 1)) else in_box (Box (V3 3 0 0) (V3 4 1 1)) in
  boxed [Box (V3 1 0 0) (V3 2 1 1); Box (V3 3 0 0) (V3 4 1 1)] [1; 2]%N In ∧ sti_safe [1; 2]%N (λ v, if (v =? 1)%N then 1 else 3) In (V3 0 0 0).
Proof.
  cbv zeta. split.
  - split; [done|]. intros i b v q Hb Hv. destruct i as [|[|i]]; cbn in Hb, Hv; [| |done]; injection Hb as <-; injection Hv as <-; done.
  - intros v q Hv Hq. assert (∀ x, 0 <= x → x <= vx q → x <= vdist (V3 0 0 0) q) as K.
    { intros x H0 Hx. apply Rle_trans with (vx q); [done|]. apply Rsqr_incr_0_var; [|apply sqrt_pos]. unfold Rsqr. rewrite vdist_sqr. unfold vdot, vsub; cbn. pose proof (Rle_0_sqr (vy q)). pose proof (Rle_0_sqr (vz q)). unfold Rsqr in *. lra. }
    destruct (v =? 1)%N; destruct Hq as [Hq _]; cbn in Hq; apply K; lra.
Qed.
