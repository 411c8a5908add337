(** Properties of the searches through the daughters: C33, C35, C36. *)
From Coq Require Import Reals Lra Lia.
From stdpp Require Import sets list list_numbers option sorting.
From Verif Require Import Real3 AABBModel AABBSpec AABBProofs BVHModel BVHSpec VoxelModel ABBoxModel ABBoxProofs HybridModel HybridSpec HybridProofs HybridQuery SortModel SortProofs SearchModel SearchSpec SearchProofs PropBVH.
Import stdpp.list.
Local Open Scope R_scope.

(** Choosing the next member of a cluster: any rule that picks one of the remaining daughters. *)
Definition chooses (pick : nat → list nat → list nat → nat) : Prop := ∀ ci cl set, set ≠ [] → pick ci cl set ∈ set.
Definition pick_first (ci : nat) (cl set : list nat) : nat := default 0%nat (head set).
Lemma pick_first_ok : chooses pick_first.
Proof. intros ci cl [|x set] H; [done|]. left. Qed.

(** C35. *)
Theorem C35_clusters : ∀ kvs pick n, (1 ≤ kvs)%nat → (1 ≤ n)%nat → chooses pick → clustering n kvs (clusters kvs pick n).
Proof. intros kvs pick n Hk Hn Hp. by apply clusters_ok. Qed.
Print Assumptions C35_clusters.
Theorem C35_no_daughters : ∀ kvs pick M, build_structure kvs pick M [] = Some None.
Proof. done. Qed.
Print Assumptions C35_no_daughters.
(** Lane [j] of the members of node [i] has the box of member [j]; the lane of the node has a box
    around them; lanes without member hold the filling box. *)
Theorem C35_layout : ∀ kvs pick M boxes, (1 ≤ kvs)%nat → chooses pick → boxes ≠ [] →
  ∃ s, build_structure kvs pick M boxes = Some (Some s) ∧ clustering (length boxes) kvs (h_nodes s) ∧
    ∀ i c, h_nodes s !! i = Some c →
      let g := ((kvs + 1) * (i / kvs))%nat in let r := (i mod kvs)%nat in
      (∀ j, (j < kvs)%nat → match c !! j with
         | Some x => boxes !! x = Some (h_lane s (g + r + 1) j) ∧ within (h_lane s (g + r + 1) j) (h_lane s g r)
         | None => h_lane s (g + r + 1) j = empty_box M end).
Proof.
  intros kvs pick M boxes Hk Hp Hb. destruct (build_ok kvs M boxes Hk pick Hp Hb) as (f & E & F). eexists. split; [exact E|]. assert (1 ≤ length boxes)%nat as Hn by (destruct boxes; [done|cbn; lia]).
  cbn [h_nodes h_lane]. split; [by apply clusters_ok|]. intros i c Hc j Hj. pose proof (Nat.mod_upper_bound i kvs ltac:(lia)) as U. pose proof (Nat.div_mod i kvs ltac:(lia)) as Di.
  rewrite !F by lia. rewrite (layout_leaf kvs M boxes Hk) by lia. rewrite (layout_node kvs M boxes Hk). rewrite <- Di. rewrite Hc. destruct (c !! j) as [x|] eqn:Ex; [|done].
  assert (c ∈ clusters kvs pick (length boxes)) as Hc' by (by eapply elem_of_list_lookup_2). assert (x ∈ c) as Hx by (by eapply elem_of_list_lookup_2).
  split; [|by apply node_box_within]. pose proof (members_in kvs Hk pick Hp _ c Hn Hc') as M1. rewrite Forall_forall in M1. apply M1 in Hx. unfold the_box. apply lookup_lt_is_Some_2 in Hx as [b ->]. done.
Qed.
Print Assumptions C35_layout.
Theorem C35_containing : ∀ kvs pick M boxes p, (1 ≤ kvs)%nat → chooses pick → boxes ≠ [] →
  ∃ s l, build_structure kvs pick M boxes = Some (Some s) ∧ containing_candidates kvs s p = Some l ∧
    NoDup l ∧ ∀ x, x ∈ l ↔ ∃ b, boxes !! x = Some b ∧ in_interior b p.
Proof.
  intros kvs pick M boxes p Hk Hp Hb. destruct (query_finds kvs M boxes Hk pick Hp (λ b, ab_contains b p) Hb) as (s & l & E1 & E2 & N & F); [apply contains_empty|apply contains_grows|].
  exists s, (map fst l). split; [done|]. unfold containing_candidates. rewrite E2. split; [done|]. split; [done|].
  assert (∀ b, ab_contains b p = true ↔ in_interior b p) as K. { intros b. unfold ab_contains, in_interior. rewrite !andb_true_iff. unfold rgtb. rewrite !rltb_true. lra. }
  intros x. change (x ∈ fst <$> l ↔ ∃ b, boxes !! x = Some b ∧ in_interior b p). rewrite elem_of_list_fmap. split.
  - intros ([y b] & -> & H). apply F in H as [? ?]. exists b. cbn. by rewrite <- K.
  - intros (b & ? & ?). exists (x, b). split; [done|]. apply F. by rewrite K.
Qed.
Print Assumptions C35_containing.
(** The candidates of a ray: exactly the boxes the line meets in time, with the entry distance. *)
Theorem C35_ray : ∀ kvs pick M boxes p d maxstep, (1 ≤ kvs)%nat → chooses pick → boxes ≠ [] → no_zero d → 0 <= maxstep <= M → unreached M p d maxstep →
  ∃ s l, build_structure kvs pick M boxes = Some (Some s) ∧ hit_candidates kvs M s p (vinv d) maxstep = Some l ∧ NoDup l.*1 ∧
    (∀ x t, (x, t) ∈ l ↔ ∃ b, boxes !! x = Some b ∧ t = kernel2 M b p (vinv d) 0 maxstep ∧ t < maxstep) ∧
    (∀ x b t, boxes !! x = Some b → 0 <= t < maxstep → in_box b (along p d t) → ∃ t', (x, t') ∈ l ∧ t' <= t).
Proof.
  intros kvs pick M boxes p d ms Hk Hp Hb Hd Hm Hu. destruct (query_finds kvs M boxes Hk pick Hp (λ b, rltb (kernel2 M b p (vinv d) 0 ms) ms) Hb) as (s & l & E1 & E2 & N & F); [apply unreached_empty; [done|done|lra]|apply kernel2_grows; lra|].
  exists s, (map (λ xb : nat * aabb, (xb.1, kernel2 M xb.2 p (vinv d) 0 ms)) l). split; [done|]. unfold hit_candidates. rewrite E2. split; [done|].
  assert (∀ x t, (x, t) ∈ map (λ xb : nat * aabb, (xb.1, kernel2 M xb.2 p (vinv d) 0 ms)) l ↔ ∃ b, boxes !! x = Some b ∧ t = kernel2 M b p (vinv d) 0 ms ∧ t < ms) as K.
  { intros x t. change ((x, t) ∈ (λ xb : nat * aabb, (xb.1, kernel2 M xb.2 p (vinv d) 0 ms)) <$> l ↔ ∃ b, boxes !! x = Some b ∧ t = kernel2 M b p (vinv d) 0 ms ∧ t < ms). rewrite elem_of_list_fmap. split.
    - intros ([y b] & [= -> ->] & H). apply F in H as [? ?%rltb_true]. by exists b.
    - intros (b & ? & -> & ?). exists (x, b). split; [done|]. apply F. split; [done|]. by apply rltb_true. }
  split; [|split; [done|]].
  - change (map (λ xb : nat * aabb, (xb.1, kernel2 M xb.2 p (vinv d) 0 ms)) l) with ((λ xb : nat * aabb, (xb.1, kernel2 M xb.2 p (vinv d) 0 ms)) <$> l). rewrite <- list_fmap_compose. done.
  - intros x b t Hx Ht Hin. pose proof (kernel2_entering M b p d ms t Hd Hin Ht). exists (kernel2 M b p (vinv d) 0 ms). split; [|done]. apply K. exists b. split; [done|]. split; [done|lra].
Qed.
Print Assumptions C35_ray.
(** The candidates for a safety: exactly the boxes nearer than the limit. *)
Theorem C35_safety : ∀ kvs pick M boxes p limit, (1 ≤ kvs)%nat → chooses pick → boxes ≠ [] → 0 < M + vx p → limit <= (M + vx p) * (M + vx p) →
  ∃ s l, build_structure kvs pick M boxes = Some (Some s) ∧ safety_candidates kvs s p limit = Some l ∧ NoDup l.*1 ∧
    (∀ x t, (x, t) ∈ l ↔ ∃ b, boxes !! x = Some b ∧ t = ab_safety_sqr b p ∧ t < limit) ∧
    (∀ x b q, boxes !! x = Some b → in_box b q → vdist p q * vdist p q < limit → ∃ t, (x, t) ∈ l ∧ t <= vdist p q * vdist p q).
Proof.
  intros kvs pick M boxes p limit Hk Hp Hb HM Hl. destruct (query_finds kvs M boxes Hk pick Hp (λ b, rltb (ab_safety_sqr b p) limit) Hb) as (s & l & E1 & E2 & N & F); [apply rltb_false; pose proof (safety_empty M p HM); lra|apply safety_grows|].
  exists s, (map (λ xb : nat * aabb, (xb.1, ab_safety_sqr xb.2 p)) l). split; [done|]. unfold safety_candidates. rewrite E2. split; [done|].
  assert (∀ x t, (x, t) ∈ map (λ xb : nat * aabb, (xb.1, ab_safety_sqr xb.2 p)) l ↔ ∃ b, boxes !! x = Some b ∧ t = ab_safety_sqr b p ∧ t < limit) as K.
  { intros x t. change ((x, t) ∈ (λ xb : nat * aabb, (xb.1, ab_safety_sqr xb.2 p)) <$> l ↔ ∃ b, boxes !! x = Some b ∧ t = ab_safety_sqr b p ∧ t < limit). rewrite elem_of_list_fmap. split.
    - intros ([y b] & [= -> ->] & H). apply F in H as [? ?%rltb_true]. by exists b.
    - intros (b & ? & -> & ?). exists (x, b). split; [done|]. apply F. split; [done|]. by apply rltb_true. }
  split; [|split; [done|]].
  - change (map (λ xb : nat * aabb, (xb.1, ab_safety_sqr xb.2 p)) l) with ((λ xb : nat * aabb, (xb.1, ab_safety_sqr xb.2 p)) <$> l). rewrite <- list_fmap_compose. done.
  - intros x b q Hx Hin Hq. pose proof (ab_safety_lower b p q Hin). exists (ab_safety_sqr b p). split; [|done]. apply K. exists b. split; [done|]. split; [done|lra].
Qed.
Print Assumptions C35_safety.
(** The search that lowers its limit on the way still answers every nearest object, provided the
    objects do not touch the faces of their boxes; [obj x] is the point of object [x] nearest to [p]. *)
Theorem C35_lowered_limit : ∀ kvs pick M boxes p limit (obj : nat → v3) m, (1 ≤ kvs)%nat → chooses pick → boxes ≠ [] →
  (∀ x b, boxes !! x = Some b → in_interior b (obj x) ∧ m <= vdist p (obj x) * vdist p (obj x)) → m < limit → 0 < M + vx p → limit <= (M + vx p) * (M + vx p) →
  ∃ s l, build_structure kvs pick M boxes = Some (Some s) ∧ safety_candidates2 kvs s p limit = Some l ∧
    (∀ x t, (x, t) ∈ l → ∃ b, boxes !! x = Some b ∧ t = ab_safety_sqr b p) ∧
    (∀ x, (x < length boxes)%nat → vdist p (obj x) * vdist p (obj x) = m → ∃ t, (x, t) ∈ l).
Proof.
  intros kvs pick M boxes p limit obj m Hk Hp Hb Ho Hm HM Hl. destruct (build_ok kvs M boxes Hk pick Hp Hb) as (f & E & F). assert (1 ≤ length boxes)%nat as Hn by (destruct boxes; [done|cbn; lia]).
  eexists. destruct (lowering_ok kvs M boxes pick (Structure (length boxes) f (clusters kvs pick (length boxes))) p obj limit m) as (l & E1 & E2 & E3); try done.
  - intros x b H. by apply (Ho x b).
  - intros x Hx. apply lookup_lt_is_Some_2 in Hx as [b Hb']. by apply (Ho x b).
  - exists l. split; [done|]. split; [done|]. split; [done|]. intros x Hx Q. specialize (E3 x Hx Q). apply elem_of_list_fmap in E3 as ([y t] & -> & ?). by exists t.
Qed.
Print Assumptions C35_lowered_limit.
Example C35_example : chooses pick_first ∧ clusters 4 pick_first 6 = [[0; 1; 2]; [3; 4; 5]]%nat ∧ vector_size 4 6 = 3%nat ∧ clusters 2 pick_first 5 = [[0; 1]; [2; 3]; [4]]%nat.
Proof. split; [apply pick_first_ok|]. done. Qed.
Example C35_far_example : unreached 1000000 (V3 1 2 3) (V3 (3 / 5) (1 / 2) (-1 / 2)) 1000 ∧ 0 < 1000000 + vx (V3 1 2 3).
Proof. split; [|cbn; lra]. apply far_unreached; unfold vdot; cbn [vx vy vz]; try lra; rewrite Rabs_right; lra. Qed.

(** C36. *)
Theorem C36_insertionsort : ∀ (l rest : list (nat * R)), (Z.of_nat (length l) ≤ 32768)%Z →
  ∃ out, insertionsort hits_before (l ++ rest) (length l) = Some (out ++ rest) ∧ out ≡ₚ l ∧ StronglySorted (λ a b : nat * R, a.2 <= b.2) out ∧
    ∀ d, filter (λ x : nat * R, rleb x.2 d && rleb d x.2 = true) out = filter (λ x : nat * R, rleb x.2 d && rleb d x.2 = true) l.
Proof.
  intros l rest Hl. destruct (insertionsort_ok hits_before) with (l := l) (rest := rest) as (out & E & S & P & F).
  - intros x y z. unfold hits_before. rewrite !rltb_true. lra.
  - intros x y z. unfold hits_before. rewrite !rltb_false. lra.
  - intros x. unfold hits_before. apply rltb_false. lra.
  - done.
  - exists out. split; [done|]. split; [done|]. split.
    + clear -S. induction S as [|a l S IH H]; constructor; [done|]. eapply Forall_impl; [exact H|]. intros b K. unfold SortProofs.le, hits_before in K. apply rltb_false in K. lra.
    + intros d. specialize (F (0%nat, d)). assert (∀ x : nat * R, rleb x.2 d && rleb d x.2 = true ↔ same hits_before (0%nat, d) x) as K.
      { intros x. unfold same, hits_before. cbn. rewrite andb_true_iff, !rleb_true, !rltb_false. lra. }
      etrans; [|etrans; [exact F|]]; [|symmetry]; apply list_filter_iff; intros x; apply K.
Qed.
Print Assumptions C36_insertionsort.
(** The counter is an unsigned short and the hole a short: longer arrays are written outside. *)
Theorem C36_long_arrays_refuted : ∀ (arr : list (nat * R)) n, (32768 < Z.of_nat n)%Z → insertionsort hits_before arr n = None.
Proof. intros arr n H. by apply insertionsort_long. Qed.
Print Assumptions C36_long_arrays_refuted.
Example C36_example : insertionsort (λ a b : Z * Z, (a.2 <? b.2)%Z) ([(0, 5); (1, 2); (2, 5); (3, -1); (4, 2)] ++ [(9, 0)])%Z 5 = Some [(3, -1); (1, 2); (4, 2); (0, 5); (2, 5); (9, 0)]%Z.
Proof. done. Qed.

(** C33. *)
Theorem C33_simple : ∀ dau D dti last step0 hit0, exact_below D dti → nearest dau D last step0 hit0 (simple_search dau dti last (step0, hit0)).
Proof. intros. by apply simple_ok. Qed.
Print Assumptions C33_simple.
Theorem C33_abbox : ∀ kvs M dau boxes D dti last p dir step0 hit0, (1 ≤ kvs)%nat → 0 <= M → exact_below D dti → 0 <= step0 →
  (∀ v, v ∈ dau → D v < step0 → D v < M) → no_zero dir → boxes_hold boxes dau D p dir step0 → unreached M p dir M → (Z.of_nat (length dau) ≤ 2000)%Z →
  ∃ r, abbox_search dau dti last kvs M boxes p dir (step0, hit0) = Some r ∧ nearest dau D last step0 hit0 r.
Proof.
  intros kvs M dau boxes D dti last p dir step0 hit0 Hk HM Hex Hs Hf Hnz Hb Hu Hc. apply (abbox_ok kvs M dau boxes D dti last p dir step0 hit0); try done.
  pose proof (abbox_length kvs M boxes p dir Hk Hnz Hu). destruct Hb as [Hb _]. lia.
Qed.
Print Assumptions C33_abbox.
Theorem C33_hybrid : ∀ kvs pick M dau boxes D dti last p dir step0 hit0, (1 ≤ kvs)%nat → chooses pick → 0 <= M → exact_below D dti → 0 <= step0 →
  (∀ v, v ∈ dau → D v < step0 → D v < M) → boxes_hold boxes dau D p (vnonzero dir) step0 → unreached M p (vnonzero dir) (Rmin step0 M) → (Z.of_nat (length dau) ≤ 20000)%Z →
  ∃ r, hybrid_search dau dti last kvs M boxes p dir pick (step0, hit0) = Some r ∧ nearest dau D last step0 hit0 r.
Proof. intros. by apply (hybrid_ok kvs M dau boxes D dti last p dir step0 hit0). Qed.
Print Assumptions C33_hybrid.
Theorem C33_bvh : ∀ b d dau p dir D dti last step0 hit0, bvh_ok b d → length dau = length (b_aabbs b) → exact_below D dti →
  (∀ v bx, daughter b dau v bx → 0 <= D v → clear_in bx p dir (D v)) → (∀ v bx, daughter b dau v bx → D v < 0 → D v = -1 ∧ in_interior bx p) → 0 <= step0 →
  ∃ r, (∀ lim, (S d ≤ lim)%nat → check_intersections b dau p dir dti last step0 hit0 lim = Some r) ∧ nearest dau D last step0 hit0 r.
Proof.
  intros b d dau p dir D dti last step0 hit0 H1 H2 H3 H4 H5 H6. destruct (C25_nearest_daughter b d dau p dir D dti last step0 hit0) as (step & hit & E & A & B & C); try done.
  exists (step, hit). split; [done|]. done.
Qed.
Print Assumptions C33_bvh.
(** So any two of them return the same step, and the same daughter unless two daughters are hit at
    the same distance. *)
Theorem C33_same_answer : ∀ dau D last step0 hit0 r r', nearest dau D last step0 hit0 r → nearest dau D last step0 hit0 r' →
  r.1 = r'.1 ∧ ((∀ v w, v ∈ dau → w ∈ dau → counts D last v → counts D last w → D v = D w → v = w) → r = r').
Proof. intros. by eapply nearest_agree. Qed.
Print Assumptions C33_same_answer.
(** With a blocked volume they agree if every daughter is ahead and the normal of the blocked
    volume does not point along the ray. *)
Theorem C33_blocked_partial : ∀ kvs pick M dau boxes D dti ndot blocked p dir step0 hit0, (1 ≤ kvs)%nat → chooses pick → 0 <= M → exact_below D dti → 0 <= step0 →
  (∀ v, v ∈ dau → D v < step0 → D v < M) → no_zero dir → boxes_hold boxes dau D p dir step0 → boxes_hold boxes dau D p (vnonzero dir) step0 →
  unreached M p dir M → unreached M p (vnonzero dir) (Rmin step0 M) → (Z.of_nat (length dau) ≤ 2000)%Z →
  (∀ v, v ∈ dau → 0 < D v) → (∀ b, blocked = Some b → ndot b < 1 / 1000) →
  nearest dau D None step0 hit0 (simple_blocked dau dti blocked ndot (step0, hit0)) ∧
  (∃ r, abbox_blocked dau dti kvs M boxes p dir blocked ndot (step0, hit0) = Some r ∧ nearest dau D None step0 hit0 r) ∧
  (∃ r, hybrid_blocked dau dti kvs M boxes p dir blocked pick (step0, hit0) = Some r ∧ nearest dau D None step0 hit0 r).
Proof.
  intros kvs pick M dau boxes D dti ndot blocked p dir step0 hit0 Hk Hp HM Hex Hs Hf Hnz Hb Hb' Hu Hu' Hc Ha Hn. split; [|split].
  - rewrite (simple_blocked_eq dau D dti ndot blocked) by done. by apply simple_ok.
  - unfold abbox_blocked. destruct (decide (dau = [])) as [-> | Hd].
    { exists (step0, hit0). split; [done|]. split; [cbn; lra|]. split; [|by left]. intros v H. by apply elem_of_nil in H. }
    pose proof (abbox_length kvs M boxes p dir Hk Hnz Hu) as L. pose proof (proj1 Hb) as L2. destruct (sorted_hits_ok 2000 (abbox_hits kvs M boxes p dir) ltac:(lia) ltac:(lia)) as (h & E & S & P).
    destruct dau as [|v0 dau'] eqn:Ed; [done|]. rewrite <- Ed in *. rewrite E. cbn [mbind option_bind].
    apply (walk_ok dau D dti None step0 hit0 Hex); [intros v Hv ? ?; specialize (Ha v Hv); lra|done|done| |done|].
    + intros i t r v st Hv _. cbn [try_sorted_blocked]. rewrite Hv. cbn [mbind option_bind]. rewrite (abbox_try_eq dau D) by (try done; by eapply elem_of_list_lookup_2). destruct (rleb_spec t st.1), (rltb_spec st.1 t); try lra; done.
    + eapply covers_perm; [by symmetry|]. by apply abbox_covers.
  - destruct (C33_hybrid kvs pick M dau boxes D dti blocked p dir step0 hit0) as (r & E & R); try done; [lia|]. exists r. split; [done|]. by eapply nearest_ahead.
Qed.
Print Assumptions C33_blocked_partial.
(** In general the second navigator skips a daughter at no distance if it is the blocked one or if its normal
    points along the ray, and finds the nearest of the others. *)
Theorem C33_abbox_blocked : ∀ kvs M dau boxes D dti ndot blocked p dir step0 hit0, (1 ≤ kvs)%nat → 0 <= M → exact_below D dti → 0 <= step0 →
  (∀ v, v ∈ dau → D v < step0 → D v < M) → no_zero dir → boxes_hold boxes dau D p dir step0 → unreached M p dir M → (Z.of_nat (length dau) ≤ 2000)%Z →
  ∃ r, abbox_blocked dau dti kvs M boxes p dir blocked ndot (step0, hit0) = Some r ∧
    nearest_except (λ v, D v <= 0 ∧ (Some v = blocked ∨ 0 < ndot v)) dau D step0 hit0 r.
Proof.
  intros kvs M dau boxes D dti ndot blocked p dir step0 hit0 Hk HM Hex Hs Hf Hnz Hb Hu Hc. unfold abbox_blocked. destruct (decide (dau = [])) as [-> | Hd].
  { exists (step0, hit0). split; [done|]. split; [cbn; lra|]. split; [|by left]. intros v H. by apply elem_of_nil in H. }
  pose proof (abbox_length kvs M boxes p dir Hk Hnz Hu) as L. pose proof (proj1 Hb) as L2. destruct (sorted_hits_ok 2000 (abbox_hits kvs M boxes p dir) ltac:(lia) ltac:(lia)) as (h & E & S & P).
  destruct dau as [|v0 dau'] eqn:Ed; [done|]. rewrite <- Ed in *. rewrite E. cbn [mbind option_bind].
  set (skip := λ v, D v <= 0 ∧ (Some v = blocked ∨ 0 < ndot v)).
  destruct (abbox_skip dau D dti ndot blocked step0 skip) as (D' & dti' & Hex' & D1 & D2 & Heq); [done|done|done|].
  assert (∀ v, D' v < step0 → ¬ skip v ∧ D' v = D v) as D3.
  { intros v Hv. assert (¬ skip v) as N by (intros K; rewrite (D1 v K) in Hv; lra). by rewrite (D2 v N). }
  assert (boxes_hold boxes dau D' p dir step0) as Hb'.
  { split; [done|]. intros i b v B1 B2 B3. destruct (D3 v B3) as [_ ->]. eapply (proj2 Hb); [done|done|]. destruct (D3 v B3) as [_ <-]. done. }
  assert (∀ v, v ∈ dau → D' v < step0 → D' v < M) as Hf'.
  { intros v Hv K. destruct (D3 v K) as [_ Ev]. rewrite Ev in K |- *. by apply Hf. }
  destruct (walk_ok dau D' dti' None step0 hit0 Hex' ltac:(eapply hold_neg; exact Hb') Hs (try_sorted_blocked dau dti blocked ndot)) with (hits := h) as (r & R & R1 & R2 & R3); [done| |done| |].
  - intros i t r v st Hv Hst. cbn [try_sorted_blocked]. rewrite Hv. cbn [mbind option_bind]. rewrite Heq by (try done; by eapply elem_of_list_lookup_2). destruct (rleb_spec t st.1), (rltb_spec st.1 t); try lra; done.
  - eapply covers_perm; [by symmetry|]. by apply abbox_covers.
  - exists r. split; [done|]. split; [done|]. split.
    + intros v Hv N. rewrite <- (D2 v N). apply R2; [done|]. intros [_ ?]. done.
    + destruct R3 as [R3|(v & V1 & _ & V2 & V3 & V4)]; [by left|right]. destruct (D3 v V4) as [N Ev]. exists v. rewrite Ev in V3, V4. done.
Qed.
Print Assumptions C33_abbox_blocked.
(** In general they differ: a blocked daughter that the ray leaves and enters again further on is
    skipped by the first navigator only; a daughter that contains the point is skipped by the
    second one only, depending on its normal. *)
Theorem C33_blocked_refuted : ∃ kvs M dau boxes D dti ndot p dir step0,
  exact_below D dti ∧ boxes_hold boxes dau D p (vnonzero dir) step0 ∧
  simple_blocked dau dti (Some 0%N) ndot (step0, None) = (step0, None) ∧
  ∃ r, hybrid_blocked dau dti kvs M boxes p dir (Some 0%N) pick_first (step0, None) = Some r ∧ r.1 < step0.
Proof.
  set (D := λ _ : N, 2). set (dti := λ (_ : N) (s : R), if rltb 2 s then 2 else s).
  exists 1%nat, 1000, [0%N], [Box (V3 (-5) (-5) (-5)) (V3 5 5 5)], D, dti, (λ _, 1), (V3 0 0 0), (V3 (1 / 2) (1 / 2) (1 / 2)), 10.
  assert (exact_below D dti) as Hex. { intros v step. unfold dti, D. destruct (rltb_spec 2 step); lra. }
  assert (nonzero (1 / 2) = 1 / 2 + kTiny) as Nz. { unfold nonzero. destruct (rltb_spec (1 / 2) 0); [lra|]. done. }
  assert (kTiny <= 1 / 10) as Tiny by (unfold kTiny; lra). assert (0 <= kTiny) as Tiny0 by (unfold kTiny; lra).
  assert (boxes_hold [Box (V3 (-5) (-5) (-5)) (V3 5 5 5)] [0%N] D (V3 0 0 0) (vnonzero (V3 (1 / 2) (1 / 2) (1 / 2))) 10) as Hb.
  { split; [done|]. intros i b v H _ _. destruct i as [|i]; [|done]. cbn in H. injection H as <-. unfold D. split; [|lra]. intros _. unfold in_box, along, vadd, vscale, vnonzero; cbn [vx vy vz bmin bmax]. rewrite !Nz. lra. }
  split; [done|]. split; [done|]. split.
  - unfold simple_blocked. destruct (rleb_spec (1 / 1000) 1); [|lra]. cbn [foldl]. by rewrite bool_decide_eq_true_2.
  - destruct (C33_hybrid 1 pick_first 1000 [0%N] [Box (V3 (-5) (-5) (-5)) (V3 5 5 5)] D dti (Some 0%N) (V3 0 0 0) (V3 (1 / 2) (1 / 2) (1 / 2)) 10 None) as (r & E & R1 & R2 & _); try done.
    + apply pick_first_ok.
    + lra.
    + lra.
    + intros v _ _. unfold D. lra.
    + apply far_unreached; try lra.
      * apply Rmin_r.
      * unfold vdot, vnonzero; cbn [vx vy vz]. rewrite !Nz. assert ((1 / 2 + kTiny) * (1 / 2 + kTiny) <= 6 / 10 * (6 / 10)) by (apply Rmult_le_compat; lra). lra.
      * cbn. rewrite Rabs_R0. lra.
      * cbn. rewrite Rabs_R0. lra.
      * cbn. rewrite Rabs_R0. lra.
    + exists r. split; [exact E|]. specialize (R2 0%N ltac:(left)). unfold D in R2. assert (r.1 <= 2) by (apply R2; intros [? _]; lra). lra.
Qed.
Print Assumptions C33_blocked_refuted.
Example C33_example : let D v := if (v =? 1)%N then 2 else 6 in let dir := V3 (1 / 2) (1 / 2) (1 / 2) in
  let boxes := [Box (V3 1 1 1) (V3 2 2 2); Box (V3 2 2 2) (V3 5 5 5)] in
  boxes_hold boxes [1; 2]%N D (V3 0 0 0) dir 10 ∧ no_zero dir ∧ unreached 1000 (V3 0 0 0) dir 1000 ∧ nearest [1; 2]%N D None 10 None (2, Some 1%N).
Proof.
  cbv zeta. split; [|split; [unfold no_zero; cbn; lra|split]].
  - split; [done|]. intros i b v Hb Hv _. destruct i as [|[|i]]; cbn in Hb, Hv; [| |done]; injection Hb as <-; injection Hv as <-; cbn [N.eqb Pos.eqb]; (split; [intros _|lra]); unfold in_box, along, vadd, vscale; cbn [vx vy vz bmin bmax]; lra.
  - apply far_unreached; unfold vdot; cbn [vx vy vz]; try lra; rewrite Rabs_R0; lra.
  - split; [cbn; lra|]. split.
    + intros v _ _. cbn. destruct (v =? 1)%N; lra.
    + right. exists 1%N. split; [left|]. cbn. split; [intros [? _]; cbn in *; lra|]. split; [done|]. split; [done|]. lra.
Qed.
