(** Proofs about the hybrid structure. *)
From Coq Require Import Reals Lra Lia.
From stdpp Require Import list list_numbers option.
From Verif Require Import Real3 AABBModel VoxelModel ABBoxModel HybridModel HybridSpec.
Import stdpp.list.
Local Open Scope nat_scope.

Lemma ceil_div_spec n k : 1 ≤ k → n ≤ ceil_div n k * k ∧ (1 ≤ n → (ceil_div n k - 1) * k < n ∧ 1 ≤ ceil_div n k).
Proof.
  intros Hk. unfold ceil_div. pose proof (Nat.div_mod n k ltac:(lia)) as E. pose proof (Nat.mod_upper_bound n k ltac:(lia)) as B.
  destruct (Nat.eqb_spec (n mod k) 0) as [Z|Z].
  - split; [nia|]. intros Hn. assert (1 ≤ n / k) by (destruct (n / k); nia). split; [nia|lia].
  - split; [nia|]. intros Hn. split; [|lia]. replace (n / k + 1 - 1) with (n / k) by lia. nia.
Qed.
Lemma ceil_unique n k c : 1 ≤ k → n ≤ c * k → (c - 1) * k < n → ceil_div n k = c.
Proof.
  intros Hk H1 H2. destruct (ceil_div_spec n k Hk) as [A B]. destruct (B ltac:(nia)) as [B1 B2].
  destruct (Nat.lt_trichotomy (ceil_div n k) c) as [L|[L|L]]; [|assumption|].
  - assert (ceil_div n k * k ≤ (c - 1) * k) by (apply Nat.mul_le_mono_r; lia). lia.
  - assert (c * k ≤ (ceil_div n k - 1) * k) by (apply Nat.mul_le_mono_r; lia). lia.
Qed.

Lemma sublist_nodup {A} (l k : list A) : l `sublist_of` k → NoDup k → NoDup l.
Proof.
  induction 1 as [|x l k H IH|x l k H IH]; intros N; [done| |]; apply NoDup_cons in N as [N1 N2]; [|by apply IH].
  apply NoDup_cons. split; [|by apply IH]. intros K. apply N1. eapply elem_of_submseteq; [exact K|]. by apply sublist_submseteq.
Qed.
Section Clusters.
Variable pick : nat → list nat → list nat → nat.
Hypothesis pick_ok : ∀ ci cl set, set ≠ [] → pick ci cl set ∈ set.

Lemma remove_perm (a : nat) set : NoDup set → a ∈ set → a :: filter (λ x, x ≠ a) set ≡ₚ set.
Proof.
  intros N H. apply NoDup_Permutation; [constructor; [rewrite elem_of_list_filter; tauto|by apply stdpp.list.NoDup_filter]|assumption|].
  intros x. rewrite elem_of_cons, elem_of_list_filter. destruct (decide (x = a)); naive_solver.
Qed.
Lemma fill_cluster_ok k ci cl set : NoDup set → set ≠ [] →
  ∃ t, (fill_cluster pick k ci cl set).1 = cl ++ t ∧ t ++ (fill_cluster pick k ci cl set).2 ≡ₚ set ∧ length t = k `min` length set.
Proof.
  revert cl set. induction k as [|k IH]; intros cl set N Hs; cbn [fill_cluster].
  - exists []. cbn. rewrite app_nil_r. split_and!; auto.
  - set (a := pick ci cl set). assert (a ∈ set) as Ha by (by apply pick_ok).
    pose proof (remove_perm a set N Ha) as P. set (s' := filter (λ x, x ≠ a) set) in *.
    assert (length set = S (length s')) as L by (by rewrite <- P).
    assert (NoDup s') as N' by (by apply stdpp.list.NoDup_filter).
    destruct s' as [|y s''] eqn:E.
    + exists [a]. cbn [fst snd app]. split_and!; [done|by rewrite <- P|cbn [length] in *; lia].
    + destruct (IH (cl ++ [a]) (y :: s'') N' ltac:(done)) as (t & T1 & T2 & T3).
      exists (a :: t). rewrite T1. split_and!; [by rewrite <- (assoc_L (++))|cbn [app]; by rewrite T2|cbn [length] in *; lia].
Qed.
Lemma fill_clusters_ok todo ci size set : NoDup set → 1 ≤ size → length set ≤ todo * size →
  mjoin (fill_clusters pick todo ci size set) ≡ₚ set ∧ length (fill_clusters pick todo ci size set) = todo ∧
  ∀ j c, fill_clusters pick todo ci size set !! j = Some c → length c = size `min` (length set - j * size).
Proof.
  revert ci set. induction todo as [|t IH]; intros ci set N Hz Hl; cbn [fill_clusters].
  - cbn in Hl. destruct set; [|cbn in Hl; lia]. by split_and!.
  - destruct set as [|y s].
    + destruct (IH (S ci) [] N Hz ltac:(cbn; lia)) as (A & B & C). split_and!.
      * exact A.
      * cbn. by f_equal.
      * intros [|j] c; cbn [lookup list_lookup]; [intros [= <-]; cbn; lia|]. intros K. apply C in K. rewrite K. cbn. lia.
    + set (S0 := y :: s) in *. destruct (fill_cluster_ok size ci [] S0 N ltac:(done)) as (tk & T1 & T2 & T3). cbn [app] in T1.
      cbv zeta. rewrite T1. set (rest := (fill_cluster pick size ci [] S0).2) in *.
      assert (NoDup rest) as N'. { eapply NoDup_app. rewrite T2. exact N. }
      assert (length S0 = length tk + length rest) as L by (by rewrite <- T2, app_length).
      destruct (IH (S ci) rest N' Hz ltac:(lia)) as (A & B & C). split_and!.
      * cbn [mjoin list_join]. by rewrite A.
      * cbn. by f_equal.
      * intros [|j] c; cbn [lookup list_lookup]; [intros [= <-]; lia|]. intros K. apply C in K. rewrite K. lia.
Qed.
Lemma first_level_spec kvs n : 1 ≤ kvs → 1 ≤ n → let m := first_level kvs n in let size := (n + m - 1) / m in
  1 ≤ m ∧ 1 ≤ size ≤ kvs ∧ n ≤ m * size ∧ (m - 1) * size < n.
Proof.
  intros Hk Hn m size. destruct (ceil_div_spec n kvs Hk) as [A B]. destruct (B Hn) as [B1 B2]. fold (first_level kvs n) in *. fold m in A, B1, B2.
  pose proof (Nat.div_mod (n + m - 1) m ltac:(lia)) as E. pose proof (Nat.mod_upper_bound (n + m - 1) m ltac:(lia)) as U. fold size in E.
  assert (size ≤ kvs) by (destruct (decide (size ≤ kvs)); [done|exfalso; assert (m * (kvs + 1) ≤ m * size) by (apply Nat.mul_le_mono_l; lia); nia]).
  assert ((m - 1) * size ≤ (m - 1) * kvs) by (apply Nat.mul_le_mono_l; lia).
  assert (1 ≤ size) by (destruct size; lia). split_and!; try lia; nia.
Qed.
Lemma clusters_length kvs n : 1 ≤ kvs → 1 ≤ n → length (clusters kvs pick n) = first_level kvs n.
Proof.
  intros Hk Hn. destruct (first_level_spec kvs n Hk Hn) as (M & Z & L & _). unfold clusters.
  apply fill_clusters_ok; [apply NoDup_seq|lia|rewrite seq_length; lia].
Qed.
Theorem clusters_ok kvs n : 1 ≤ kvs → 1 ≤ n → clustering n kvs (clusters kvs pick n).
Proof.
  intros Hk Hn. destruct (first_level_spec kvs n Hk Hn) as (M & Z & L & R). unfold clusters.
  destruct (fill_clusters_ok (first_level kvs n) 0 ((n + first_level kvs n - 1) / first_level kvs n) (seq 0 n)) as (A & B & C); [apply NoDup_seq|lia|rewrite seq_length; lia|].
  split; [exact A|]. apply Forall_lookup. intros j c K. pose proof (C j c K) as E. apply lookup_lt_Some in K. rewrite B in K.
  rewrite E, seq_length. set (size := (n + first_level kvs n - 1) / first_level kvs n) in *. assert (j * size ≤ (first_level kvs n - 1) * size) by (apply Nat.mul_le_mono_r; lia). lia.
Qed.
End Clusters.

(** The layout of the array. *)
Section Layout.
Variables (kvs : nat) (M : R) (boxes : list aabb).
Hypothesis Hk : 1 ≤ kvs.
Notation E := (empty_box M).
Definition start_box : aabb := Box (V3 M M M) (V3 (- M) (- M) (- M)).
Definition the_box (x : nat) : aabb := default E (boxes !! x).
Definition node_box (c : list nat) : aabb := foldl (λ a x, bunion a (the_box x)) start_box c.
Definition layout (cs : list (list nat)) (e l : nat) : aabb :=
  match e mod (kvs + 1) with
  | 0 => match cs !! (kvs * (e / (kvs + 1)) + l) with Some c => node_box c | None => E end
  | S r => match cs !! (kvs * (e / (kvs + 1)) + r) with Some c => match c !! l with Some x => the_box x | None => E end | None => E end
  end.
Lemma coords g r : r < kvs + 1 → ((kvs + 1) * g + r) / (kvs + 1) = g ∧ ((kvs + 1) * g + r) mod (kvs + 1) = r.
Proof. intros H. split; [symmetry; apply (Nat.div_unique _ _ _ r); lia|symmetry; apply (Nat.mod_unique _ _ g); lia]. Qed.
Lemma coords_inv e : e = (kvs + 1) * (e / (kvs + 1)) + e mod (kvs + 1) ∧ e mod (kvs + 1) < kvs + 1.
Proof. split; [apply Nat.div_mod; lia|apply Nat.mod_upper_bound; lia]. Qed.
Lemma layout_node cs g l : layout cs ((kvs + 1) * g) l = match cs !! (kvs * g + l) with Some c => node_box c | None => E end.
Proof. unfold layout. destruct (coords g 0 ltac:(lia)) as [A B]. rewrite Nat.add_0_r in A, B. by rewrite A, B. Qed.
Lemma layout_leaf cs g r l : r < kvs → layout cs ((kvs + 1) * g + r + 1) l = match cs !! (kvs * g + r) with Some c => match c !! l with Some x => the_box x | None => E end | None => E end.
Proof. intros H. unfold layout. destruct (coords g (r + 1) ltac:(lia)) as [A B]. rewrite <- Nat.add_assoc, A, B. by replace (r + 1) with (S r) by lia. Qed.

Lemma put_members_ok size vi d c f acc : vi < size → d + length c ≤ kvs → Forall (λ x, x < length boxes) c →
  ∃ f', put_members kvs boxes size vi d c f acc = Some (f', foldl (λ a x, bunion a (the_box x)) acc c) ∧
  ∀ e l, f' e l = if decide (e = vi ∧ d ≤ l < d + length c) then match c !! (l - d) with Some x => the_box x | None => E end else f e l.
Proof.
  revert d f acc. induction c as [|x c IH]; intros d f acc Hv Hd Hc; cbn [put_members].
  - exists f. split; [done|]. intros e l. rewrite decide_False by (cbn; lia). done.
  - apply Forall_cons_1 in Hc as [Hx Hc]. destruct (lookup_lt_is_Some_2 boxes x Hx) as [b Hb]. rewrite Hb. cbn [mbind option_bind]. cbn [length] in Hd.
    unfold set_lane at 1. case_decide as K0; [clear K0|exfalso; lia]. cbn [mbind option_bind].
    assert (the_box x = b) as Tb by (unfold the_box; by rewrite Hb).
    destruct (IH (S d) (λ e' l', if decide (e' = vi ∧ l' = d) then b else f e' l') (bunion acc b) Hv ltac:(lia) Hc) as (f' & F1 & F2).
    exists f'. rewrite F1. cbn [foldl]. rewrite Tb. split; [done|]. intros e l. rewrite F2. cbn [length].
    destruct (decide (e = vi ∧ S d ≤ l < S d + length c)) as [K|K].
    + rewrite decide_True by lia. replace (l - d) with (S (l - S d)) by lia. done.
    + destruct (decide (e = vi ∧ l = d)) as [[-> ->]|K'].
      * rewrite decide_True by lia. rewrite Nat.sub_diag. cbn. by rewrite Tb.
      * rewrite decide_False by lia. done.
Qed.
Lemma put_nodes_ok size cs done f : 
  Forall (λ c, length c ≤ kvs ∧ Forall (λ x, x < length boxes) c) cs →
  (∀ i, i < length done + length cs → (kvs + 1) * (i / kvs) + i mod kvs + 1 < size) →
  (∀ e l, l < kvs → f e l = layout done e l) →
  ∃ f', put_nodes kvs M boxes size (length done) (let i := length done in if i mod kvs =? 0 then i + i / kvs else i + i / kvs + 1) cs f = Some f' ∧
  ∀ e l, l < kvs → f' e l = layout (done ++ cs) e l.
Proof.
  revert done f. induction cs as [|c cs IH]; intros done f Hcs Hsz Hf; cbn [put_nodes].
  - exists f. rewrite app_nil_r. done.
  - apply Forall_cons_1 in Hcs as [[Hc1 Hc2] Hcs]. cbv zeta. set (i := length done) in *.
    pose proof (Nat.div_mod i kvs ltac:(lia)) as Di. pose proof (Nat.mod_upper_bound i kvs ltac:(lia)) as Mi.
    pose proof (Hsz i ltac:(cbn; lia)) as Si.
    assert ((if i mod kvs =? 0 then S (if i mod kvs =? 0 then i + i / kvs else i + i / kvs + 1) else if i mod kvs =? 0 then i + i / kvs else i + i / kvs + 1) = (kvs + 1) * (i / kvs) + i mod kvs + 1) as ->.
    { destruct (Nat.eqb_spec (i mod kvs) 0); lia. }
    destruct (put_members_ok size ((kvs + 1) * (i / kvs) + i mod kvs + 1) 0 c f start_box Si ltac:(lia) Hc2) as (f1 & F1 & F2).
    fold start_box. rewrite F1. cbn [mbind option_bind]. unfold set_lane at 1. case_decide as K0; [clear K0|exfalso; lia]. cbn [mbind option_bind].
    set (f2 := λ e' l', if decide (e' = (kvs + 1) * (i / kvs) ∧ l' = i mod kvs) then foldl (λ a x, bunion a (the_box x)) start_box c else f1 e' l').
    assert (∀ e l, l < kvs → f2 e l = layout (done ++ [c]) e l) as H2.
    { intros e l Hl. unfold f2. destruct (decide (e = (kvs + 1) * (i / kvs) ∧ l = i mod kvs)) as [[-> ->]|K].
      - rewrite layout_node. rewrite <- Di. unfold i. rewrite list_lookup_middle by done. done.
      - rewrite F2. rewrite Nat.add_0_l, Nat.sub_0_r. destruct (coords_inv e) as [Ee Er]. set (g := e / (kvs + 1)) in *. set (r := e mod (kvs + 1)) in *. clearbody g r.
        destruct (decide (e = (kvs + 1) * (i / kvs) + i mod kvs + 1 ∧ 0 ≤ l < length c)) as [[He Hlc]|K'].
        + rewrite He. rewrite layout_leaf by lia. rewrite <- Di. unfold i. rewrite list_lookup_middle by done. done.
        + rewrite Hf by done. destruct r as [|r'].
          * rewrite Ee, Nat.add_0_r, !layout_node. destruct (decide (kvs * g + l = i)) as [X|X].
            { exfalso. apply K. assert (i / kvs = g ∧ i mod kvs = l) as [A B]. { split; symmetry; [apply (Nat.div_unique _ _ _ l)|apply (Nat.mod_unique _ _ g)]; lia. } split; [rewrite A; lia|done]. }
            destruct (decide (kvs * g + l < i)); [by rewrite lookup_app_l by done|]. rewrite (lookup_ge_None_2 done) by lia. by rewrite lookup_ge_None_2 by (rewrite app_length; cbn; lia).
          * assert (e = (kvs + 1) * g + r' + 1) as -> by lia. rewrite !layout_leaf by lia. destruct (decide (kvs * g + r' = i)) as [X|X].
            { assert (i / kvs = g ∧ i mod kvs = r') as [A B]. { split; symmetry; [apply (Nat.div_unique _ _ _ r')|apply (Nat.mod_unique _ _ g)]; lia. }
              rewrite X. unfold i. rewrite list_lookup_middle by done. rewrite lookup_ge_None_2 by lia. rewrite lookup_ge_None_2; [done|].
              rewrite A, B in K'. lia. }
            destruct (decide (kvs * g + r' < i)); [by rewrite lookup_app_l by done|]. rewrite (lookup_ge_None_2 done) by lia. by rewrite lookup_ge_None_2 by (rewrite app_length; cbn; lia). }
    destruct (IH (done ++ [c]) f2 Hcs) as (f' & G1 & G2).
    { intros j Hj. apply Hsz. rewrite app_length in Hj. cbn in *. lia. }
    { exact H2. }
    exists f'. split; [|by rewrite <- (assoc_L (++)) in G2].
    rewrite app_length in G1. cbn [length] in G1. fold i in G1. rewrite <- G1. replace (i + 1) with (S i) by lia. f_equal.
    cbv zeta. pose proof (Nat.div_mod (S i) kvs ltac:(lia)) as Dj. pose proof (Nat.mod_upper_bound (S i) kvs ltac:(lia)) as Mj.
    destruct (decide (S (i mod kvs) = kvs)) as [W|W].
    + assert (S i / kvs = S (i / kvs) ∧ S i mod kvs = 0) as [-> ->]. { split; symmetry; [apply (Nat.div_unique _ _ _ 0)|apply (Nat.mod_unique _ _ (S (i / kvs)))]; lia. } cbn. lia.
    + assert (S i / kvs = i / kvs ∧ S i mod kvs = S (i mod kvs)) as [-> ->]. { split; symmetry; [apply (Nat.div_unique _ _ _ (S (i mod kvs)))|apply (Nat.mod_unique _ _ (i / kvs))]; lia. } cbn. lia.
Qed.

Lemma slots_fit n i : 1 ≤ n → i < first_level kvs n → (kvs + 1) * (i / kvs) + i mod kvs + 1 < vector_size kvs n.
Proof.
  intros Hn Hi. unfold vector_size. destruct (ceil_div_spec (first_level kvs n) kvs Hk) as [A B].
  pose proof (Nat.div_mod i kvs ltac:(lia)) as Di. set (G := ceil_div (first_level kvs n) kvs) in *.
  assert (i / kvs < G). { destruct (decide (i / kvs < G)); [done|exfalso]. assert (G * kvs ≤ i / kvs * kvs) by (apply Nat.mul_le_mono_r; lia). lia. }
  lia.
Qed.
Section Whole.
Variable pick : nat → list nat → list nat → nat.
Hypothesis pick_ok : ∀ ci cl set, set ≠ [] → pick ci cl set ∈ set.
Lemma members_in n c : 1 ≤ n → c ∈ clusters kvs pick n → Forall (λ x, x < n) c.
Proof.
  intros Hn Hc. destruct (clusters_ok pick pick_ok kvs n Hk Hn) as [P _]. apply Forall_forall. intros x Hx.
  assert (x ∈ mjoin (clusters kvs pick n)) as K by (apply elem_of_list_join; eauto). rewrite P in K. apply elem_of_seq in K. lia.
Qed.
Theorem build_ok : boxes ≠ [] → ∃ f, build_structure kvs pick M boxes = Some (Some (Structure (length boxes) f (clusters kvs pick (length boxes)))) ∧
  ∀ e l, l < kvs → f e l = layout (clusters kvs pick (length boxes)) e l.
Proof.
  intros Hb. unfold build_structure. set (n := length boxes). assert (1 ≤ n) as Hn by (destruct boxes; [done|cbn in n; lia]).
  destruct (put_nodes_ok (vector_size kvs n) (clusters kvs pick n) [] (λ _ _, E)) as (f & F1 & F2).
  - apply Forall_forall. intros c Hc. split; [|by apply members_in]. destruct (clusters_ok pick pick_ok kvs n Hk Hn) as [_ F]. rewrite Forall_forall in F. apply F in Hc. lia.
  - intros i Hi. apply slots_fit; [done|]. cbn in Hi. rewrite clusters_length in Hi by done. done.
  - intros e l _. unfold layout. destruct (e mod _); by rewrite lookup_nil.
  - cbn [length] in F1. cbv zeta in F1. rewrite Nat.mod_0_l, Nat.div_0_l in F1 by lia. cbn [Nat.eqb Nat.add] in F1. exists f. destruct n; [lia|]. rewrite F1. cbn [mbind option_bind]. split; [done|]. exact F2.
Qed.

(** Queries. *)
Definition answer (test : aabb → bool) (c : list nat) : list (nat * aabb) :=
  if test (node_box c) then filter (λ xb : nat * aabb, test xb.2 = true) ((λ x, (x, the_box x)) <$> c) else [].
Section Query.
Variables (s : structure) (test : aabb → bool).
Hypothesis Hn : 1 ≤ length boxes.
Hypothesis Hs1 : h_n s = length boxes.
Hypothesis Hs2 : h_nodes s = clusters kvs pick (length boxes).
Hypothesis Hs3 : ∀ e l, l < kvs → h_lane s e l = layout (h_nodes s) e l.
Hypothesis Ht : test E = false.
Lemma leaf_ok g r c k j : r < kvs → h_nodes s !! (kvs * g + r) = Some c → j + k = kvs → length c ≤ kvs →
  leaf_lanes s test ((kvs + 1) * g + r + 1) (kvs * g + r) (seq j k) = Some (filter (λ xb : nat * aabb, test xb.2 = true) ((λ x, (x, the_box x)) <$> drop j c)).
Proof.
  intros Hr Hc. revert j. induction k as [|k IH]; intros j Hj Hl; cbn [leaf_lanes seq].
  - rewrite drop_ge by lia. done.
  - rewrite Hs3 by lia. rewrite layout_leaf by lia. rewrite Hc. destruct (c !! j) as [x|] eqn:Ex.
    + rewrite (drop_S _ _ _ Ex), fmap_cons. destruct (test (the_box x)) eqn:T.
      * rewrite filter_cons_True by done. cbn [mbind option_bind]. rewrite Ex. cbn [mbind option_bind]. rewrite (IH (S j)) by lia. done.
      * rewrite filter_cons_False by (cbn; congruence). apply IH; lia.
    + rewrite Ht. rewrite IH by lia. apply lookup_ge_None in Ex. rewrite !drop_ge by lia. done.
Qed.
Lemma node_ok g k i : i + k = kvs → node_lanes kvs s test g (seq i k) = Some (take k (drop (kvs * g + i) (h_nodes s)) ≫= answer test).
Proof.
  revert i. induction k as [|k IH]; intros i Hi; cbn [node_lanes seq].
  - done.
  - rewrite Hs3 by lia. rewrite layout_node. destruct (h_nodes s !! (kvs * g + i)) as [c|] eqn:Ec.
    + rewrite (drop_S _ _ _ Ec). cbn [take mbind list_bind]. unfold answer at 1. destruct (test (node_box c)) eqn:T.
      * pose proof Ec as Lc. apply lookup_lt_Some in Lc. rewrite Hs2, clusters_length in Lc by done.
        rewrite decide_True.
        2:{ rewrite Hs1. pose proof (slots_fit (length boxes) (kvs * g + i) Hn Lc) as F.
            assert ((kvs * g + i) / kvs = g ∧ (kvs * g + i) mod kvs = i) as [A B]. { split; symmetry; [apply (Nat.div_unique _ _ _ i)|apply (Nat.mod_unique _ _ g)]; lia. } rewrite A, B in F. lia. }
        assert (length c ≤ kvs) as Lk. { destruct (clusters_ok pick pick_ok kvs (length boxes) Hk Hn) as [_ F]. rewrite <- Hs2, Forall_lookup in F. apply F in Ec. lia. }
        rewrite (leaf_ok g i c kvs 0) by (done || lia). cbn [mbind option_bind]. rewrite IH by lia. cbn [mbind option_bind]. rewrite drop_0. by replace (kvs * g + S i) with (S (kvs * g + i)) by lia.
      * cbn [app]. rewrite IH by lia. by replace (kvs * g + S i) with (S (kvs * g + i)) by lia.
    + rewrite Ht. rewrite IH by lia. apply lookup_ge_None in Ec. rewrite !drop_ge by lia. by rewrite !take_nil.
Qed.
Lemma groups_ok k g : all_groups kvs s test (seq g k) = Some (take (kvs * k) (drop (kvs * g) (h_nodes s)) ≫= answer test).
Proof.
  revert g. induction k as [|k IH]; intros g; cbn [all_groups seq].
  - by rewrite Nat.mul_0_r.
  - rewrite node_ok by lia. cbn [mbind option_bind]. rewrite IH. cbn [mbind option_bind]. f_equal. rewrite Nat.add_0_r.
    replace (kvs * S k) with (kvs + kvs * k) by lia.
    rewrite <- bind_app. f_equal. replace (kvs * S g) with (kvs * g + kvs) by lia. rewrite <- drop_drop. apply take_take_drop.
Qed.
Theorem query_ok : query kvs s test = Some (h_nodes s ≫= answer test).
Proof.
  unfold query. rewrite groups_ok. rewrite Nat.mul_0_r, drop_0. rewrite take_ge; [done|].
  rewrite Hs1, Hs2, clusters_length by done. unfold vector_size. set (m := first_level kvs (length boxes)). destruct (ceil_div_spec m kvs Hk) as [A B].
  assert (1 ≤ m) as Hm. { destruct (first_level_spec kvs (length boxes) Hk Hn) as [? _]. done. } destruct (B Hm) as [B1 B2].
  rewrite (ceil_unique _ (kvs + 1) (ceil_div m kvs)); [lia|lia|lia|].
  set (G := ceil_div m kvs) in *. replace (kvs + 1) with (S kvs) by lia. rewrite Nat.mul_succ_r. lia.
Qed.
End Query.

Lemma fold_within acc c b : within b acc → within b (foldl (λ a x, bunion a (the_box x)) acc c).
Proof. revert acc. induction c as [|y c IH]; intros acc H; cbn [foldl]; [done|]. apply IH. revert H. unfold within, bunion; cbn. unfold Rmin, Rmax. repeat destruct (Rle_dec _ _); lra. Qed.
Lemma node_box_within c x : x ∈ c → within (the_box x) (node_box c).
Proof.
  unfold node_box. generalize start_box. induction c as [|y c IH]; intros acc H; [by apply elem_of_nil in H|]. cbn [foldl]. apply elem_of_cons in H as [->|H]; [|by apply IH].
  apply fold_within. unfold within, bunion; cbn. unfold Rmin, Rmax. repeat destruct (Rle_dec _ _); lra.
Qed.
Lemma node_box_least c b : c ≠ [] → Forall (λ x, within (the_box x) b) c →
  Forall (λ x, within (Box (V3 (- M) (- M) (- M)) (V3 (- M) (- M) (- M))) (Box (V3 (- M) (- M) (- M)) (bmax (the_box x))) ∧
               within (Box (V3 M M M) (V3 M M M)) (Box (bmin (the_box x)) (V3 M M M))) c → within (node_box c) b.
Proof.
  intros Hc Hb Hm. unfold node_box. destruct c as [|x c]; [done|]. cbn [foldl]. apply Forall_cons_1 in Hb as [Hx Hb]. apply Forall_cons_1 in Hm as [Hmx _].
  assert (within (bunion start_box (the_box x)) b) as W.
  { revert Hx Hmx. unfold within, bunion, start_box; cbn. unfold Rmin, Rmax. repeat destruct (Rle_dec _ _); lra. }
  clear Hx Hmx Hc. revert W. generalize (bunion start_box (the_box x)). revert Hb. clear x. induction c as [|x c IH]; intros Hb acc W; cbn [foldl]; [done|].
  apply Forall_cons_1 in Hb as [Hx Hb]. apply IH; [done|]. revert Hx W. unfold within, bunion; cbn. unfold Rmin, Rmax. repeat destruct (Rle_dec _ _); lra.
Qed.
Lemma answer_elem test c x b : grows test → (x, b) ∈ answer test c ↔ x ∈ c ∧ b = the_box x ∧ test b = true.
Proof.
  intros Hg. unfold answer. destruct (test (node_box c)) eqn:T.
  - rewrite elem_of_list_filter, elem_of_list_fmap. cbn. split; [intros (? & y & [= -> ->] & ?); auto|intros (? & -> & ?); eauto].
  - split; [by intros ?%elem_of_nil|]. intros (H & -> & K). rewrite (Hg _ _ (node_box_within c x H) K) in T. done.
Qed.
Lemma answer_fst test c : (answer test c).*1 `sublist_of` c.
Proof.
  unfold answer. destruct (test _); [|apply sublist_nil_l]. induction c as [|x c IH]; [done|]. rewrite fmap_cons. destruct (decide (test (the_box x) = true)) as [T|T].
  - rewrite filter_cons_True by done. rewrite fmap_cons. by apply sublist_skip.
  - rewrite filter_cons_False by done. by apply sublist_cons.
Qed.
Lemma bind_fst test cs : (cs ≫= answer test).*1 `sublist_of` mjoin cs.
Proof. induction cs as [|c cs IH]; [done|]. rewrite bind_cons, fmap_app. cbn [mjoin list_join]. apply sublist_app; [apply answer_fst|exact IH]. Qed.
Theorem query_finds test : boxes ≠ [] → test E = false → grows test →
  ∃ s l, build_structure kvs pick M boxes = Some (Some s) ∧ query kvs s test = Some l ∧ finds boxes test l.
Proof.
  intros Hb Ht Hg. destruct (build_ok Hb) as (f & B1 & B2). assert (1 ≤ length boxes) as Hn by (destruct boxes; [done|cbn; lia]).
  exists (Structure (length boxes) f (clusters kvs pick (length boxes))), (clusters kvs pick (length boxes) ≫= answer test). split; [done|].
  split; [by rewrite (query_ok _ test Hn)|]. destruct (clusters_ok pick pick_ok kvs (length boxes) Hk Hn) as [P _]. split.
  - eapply sublist_nodup; [apply bind_fst|]. rewrite P. apply NoDup_seq.
  - intros x b. rewrite elem_of_list_bind. setoid_rewrite answer_elem; [|done]. unfold the_box. split.
    + intros (c & (Hx & -> & T) & Hc). pose proof (members_in _ c Hn Hc) as F. rewrite Forall_forall in F. apply F in Hx. apply lookup_lt_is_Some_2 in Hx as [b Eb]. rewrite Eb in *. cbn in *. done.
    + intros [Eb T]. assert (x ∈ mjoin (clusters kvs pick (length boxes))) as K. { rewrite P. apply elem_of_seq. apply lookup_lt_Some in Eb. lia. }
      apply elem_of_list_join in K as (c & Hx & Hc). exists c. rewrite Eb. done.
Qed.
End Whole.
End Layout.

(** The three tests of the code. *)
Lemma contains_grows p : grows (λ b, ab_contains b p).
Proof. intros a b W. unfold within in W. unfold ab_contains. rewrite !andb_true_iff. rewrite !rltb_true. unfold rgtb. rewrite !rltb_true. lra. Qed.
Lemma contains_empty M p : ab_contains (empty_box M) p = false.
Proof. unfold ab_contains, empty_box; cbn. destruct (rltb_spec (- M) (vx p)); [|done]. destruct (rgtb_spec (- M) (vx p)); [lra|done]. Qed.
