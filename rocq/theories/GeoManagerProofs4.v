From stdpp Require Import list option gmap fin_maps sorting.
From Coq Require Import NArith ZArith Lia ZifyN ZifyBool ZifyNat.
From Verif Require Import NavTableModel NavTableSpec NavPathModel NavPathSpec NavPathProofs.
From Verif Require Import GeoManagerModel GeoManagerSpec GeoManagerProofs GeoManagerProofs2 GeoVisitProofs GeoManagerProofs3.
Local Open Scope N_scope.

Local Arguments N.add : simpl never.
Local Arguments N.modulo : simpl never.
Local Arguments N.of_nat : simpl never.
Local Arguments N.ltb : simpl never.
Local Arguments N.eqb : simpl never.
Local Arguments compactify : simpl never.
Local Arguments max_depth : simpl never.
Local Arguments node_count : simpl never.

Section Use.
Context {T Sh : Type}.
Implicit Types (s : gm T Sh) (os : list (op T Sh)).

(** Closing in a state that satisfies the invariants. *)
Lemma close_use os s fuel s' : proper os → run os = Some s → close fuel s = Some s' →
  ∃ conv w, compacted s s' conv ∧ g_world s = Some w ∧ g_world s' = Some (old_to_new conv w) ∧
    (∀ ks q, walk (daughters s) w ks = Some q → is_Some (daughters s q)).
Proof.
  intros Hp E Ec. pose proof (run_inv _ _ Hp E) as [HP HL]. pose proof Ec as Ec2.
  apply close_compacted in Ec as (conv & [C1 C2 C3 C4 C5 C6 C7 C8 C9] & _); [|apply HP|by eapply PI_map_live|apply HP].
  apply close_inv in Ec2 as (w & d & n & s2 & Hw & Hd & _). exists conv, w.
  pose proof C9 as (_ & Hw' & _). cbn in Hw'. rewrite Hw in Hw'. cbn in Hw'. split_and!; [|done|done|].
  - by split.
  - intros ks q Hk. unfold max_depth in Hd. by eapply visit_reach in Hd as [? _].
Qed.
Lemma close_node os s fuel s' : proper os → run os = Some s → close fuel s = Some s' → ∀ ks, node s' ks = node s ks.
Proof.
  intros Hp E Ec ks. pose proof (run_inv _ _ Hp E) as [HP HL]. destruct (close_use _ _ _ _ Hp E Ec) as (conv & w & HC & Hw & Hw' & Hr).
  unfold node. rewrite Hw, Hw'. cbn [mbind option_bind].
  pose proof (walk_moved s s' conv HC (pi_sorted _ _ HP) (pi_gen _ _ HP) w (old_to_new conv w) ks) as Hm.
  assert (Hmw : moved conv w (old_to_new conv w)) by (by right). specialize (Hm Hmw Hr).
  destruct (walk (daughters s) w ks) as [q|] eqn:Eq.
  - destruct Hm as (q' & -> & Hq). cbn [mbind option_bind]. destruct (Hr _ _ Eq) as [ds Hds]. unfold daughters in Hds.
    destruct (g_pheap s !! q) as [v|] eqn:Ev; [|done]. eapply heap_moved; [done|apply HP|apply HP|done|done].
  - by rewrite Hm.
Qed.
Lemma close_parts os s fuel s' : proper os → run os = Some s → close fuel s = Some s' →
  ∀ u l, parts s u = Some l → Forall is_Some l → parts s' u = Some l ∧ kind_of <$> (g_uheap s' !! u) = kind_of <$> (g_uheap s !! u).
Proof.
  intros Hp E Ec u l. pose proof (run_inv _ _ Hp E) as [HP HL]. destruct (close_use _ _ _ _ Hp E Ec) as (conv & w & HC & _).
  eapply parts_moved; [done|apply HP|apply HP].
Qed.
Lemma whole_walk os s s' conv : proper os → run os = Some s → compacted s s' conv → whole s →
  ∀ w, g_world s = Some w → ∀ ks, walk (daughters s') (old_to_new conv w) ks = old_to_new conv <$> walk (daughters s) w ks.
Proof.
  intros Hp E HC Hwh w Hw ks. pose proof (run_inv _ _ Hp E) as [HP HL].
  assert (∀ ks2 ks1 p, walk (daughters s) w ks1 = Some p →
    walk (daughters s') (old_to_new conv p) ks2 = old_to_new conv <$> walk (daughters s) p ks2) as H.
  { induction ks2 as [|k ks2 IH]; intros ks1 p Hp1; [done|]. cbn [walk].
    destruct (Hwh w ks1 p Hw Hp1) as (v & l & Hv & Hfv & Hl & Hfl).
    assert (Hd : daughters s p = Some (lv_dau l)).
    { unfold daughters. rewrite Hv. cbn [mbind option_bind]. by rewrite Hl. }
    assert (Hd' : daughters s' (old_to_new conv p) = Some (map (old_to_new conv) (lv_dau l))).
    { unfold daughters. rewrite (heap_new s s' conv HC (pi_sorted _ _ HP) (pi_gen _ _ HP) p v Hv). cbn [mbind option_bind].
      pose proof (co_lheap _ _ _ HC (pv_lv v)) as Hx. rewrite Hl in Hx. rewrite Hx. cbn.
      rewrite decide_True; [done|]. apply elem_of_list_fmap. exists (lv_id l, pv_lv v). split; [done|].
      apply sm_find_in; [apply HL|done]. }
    rewrite Hd, Hd'. cbn [mbind option_bind]. change (map ?f ?x) with (f <$> x). rewrite list_lookup_fmap.
    destruct (lv_dau l !! k) as [d|] eqn:Ek; [|done]. cbn [fmap option_fmap option_map mbind option_bind].
    apply (IH (ks1 ++ [k])). clear -Hp1 Hd Ek. revert w Hp1. induction ks1 as [|j ks1 IH]; intros w Hp1.
    - cbn in Hp1. injection Hp1 as ->. cbn [app walk]. rewrite Hd. cbn [mbind option_bind]. by rewrite Ek.
    - cbn [app walk] in *. destruct (daughters s w) as [ds|]; [|done]. cbn [mbind option_bind] in *.
      destruct (ds !! j) as [d'|]; [|done]. cbn [mbind option_bind] in *. by apply IH. }
  by apply (H ks []).
Qed.
Lemma close_index os s fuel s' : proper os → run os = Some s → close fuel s = Some s' → whole s →
  ∀ w' ks p, g_world s' = Some w' → walk (daughters s') w' ks = Some p →
    ∃ i, to_index s' p = Some i ∧ to_placed s' i = Some p ∧ find_placed s' i = Some p.
Proof.
  intros Hp E Ec Hwh w' ks p Hw' Hk. pose proof (run_inv _ _ Hp E) as [HP HL].
  destruct (close_use _ _ _ _ Hp E Ec) as (conv & w & HC & Hw & Hw2 & _). rewrite Hw2 in Hw'. injection Hw' as <-.
  rewrite (whole_walk os s s' conv Hp E HC Hwh w Hw) in Hk. destruct (walk (daughters s) w ks) as [q|] eqn:Eq; [|done].
  injection Hk as <-. destruct (Hwh w ks q Hw Eq) as (v & l & Hv & Hfv & Hl & Hfl).
  unfold find_placed in Hfv. destruct (sm_find (pv_id v) (g_pmap s)) as [x|] eqn:Ef; [|done]. cbn in Hfv. subst x.
  assert (Hslot : old_to_new conv q = Slot (g_gen s) (pv_id v)).
  { eapply conv_registered; [done|apply HP|done|done|]. intros j Hj. apply (pi_map _ _ HP) in Hj as (a & v' & Hv' & Hi & _).
    rewrite Hv in Hv'. by injection Hv' as <-. }
  exists (pv_id v). split_and!.
  - unfold to_index. rewrite (heap_new s s' conv HC (pi_sorted _ _ HP) (pi_gen _ _ HP) q v Hv). done.
  - unfold to_placed. destruct (co_rest _ _ _ HC) as (_ & _ & _ & _ & -> & _). cbn [mbind option_bind].
    apply sm_find_in in Ef; [|apply HP]. apply (co_slot _ _ _ HC) in Ef as (Hlt & _).
    destruct (N.ltb_spec (pv_id v) (placed_count s)); [|lia]. by rewrite Hslot.
  - unfold find_placed. rewrite (co_pmap _ _ _ HC), Hslot.
    assert (Hin : sm_find (pv_id v) (map (λ ip, (ip.1, Some (Slot (g_gen s) ip.1))) (g_pmap s)) = Some (Some (Slot (g_gen s) (pv_id v)))).
    { apply sm_find_in.
      - rewrite <-(co_pmap _ _ _ HC). assert (Hp' : PI (map pev os ++ [EClose]) s') by (by eapply PI_close). apply Hp'.
      - apply sm_find_in in Ef; [|apply HP]. apply elem_of_list_In, in_map_iff. exists (pv_id v, Some q).
        split; [done|]. by apply elem_of_list_In. }
    by rewrite Hin.
Qed.
(** When closing succeeds. *)
Lemma close_iff os s fuel : proper os → forallb no_conv os = true → run os = Some s →
  is_Some (close fuel s) ↔ ∃ w, g_world s = Some w ∧ is_Some (max_depth (daughters s) fuel w) ∧
    is_Some (node_count (daughters s) fuel w) ∧ ∀ i p, find_placed s i = Some p → i < placed_count s.
Proof.
  intros Hp Hc E. pose proof (run_inv _ _ Hp E) as [HP HL]. pose proof (run_no_null _ _ Hp Hc E) as Hn. split.
  - intros [s' Es]. destruct (close_use _ _ _ _ Hp E Es) as (conv & w & HC & _). apply close_inv in Es as (w' & d & n & s2 & Hw & Hd & Hnc & _).
    exists w'. split_and!; [done|by eexists|by eexists|]. intros i p Hi. unfold find_placed in Hi.
    destruct (sm_find i (g_pmap s)) as [x|] eqn:Ef; [|done]. apply sm_find_in in Ef; [|apply HP].
    by apply (co_slot _ _ _ HC) in Ef as [? _].
  - intros (w & Hw & [d Hd] & [n Hnn] & Hi). unfold close. rewrite Hw. cbn [mbind option_bind]. rewrite Hd. cbn [mbind option_bind].
    rewrite Hnn. cbn [mbind option_bind].
    destruct (compactify_some (set_v2i s (index_loop (g_pmap s) (g_v2i s)))) as [s2 ->]; [| |by eexists]; cbn.
    + intros i p Hin. destruct (Hn _ _ Hin) as [q ->]. apply sm_find_in in Hin; [|apply HP]. split.
      * change (i < placed_count s). apply (Hi i q). unfold find_placed. by rewrite Hin.
      * exists q. split; [done|]. exact (PI_map_live _ _ HP _ _ Hin).
    + intros i l Hin. apply sm_find_in in Hin; [|apply HL]. apply (li_map _ _ HL) in Hin as (dd & Hr).
      assert (Hb : born (map lev os) l dd i).
      { destruct Hr as (e1 & e2 & ? & ? & ? & ? & ?). by exists e1, e2. }
      apply (li_born _ _ HL) in Hb as (v & Hv & _). exists v. split; [done|]. by eapply li_shape.
Qed.
Lemma builds_proper os : forallb builds os = true → N.of_nat (length os) < 4294967296 → proper os.
Proof.
  intros Hb Hn. split_and!; [| |done]; intros e1 a e2 E; exfalso.
  - assert (Hin : EDel a ∈ map pev os) by (rewrite E; set_solver). apply elem_of_list_In, in_map_iff in Hin as (o & Ho & Hin).
    rewrite forallb_forall in Hb. apply Hb in Hin. by destruct o.
  - assert (Hin : EDel a ∈ map lev os) by (rewrite E; set_solver). apply elem_of_list_In, in_map_iff in Hin as (o & Ho & Hin).
    rewrite forallb_forall in Hb. apply Hb in Hin. by destruct o.
Qed.
Lemma builds_no_conv os : forallb builds os = true → forallb no_conv os = true.
Proof. rewrite !forallb_forall. intros H o Ho%H. by destruct o. Qed.
Lemma build_close os s fuel w kss : forallb builds os = true → N.of_nat (length os) < 4294967296 → run os = Some s →
  g_world s = Some w → depth_below (daughters s) w fuel → enumerates (daughters s) w (λ _, True) kss → N.of_nat (length kss) ≤ int_max →
  whole s ∧ is_Some (close fuel s).
Proof.
  intros Hb Hn E Hw Hd He Hl. pose proof (run_built _ _ Hb Hn E) as [HB _]. pose proof (built_whole _ HB) as Hwh. split; [done|].
  apply (close_iff os); [by apply builds_proper|by apply builds_no_conv|done|]. exists w.
  destruct (nodes_some (daughters s) fuel w Hd) as [ns Ens].
  { intros ks q Hk. destruct (Hwh w ks q Hw Hk) as (v & l & Hv & _ & Hl2 & _). unfold daughters. rewrite Hv. cbn [mbind option_bind].
    rewrite Hl2. by eexists. }
  split_and!; [done| | |].
  - unfold max_depth. rewrite visit_nodes, Ens. cbn [mbind option_bind]. destruct (apply_depth_nodes (daughters s) 1 ns 0) as (r & -> & _). by eexists.
  - unfold node_count. rewrite visit_nodes, Ens. cbn [mbind option_bind]. apply apply_count_some.
    pose proof (enumerates_all _ _ _ _ Ens) as He'. pose proof (enumerates_length _ _ _ _ _ He He') as Hlen. rewrite fmap_length in Hlen. lia.
  - intros i p Hi. unfold find_placed in Hi. destruct (sm_find i (g_pmap s)) as [x|] eqn:Ef; [|done].
    apply sm_find_in in Ef; [|apply HB]. rewrite (bu_count _ HB). by apply (bu_lt _ HB) in Ef as [? _].
Qed.
End Use.
