From stdpp Require Import list option gmap fin_maps sorting.
From Coq Require Import NArith ZArith Lia ZifyN ZifyBool ZifyNat.
From Verif Require Import NavTableModel NavTableSpec NavPathModel NavPathSpec NavPathProofs.
From Verif Require Import GeoManagerModel GeoManagerSpec GeoManagerProofs GeoManagerProofs2 GeoVisitProofs GeoManagerProofs3 GeoManagerProofs4.
Local Open Scope N_scope.

Local Arguments N.add : simpl never.
Local Arguments N.modulo : simpl never.
Local Arguments N.of_nat : simpl never.
Local Arguments N.ltb : simpl never.
Local Arguments N.eqb : simpl never.
Local Arguments compactify : simpl never.
Local Arguments max_depth : simpl never.
Local Arguments node_count : simpl never.

Section Final.
Context {T Sh : Type}.
Implicit Types (s : gm T Sh) (os : list (op T Sh)).


(** * C51 *)
Lemma final_unique os s : proper os → run os = Some s →
  (∀ a a' v v', g_pheap s !! Obj a = Some v → g_pheap s !! Obj a' = Some v' →
    (∃ d, ENew a d ∈ since_clear (map pev os)) → (∃ d, ENew a' d ∈ since_clear (map pev os)) → pv_id v = pv_id v' → a = a') ∧
  (∀ l l' v v', g_lheap s !! l = Some v → g_lheap s !! l' = Some v' →
    (∃ d, ENew l d ∈ since_clear (map lev os)) → (∃ d, ENew l' d ∈ since_clear (map lev os)) → lv_id v = lv_id v' → l = l').
Proof.
  intros Hp E. pose proof (run_inv _ _ Hp E) as [HP HL]. split.
  - intros a a' v v' Hv Hv' Ha Ha' Hi. apply (pi_live _ _ HP) in Hv; [|done]. apply (pi_live _ _ HP) in Hv'; [|done].
    rewrite Hi in Hv. by destruct (born_inj _ _ _ _ _ _ Hv Hv').
  - intros a a' v v' Hv Hv' Ha Ha' Hi. apply (li_live _ _ HL) in Hv; [|done]. apply (li_live _ _ HL) in Hv'; [|done].
    rewrite Hi in Hv. by destruct (born_inj _ _ _ _ _ _ Hv Hv').
Qed.
Lemma final_placed os s : proper os → run os = Some s → ∀ i,
  (∀ p, find_placed s i = Some p → ∃ a v, g_pheap s !! p = Some v ∧ pv_id v = i ∧
     registered (map pev os) a (pv_label v, pv_lv v, pv_tr v) i ∧ (closed (map pev os) = false → p = Obj a)) ∧
  (∀ a d, registered (map pev os) a d i → ∃ p v, find_placed s i = Some p ∧ g_pheap s !! p = Some v ∧
     (pv_label v, pv_lv v, pv_tr v) = d ∧ (closed (map pev os) = false → p = Obj a)) ∧
  (find_placed s i = None ↔ ¬ ∃ a d, registered (map pev os) a d i).
Proof.
  intros Hp E i. pose proof (run_inv _ _ Hp E) as [HP HL].
  assert (H1 : ∀ p, find_placed s i = Some p → ∃ a v, g_pheap s !! p = Some v ∧ pv_id v = i ∧
     registered (map pev os) a (pv_label v, pv_lv v, pv_tr v) i ∧ (closed (map pev os) = false → p = Obj a)).
  { intros p Hf. unfold find_placed in Hf. destruct (sm_find i (g_pmap s)) as [x|] eqn:Ef; [|done]. cbn in Hf. subst x.
    apply (pi_map _ _ HP) in Ef as (a & v & Hv & Hi & Hr & Hc). exists a, v. split_and!; try done.
    intros Hcl. rewrite (pi_closed _ _ HP), Hcl in Hc. done. }
  assert (H2 : ∀ a d, registered (map pev os) a d i → ∃ p v, find_placed s i = Some p ∧ g_pheap s !! p = Some v ∧
     (pv_label v, pv_lv v, pv_tr v) = d ∧ (closed (map pev os) = false → p = Obj a)).
  { intros a d Hr. destruct (pi_reg _ _ HP _ _ _ Hr) as [p Hf].
    assert (Hfp : find_placed s i = Some p) by (unfold find_placed; by rewrite Hf).
    destruct (H1 p Hfp) as (a' & v & Hv & Hi & Hr' & Hc). exists p, v.
    destruct (born_inj _ _ _ _ _ _ (registered_born _ _ _ _ Hr) (registered_born _ _ _ _ Hr')) as [-> ->]. done. }
  split_and!; [done|done|]. split.
  - intros Hn (a & d & Hr). apply H2 in Hr as (p & v & Hf & _). congruence.
  - intros Hn. destruct (find_placed s i) as [p|] eqn:Ef; [|done]. destruct (H1 p eq_refl) as (a & v & _ & _ & Hr & _).
    destruct Hn. eauto.
Qed.
Lemma final_logical os s : proper os → run os = Some s → ∀ i,
  (∀ l, find_logical s i = Some l ↔ ∃ d, registered (map lev os) l d i) ∧
  (∀ l d, registered (map lev os) l d i → ∃ v, g_lheap s !! l = Some v ∧ lv_id v = i ∧ (lv_label v, lv_shape v) = d ∧
     logical_volume_label s i = Some (Some d.1)) ∧
  ((¬ ∃ l d, registered (map lev os) l d i) → logical_volume_label s i = Some None).
Proof.
  intros Hp E i. pose proof (run_inv _ _ Hp E) as [HP HL]. split_and!.
  - intros l. apply (li_map _ _ HL).
  - intros l d Hr. destruct (li_born _ _ HL _ _ _ (registered_born _ _ _ _ Hr)) as (v & Hv & Hi & Hd). exists v. split_and!; [done|done|done|].
    unfold logical_volume_label, find_logical. rewrite (proj2 (li_map _ _ HL i l)) by (by exists d). rewrite Hv. cbn. by rewrite <-Hd.
  - intros Hn. unfold logical_volume_label. destruct (find_logical s i) as [l|] eqn:Ef; [|done].
    apply (li_map _ _ HL) in Ef as (d & Hr). destruct Hn. eauto.
Qed.
Lemma final_count os s : proper os → forallb no_conv os = true → run os = Some s →
  ∃ ids, NoDup ids ∧ N.of_nat (length ids) = placed_count s ∧ ∀ i, i ∈ ids ↔ ∃ a d, registered (map pev os) a d i.
Proof.
  intros Hp Hc E. pose proof (run_inv _ _ Hp E) as [HP HL]. pose proof (run_no_null _ _ Hp Hc E) as Hn.
  exists (g_pmap s).*1. split_and!.
  - pose proof (pi_sorted _ _ HP) as Hs. clear -Hs. induction Hs as [|[k v] m Hs IH Hk]; [constructor|]. cbn. constructor; [|done].
    intros ([k' v'] & -> & Hin)%elem_of_list_fmap. rewrite Forall_forall in Hk. apply Hk in Hin. cbn in Hin. lia.
  - unfold placed_count. by rewrite fmap_length.
  - intros i. destruct (final_placed os s Hp E i) as (H1 & H2 & _). split.
    + intros ([k p] & -> & Hin)%elem_of_list_fmap. destruct (Hn _ _ Hin) as [q ->]. apply sm_find_in in Hin; [|apply HP].
      destruct (H1 q) as (a & v & _ & _ & Hr & _); [unfold find_placed; cbn; by rewrite Hin|]. cbn. eauto.
    + intros (a & d & Hr). apply (pi_reg _ _ HP) in Hr as [p Hf]. apply sm_find_in in Hf; [|apply HP].
      apply elem_of_list_fmap. by exists (i, Some p).
Qed.
Lemma final_labels os s label : proper os → forallb no_conv os = true → run os = Some s →
  ∃ r, find_placed_label s label = Some r ∧
    match r with
    | None => ∀ a i lv tr, ¬ registered (map pev os) a (label, lv, tr) i
    | Some p => ∃ i lv tr a, find_placed s i = Some p ∧ registered (map pev os) a (label, lv, tr) i ∧
        ∀ a' i' lv' tr', registered (map pev os) a' (label, lv', tr') i' → i ≤ i'
    end.
Proof.
  intros Hp Hc E. pose proof (run_inv _ _ Hp E) as [HP HL]. pose proof (run_no_null _ _ Hp Hc E) as Hn.
  destruct (placed_label_spec s label (g_pmap s) None) as (r & Er & Hr); [apply HP| |].
  { intros i p Hin. destruct (Hn _ _ Hin) as [q ->]. apply sm_find_in in Hin; [|apply HP].
    destruct (PI_map_live _ _ HP _ _ Hin) as [v Hv]. eauto. }
  exists r. split; [done|]. destruct r as [q|].
  - destruct Hr as (i & v & Hin & Hv & Hl & Hmin). apply sm_find_in in Hin; [|apply HP].
    assert (Hf : find_placed s i = Some q) by (unfold find_placed; by rewrite Hin).
    destruct (final_placed os s Hp E i) as (H1 & _). destruct (H1 q Hf) as (a & v' & Hv' & _ & Hr & _).
    rewrite Hv in Hv'. injection Hv' as <-. rewrite Hl in Hr. exists i, (pv_lv v), (pv_tr v), a. split_and!; [done|done|].
    intros a' i' lv' tr' Hr'. destruct (final_placed os s Hp E i') as (_ & H2 & _). destruct (H2 _ _ Hr') as (p & v' & Hf' & Hv' & Hd & _).
    apply (Hmin i' p v'); [|done|congruence]. unfold find_placed in Hf'. destruct (sm_find i' (g_pmap s)) as [x|] eqn:Ef; [|done].
    cbn in Hf'. subst x. by apply sm_find_in in Ef; [|apply HP].
  - intros a i lv tr Hr'. destruct (final_placed os s Hp E i) as (_ & H2 & _). destruct (H2 _ _ Hr') as (p & v' & Hf' & Hv' & Hd & _).
    unfold find_placed in Hf'. destruct (sm_find i (g_pmap s)) as [x|] eqn:Ef; [|done].
    cbn in Hf'. subst x. apply sm_find_in in Ef; [|apply HP]. apply (Hr _ _ _ Ef Hv'). congruence.
Qed.
Lemma final_logical_labels os s label : proper os → run os = Some s →
  ∃ r z, find_logical_label s label = Some r ∧ logical_volume_id s label = Some z ∧
    match r with
    | None => z = (-1)%Z ∧ ∀ l i u, ¬ registered (map lev os) l (label, u) i
    | Some l => ∃ i u, z = Z.of_N i ∧ registered (map lev os) l (label, u) i ∧
        ∀ l' i' u', registered (map lev os) l' (label, u') i' → i ≤ i'
    end.
Proof.
  intros Hp E. pose proof (run_inv _ _ Hp E) as [HP HL].
  assert (Hreg : ∀ i l, (i, l) ∈ g_lmap s → ∃ v, g_lheap s !! l = Some v ∧ lv_id v = i ∧ registered (map lev os) l (lv_label v, lv_shape v) i).
  { intros i l Hin. apply sm_find_in in Hin; [|apply HL]. apply (li_map _ _ HL) in Hin as (d & Hr).
    destruct (li_born _ _ HL _ _ _ (registered_born _ _ _ _ Hr)) as (v & Hv & Hi & Hd). exists v. unfold ldata in Hd. by rewrite Hd. }
  assert (Hreg2 : ∀ i l d, registered (map lev os) l d i → (i, l) ∈ g_lmap s ∧ ∃ v, g_lheap s !! l = Some v ∧ (lv_label v, lv_shape v) = d).
  { intros i l d Hr. split; [apply sm_find_in; [apply HL|]; apply (li_map _ _ HL); by exists d|].
    destruct (li_born _ _ HL _ _ _ (registered_born _ _ _ _ Hr)) as (v & Hv & Hi & Hd). by exists v. }
  destruct (logical_label_spec s label (g_lmap s) None) as (r & Er & Hr); [apply HL| |].
  { intros i l Hin. apply Hreg in Hin as (v & Hv & _). by eexists. }
  unfold logical_volume_id, find_logical_label. rewrite Er. cbn [mbind option_bind]. destruct r as [q|].
  - destruct Hr as (i & v & Hin & Hv & Hl & Hmin). apply Hreg in Hin as (v' & Hv' & Hi & Hr). rewrite Hv in Hv'. injection Hv' as <-.
    exists (Some q), (Z.of_N (lv_id v)). rewrite Hv. cbn [mbind option_bind]. split_and!; [done|done|]. rewrite Hl in Hr.
    exists i, (lv_shape v). split_and!; [by rewrite Hi|done|]. intros l' i' u' (Hin' & v' & Hv' & Hd)%Hreg2. apply (Hmin i' l' v'); [done|done|congruence].
  - exists None, (-1)%Z. split_and!; [done|done|done|]. intros l i u (Hin' & v' & Hv' & Hd)%Hreg2. apply (Hr _ _ _ Hin' Hv'). congruence.
Qed.
Lemma final_deregister os s a s' : proper (os ++ [DelP a]) → run os = Some s → step s (DelP a) = Some s' →
  ∃ v, g_pheap s !! Obj a = Some v ∧ find_placed s' (pv_id v) = None ∧
    ∀ b d i, b ≠ a → registered (map pev os) b d i → find_placed s' i = find_placed s i ∧
      ∀ p, find_placed s i = Some p → p ≠ Obj a → g_pheap s' !! p = g_pheap s !! p.
Proof.
  intros Hp E Es. pose proof Hp as Hp'. apply proper_snoc in Hp' as [Hp1 _]. pose proof (run_inv _ _ Hp1 E) as [HP HL]. cbn [step] in Es.
  unfold del_placed in Es. destruct (g_pheap s !! Obj a) as [v|] eqn:Ev; [|done]. cbn [mbind option_bind] in Es. injection Es as <-.
  exists v. split; [done|].
  assert (Hborn : born (map pev os) a (pdata v) (pv_id v)).
  { apply (pi_live _ _ HP); [done|]. destruct Hp as [Hs _]. rewrite map_app in Hs. by apply (Hs (map pev os) a []). }
  assert (Hf : ∀ i, find_placed (set_pheap (deregister_placed s (pv_id v)) (delete (Obj a) (g_pheap (deregister_placed s (pv_id v))))) i =
    if i =? pv_id v then None else find_placed s i).
  { intros i. unfold find_placed, deregister_placed. cbn. destruct (sm_find (pv_id v) (g_pmap s)) as [x|] eqn:Ef; cbn.
    - rewrite sm_find_erase by apply HP. by destruct (i =? pv_id v).
    - destruct (N.eqb_spec i (pv_id v)) as [->|]; [by rewrite Ef|done]. }
  split; [by rewrite Hf, N.eqb_refl|]. intros b d i Hb Hr. rewrite Hf. split.
  - destruct (N.eqb_spec i (pv_id v)) as [->|]; [|done].
    by destruct (born_inj _ _ _ _ _ _ (registered_born _ _ _ _ Hr) Hborn).
  - intros p Hp2 Hne. cbn. rewrite lookup_delete_ne by done. unfold deregister_placed. by destruct (sm_find _ _).
Qed.
Lemma final_deregister_logical os s l s' : proper (os ++ [DelL l]) → run os = Some s → step s (DelL l) = Some s' →
  ∃ v, g_lheap s !! l = Some v ∧ find_logical s' (lv_id v) = None ∧
    ∀ l' d i, l' ≠ l → registered (map lev os) l' d i → find_logical s' i = Some l' ∧ g_lheap s' !! l' = g_lheap s !! l'.
Proof.
  intros Hp E Es. pose proof Hp as Hp'. apply proper_snoc in Hp' as [Hp1 _]. pose proof (run_inv _ _ Hp1 E) as [HP HL]. cbn [step] in Es.
  unfold del_logical in Es. destruct (g_lheap s !! l) as [v|] eqn:Ev; [|done]. cbn [mbind option_bind] in Es. injection Es as <-.
  exists v. split; [done|].
  assert (Hborn : born (map lev os) l (ldata v) (lv_id v)).
  { apply (li_live _ _ HL); [done|]. destruct Hp as (_ & Hs & _). rewrite map_app in Hs. by apply (Hs (map lev os) l []). }
  assert (Hf : ∀ i, find_logical (set_lheap (deregister_logical s (lv_id v)) (delete l (g_lheap (deregister_logical s (lv_id v))))) i =
    if i =? lv_id v then None else find_logical s i).
  { intros i. unfold find_logical, deregister_logical. cbn. destruct (sm_find (lv_id v) (g_lmap s)) as [x|] eqn:Ef; cbn.
    - rewrite sm_find_erase by apply HL. by destruct (i =? lv_id v).
    - destruct (N.eqb_spec i (lv_id v)) as [->|]; [by rewrite Ef|done]. }
  split; [by rewrite Hf, N.eqb_refl|]. intros b d i Hb Hr. rewrite Hf. split.
  - destruct (N.eqb_spec i (lv_id v)) as [->|]; [|apply (li_map _ _ HL); by exists d].
    by destruct (born_inj _ _ _ _ _ _ (registered_born _ _ _ _ Hr) Hborn).
  - cbn. rewrite lookup_delete_ne by done. unfold deregister_logical. by destruct (sm_find _ _).
Qed.

(** * C52 *)
Lemma index_loop_other (m : smap (option addr)) v2i p : (∀ i, (i, Some p) ∉ m) → index_loop m v2i !! p = v2i !! p.
Proof.
  revert v2i. induction m as [|[i [q|]] m IH]; intros v2i Hn; cbn; [done| |].
  - rewrite IH; [|intros j Hj; apply (Hn j); by right]. apply lookup_insert_ne. intros ->. apply (Hn i). by left.
  - apply IH. intros j Hj; apply (Hn j); by right.
Qed.
Lemma index_loop_in (m : smap (option addr)) v2i p i : (∀ j, (j, Some p) ∈ m → j = i) → (i, Some p) ∈ m → index_loop m v2i !! p = Some i.
Proof.
  revert v2i. induction m as [|[j q] m IH]; intros v2i Hu Hin; [set_solver|]. cbn.
  destruct (decide ((i, Some p) ∈ m)) as [Hm|Hm].
  - apply IH; [|done]. intros k Hk. apply Hu. by right.
  - apply elem_of_cons in Hin as [[= <- <-]|]; [|done]. rewrite index_loop_other; [apply lookup_insert|].
    intros k Hk. assert (k = i) as -> by (apply Hu; by right). done.
Qed.
Lemma final_convert_old os s fuel s' : proper os → run os = Some s → close fuel s = Some s' →
  ∀ i p, find_placed s i = Some p → (convert_pointer s' p).2 = i.
Proof.
  intros Hp E Ec i p Hf. pose proof (run_inv _ _ Hp E) as [HP HL]. apply close_inv in Ec as (w & d & n & s2 & Hw & Hd & Hn & E2 & ->).
  assert (Hv : g_v2i s2 = index_loop (g_pmap s) (g_v2i s)).
  { unfold compactify in E2. destruct (copy_loop _ _ _ _ _) as [[[h pm] conv]|]; [|done]. cbn [mbind option_bind] in E2.
    destruct (daughters_loop _ _ _) as [lh|]; [|done]. cbn [mbind option_bind] in E2.
    destruct (shapes_loop _ _ _ _) as [uh|]; [|done]. cbn [mbind option_bind] in E2. by injection E2 as <-. }
  unfold convert_pointer. cbn [g_v2i]. rewrite Hv. unfold find_placed in Hf. destruct (sm_find i (g_pmap s)) as [x|] eqn:Ef; [|done].
  cbn in Hf. subst x. rewrite (index_loop_in _ _ p i); [done| |by apply sm_find_in in Ef; [|apply HP]].
  intros j Hj. apply sm_find_in in Hj; [|apply HP]. apply (pi_map _ _ HP) in Hj as (a & v & Hv1 & Hi1 & _).
  apply (pi_map _ _ HP) in Ef as (a2 & v2 & Hv2 & Hi2 & _). congruence.
Qed.
Lemma final_index_back os s fuel s' : proper os → run os = Some s → close fuel s = Some s' →
  ∀ i, (∃ a d, registered (map pev os) a d i) → ∃ p, to_placed s' i = Some p ∧ to_index s' p = Some i.
Proof.
  intros Hp E Ec i (a & d & Hr). pose proof (run_inv _ _ Hp E) as [HP HL].
  destruct (close_use _ _ _ _ Hp E Ec) as (conv & w & HC & _). destruct (pi_reg _ _ HP _ _ _ Hr) as [q Hf].
  pose proof (pi_map _ _ HP _ _ Hf) as (a' & v & Hv & Hi & _). apply sm_find_in in Hf; [|apply HP].
  apply (co_slot _ _ _ HC) in Hf as (Hlt & q' & v' & [= <-] & Hv1 & Hv2 & _). exists (Slot (g_gen s) i). split.
  - unfold to_placed. destruct (co_rest _ _ _ HC) as (_ & _ & _ & _ & -> & _). cbn [mbind option_bind].
    destruct (N.ltb_spec i (placed_count s)); [done|lia].
  - unfold to_index. rewrite Hv2. cbn. rewrite Hv in Hv1. injection Hv1 as <-. by rewrite Hi.
Qed.
End Final.

(** * C53 *)
Section Count.
Context {P : Type} (dau : P → option (list P)).
Lemma final_visit_some fuel p kss : depth_below dau p fuel → (∀ ks q, walk dau p ks = Some q → is_Some (dau q)) →
  enumerates dau p (λ _, True) kss → N.of_nat (length kss) ≤ int_max →
  node_count dau fuel p = Some (N.of_nat (length kss)) ∧ is_Some (max_depth dau fuel p) ∧ is_Some (all_placed dau fuel p).
Proof.
  intros Hd Ht He Hl. destruct (nodes_some dau fuel p Hd Ht) as [ns Ens].
  pose proof (enumerates_length _ _ _ _ _ He (enumerates_all _ _ _ _ Ens)) as Hlen. rewrite fmap_length in Hlen.
  unfold node_count, max_depth, all_placed. rewrite !visit_nodes, Ens. cbn [mbind option_bind]. split_and!.
  - destruct (apply_count_some 1 ns 0) as [r Hr]; [lia|]. rewrite Hr. apply apply_count_nodes in Hr. f_equal. lia.
  - destruct (apply_depth_nodes dau 1 ns 0) as (r & -> & _). by eexists.
  - rewrite apply_placed_nodes. by eexists.
Qed.
Lemma final_depth fuel p d : max_depth dau fuel p = Some d →
  (∀ ks, is_Some (walk dau p ks) → N.of_nat (length ks) + 1 ≤ d) ∧ ∃ ks, is_Some (walk dau p ks) ∧ d = N.of_nat (length ks) + 1.
Proof.
  unfold max_depth. rewrite visit_nodes. destruct (nodes dau fuel p) as [ns|] eqn:Ens; [|done]. cbn [mbind option_bind].
  destruct (apply_depth_nodes dau 1 ns 0) as (r & -> & _ & H2 & H3). intros [= <-]. apply nodes_spec in Ens as (_ & Hm & _). split.
  - intros ks [q Hq]. apply Hm in Hq. apply H2 in Hq. lia.
  - destruct H3 as [->|(ks & q & Hin & ->)].
    + assert (Hin : ([], p) ∈ ns) by (by apply Hm). apply H2 in Hin. cbn in Hin. lia.
    + exists ks. apply Hm in Hin. split; [by eexists|lia].
Qed.
Lemma final_all_placed fuel p l : all_placed dau fuel p = Some l →
  ∃ kss, enumerates dau p (λ _, True) kss ∧ Forall2 (λ ks q, walk dau p ks = Some q) kss l.
Proof.
  unfold all_placed. rewrite visit_nodes. destruct (nodes dau fuel p) as [ns|] eqn:Ens; [|done]. cbn [mbind option_bind].
  rewrite apply_placed_nodes. intros [= <-]. exists ns.*1. split; [by eapply enumerates_all|]. apply nodes_spec in Ens as (_ & Hm & _).
  assert (H : ∀ n, n ∈ ns → walk dau p n.1 = Some n.2) by (intros [ks q] Hin; by apply Hm). clear Hm.
  induction ns as [|n ns IH]; [constructor|]. cbn. constructor; [apply H; by left|]. apply IH. intros n' Hn'. apply H. by right.
Qed.
Lemma final_all_logical (lvo : P → option N) fuel p l : all_logical dau lvo fuel p = Some l →
  NoDup l ∧ ∀ x, x ∈ l ↔ ∃ ks q, walk dau p ks = Some q ∧ lvo q = Some x.
Proof.
  unfold all_logical. rewrite visit_nodes. destruct (nodes dau fuel p) as [ns|] eqn:Ens; [|done]. cbn [mbind option_bind].
  intros E. destruct (apply_logical_nodes dau lvo 0 ns [] l (NoDup_nil_2) E) as [H1 H2]. split; [done|]. apply nodes_spec in Ens as (_ & Hm & _).
  intros x. rewrite H2. split.
  - intros [Hx|(ks & q & Hin & Hl)]; [set_solver|]. exists ks, q. split; [by apply Hm|done].
  - intros (ks & q & Hw & Hl). right. exists ks, q. split; [by apply Hm|done].
Qed.
End Count.
Section PathsF.
Context {T : Type} (G : geo T) (lvo : N → N).
Local Notation dau := (λ p, Some (g_dau G p)).
Lemma final_paths lv fuel world d : max_depth dau fuel world = Some d → d ≤ 255 →
  ∃ cs kss, all_paths G lvo lv (N.to_nat d) fuel world = Some cs ∧ enumerates dau world (λ q, lvo q = lv) kss ∧
    Forall2 (λ ks st, ∃ t, trace dau world ks = Some t ∧ p_cur st = N.of_nat (length t) ∧
      ∀ i x, t !! i = Some x → nsp_at st (Z.of_nat i) = Some (Some x)) kss cs.
Proof.
  intros Hd H255. pose proof (final_depth _ _ _ _ Hd) as [Hb _]. unfold max_depth in Hd. rewrite visit_nodes in Hd.
  destruct (nodes dau fuel world) as [ns|] eqn:Ens; [|done]. clear Hd.
  destruct (visit_context_spec G lvo lv (N.to_nat d + 1) fuel world ns [] (nsp_clear (nsp_make (N.to_nat d))) []) as (s' & cs & E & _ & HF).
  { done. }
  { eapply PRep_clear, PRep_make. }
  { intros ks q Hin. pose proof Ens as (_ & Hm & _)%nodes_spec. apply Hm in Hin. specialize (Hb ks). rewrite Hin in Hb.
    specialize (Hb ltac:(by eexists)). cbn [length]. lia. }
  exists cs, (filter (λ n : list nat * N, lvo n.2 = lv) ns).*1. unfold all_paths. rewrite E. cbn [mbind option_bind]. split_and!; [done| |].
  - exact (nodes_enumerates dau fuel world ns (λ q, lvo q = lv) Ens).
  - apply Forall2_fmap_l. eapply Forall2_impl; [exact HF|]. intros [ks q] st (t & Ht & HPR). cbn [fst] in *. exists t.
    rewrite app_nil_r in HPR. pose proof HPR as (Hc & _). rewrite rev_length in Hc. split_and!; [done|done|].
    intros i x Hx. unfold nsp_at. destruct (Z.leb_spec 0 (Z.of_nat i)); [|lia]. replace (Z.to_N (Z.of_nat i)) with (N.of_nat i) by lia.
    rewrite (PRep_slot' _ _ _ _ x HPR); [done|]. by rewrite rev_involutive.
Qed.
Lemma final_ntotal (ldau : N → list N) fuel p n : (∀ q, ldau (lvo q) = g_dau G q) → node_count dau fuel p = Some n →
  n_total lvo ldau fuel (lvo p) = Some (n - 1) ∧ 0 < n.
Proof.
  intros Hl. unfold node_count. rewrite visit_nodes. destruct (nodes dau fuel p) as [ns|] eqn:Ens; [|done]. cbn [mbind option_bind].
  intros E%apply_count_nodes. rewrite (n_total_spec G lvo ldau fuel p ns Hl Ens). subst n. split; [f_equal; lia|].
  apply nodes_spec in Ens as (_ & Hm & _). destruct ns; [|cbn; lia]. assert (([], p) ∈ ([] : list (list nat * N))) by (by apply Hm). set_solver.
Qed.
End PathsF.
