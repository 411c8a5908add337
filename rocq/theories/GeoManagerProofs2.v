From stdpp Require Import list option gmap fin_maps sorting.
From Coq Require Import NArith ZArith Lia ZifyN ZifyBool ZifyNat.
From Verif Require Import NavTableModel NavPathModel GeoManagerModel GeoManagerSpec GeoManagerProofs.
Local Open Scope N_scope.

Local Arguments N.add : simpl never.
Local Arguments N.modulo : simpl never.
Local Arguments N.of_nat : simpl never.
Local Arguments N.ltb : simpl never.
Local Arguments N.eqb : simpl never.
Local Arguments compactify : simpl never.
Local Arguments max_depth : simpl never.
Local Arguments node_count : simpl never.

Section Logical.
Context {T Sh : Type}.
Implicit Types (s : gm T Sh).

Definition ldata (v : lvol) : N * N := (lv_label v, lv_shape v).
Record LI (es : list (ev (N * N))) s : Prop := {
  li_count : g_lcount s = nnew es;
  li_closed : g_closed s = closed es;
  li_sorted : sm_sorted (g_lmap s);
  li_live : ∀ l v, g_lheap s !! l = Some v → (∃ d, ENew l d ∈ since_clear es) → born es l (ldata v) (lv_id v);
  li_born : ∀ l d i, born es l d i → ∃ v, g_lheap s !! l = Some v ∧ lv_id v = i ∧ ldata v = d;
  li_map : ∀ i l, sm_find i (g_lmap s) = Some l ↔ ∃ d, registered es l d i;
  li_shape : ∀ l v, g_lheap s !! l = Some v → is_Some (g_uheap s !! lv_shape v) }.

Lemma LI_keep es e s s' : LI es s → (e = EOther ∨ e = EClose) →
  g_lcount s' = g_lcount s → g_closed s' = closed (es ++ [e]) → g_lmap s' = g_lmap s →
  (∀ l, (λ v, (lv_id v, ldata v)) <$> (g_lheap s' !! l) = (λ v, (lv_id v, ldata v)) <$> (g_lheap s !! l)) →
  (∀ u, is_Some (g_uheap s !! u) → is_Some (g_uheap s' !! u)) →
  LI (es ++ [e]) s'.
Proof.
  intros [H1 H2 H3 H4 H5 H6 H7] He E1 E2 E3 Hh Hu.
  assert (Hf : ∀ p v, g_lheap s' !! p = Some v → ∃ w, g_lheap s !! p = Some w ∧ lv_id w = lv_id v ∧ ldata w = ldata v).
  { intros p v Hv. specialize (Hh p). rewrite Hv in Hh. destruct (g_lheap s !! p) as [w|]; [|done].
    cbn [fmap option_fmap option_map] in Hh. exists w. apply (inj Some) in Hh. pose proof (f_equal fst Hh). pose proof (f_equal snd Hh). done. }
  assert (Hb : ∀ p v, g_lheap s !! p = Some v → ∃ w, g_lheap s' !! p = Some w ∧ lv_id w = lv_id v ∧ ldata w = ldata v).
  { intros p v Hv. specialize (Hh p). rewrite Hv in Hh. destruct (g_lheap s' !! p) as [w|]; [|done].
    cbn [fmap option_fmap option_map] in Hh. exists w. apply (inj Some) in Hh. pose proof (f_equal fst Hh). pose proof (f_equal snd Hh). done. }
  assert (Hbo : ∀ a d i, born (es ++ [e]) a d i ↔ born es a d i).
  { intros. rewrite born_snoc. destruct He as [-> | ->]; naive_solver. }
  assert (Hre : ∀ a d i, registered (es ++ [e]) a d i ↔ registered es a d i).
  { intros. rewrite registered_snoc. destruct He as [-> | ->]; naive_solver. }
  split; rewrite ?E1, ?E3.
  - rewrite nnew_snoc. by destruct He as [-> | ->].
  - done.
  - done.
  - intros a v Hv [d Hd]. rewrite Hbo. apply Hf in Hv as (w & Hw & <- & <-). apply H4; [done|]. exists d.
    rewrite since_clear_snoc in Hd. destruct He as [-> | ->]; set_solver.
  - intros a d i Hb'. rewrite Hbo in Hb'. apply H5 in Hb' as (v & Hv & <- & <-). apply Hb in Hv as (w & ? & ? & ?). by exists w.
  - intros i l. rewrite H6. by setoid_rewrite Hre.
  - intros l v Hv. apply Hf in Hv as (w & Hw & _ & Hd). injection Hd as _ <-. apply Hu. by apply (H7 l).
Qed.
Lemma LI_new es s l label u s' : LI es s → new_logical s l label u = Some s' → LI (es ++ [ENew l (label, u)]) s'.
Proof.
  intros [H1 H2 H3 H4 H5 H6 H7] E. unfold new_logical in E.
  destruct (g_lheap s !! l) eqn:El; [done|]. destruct (g_uheap s !! u) as [sh|] eqn:Eu; [|done].
  destruct (N.ltb_spec (g_lcount s) int_max); [|done].
  assert (Hfresh : ∀ d i, ¬ born es l d i).
  { intros d i Hb. apply H5 in Hb as (v & Hv & _). congruence. }
  set (s2 := register_logical _ _ _) in E. injection E as <-.
  assert (Hf : g_lheap s2 = g_lheap s ∧ g_uheap s2 = g_uheap s ∧ g_closed s2 = g_closed s ∧
    g_lcount s2 = g_lcount s + 1 ∧
    g_lmap s2 = if g_closed s then g_lmap s else sm_insert (g_lcount s) l (g_lmap s)).
  { unfold s2, register_logical. cbn. destruct (g_closed s) eqn:Ec; cbn; rewrite ?Ec; by split_and!. }
  clearbody s2. destruct Hf as (F1 & F2 & F3 & F4 & F5).
  split; cbn; rewrite ?F1, ?F2, ?F3, ?F4.
  - by rewrite nnew_snoc, H1.
  - by rewrite closed_snoc.
  - rewrite F5. destruct (g_closed s); [done|]. by apply sm_insert_sorted.
  - intros b v Hv [d Hd]. rewrite born_snoc. destruct (decide (b = l)) as [->|].
    + rewrite lookup_insert in Hv. injection Hv as <-. left. by rewrite H1.
    + rewrite lookup_insert_ne in Hv by congruence. right. split; [|done]. apply H4; [done|]. exists d.
      rewrite since_clear_snoc in Hd. set_solver.
  - intros b d i. rewrite born_snoc. intros [[[= <- <-] ->]|[Hb _]].
    + rewrite lookup_insert. eexists. split_and!; [done| |done]. cbn. by rewrite H1.
    + destruct (decide (b = l)) as [->|]; [by apply Hfresh in Hb|]. rewrite lookup_insert_ne by congruence. by apply H5.
  - intros i b. setoid_rewrite registered_snoc. rewrite F5. split.
    + assert (Hold : sm_find i (g_lmap s) = Some b → ∃ d, (ENew l (label, u) = ENew b d ∧ i = nnew es ∧ closed es = false)
        ∨ registered es b d i ∧ ENew l (label, u) ≠ EDel b ∧ ENew l (label, u) ≠ EClear).
      { intros [d Hd]%H6. exists d. by right. }
      destruct (g_closed s) eqn:Ec; [done|]. rewrite sm_find_insert by done.
      destruct (N.eqb_spec i (g_lcount s)) as [->|]; [|done]. intros [= <-]. exists (label, u). left. by rewrite H1, <-H2.
    + intros [d [([= <- <-] & -> & Hc)|[Hr _]]].
      * rewrite H2, Hc, sm_find_insert, H1, N.eqb_refl by done. done.
      * pose proof (born_lt _ _ _ _ (registered_born _ _ _ _ Hr)).
        assert (sm_find i (g_lmap s) = Some b) as Hm by (apply H6; by exists d).
        destruct (g_closed s); [done|]. rewrite sm_find_insert by done. destruct (N.eqb_spec i (g_lcount s)); [lia|done].
  - intros b v Hv. destruct (decide (b = l)) as [->|].
    + rewrite lookup_insert in Hv. injection Hv as <-. cbn. rewrite Eu. by eexists.
    + rewrite lookup_insert_ne in Hv by done. by apply (H7 b).
Qed.
Lemma LI_del es s l s' : LI es s → (∃ d, ENew l d ∈ since_clear es) → del_logical s l = Some s' → LI (es ++ [EDel l]) s'.
Proof.
  intros [H1 H2 H3 H4 H5 H6 H7] Hd E. unfold del_logical in E.
  destruct (g_lheap s !! l) as [v|] eqn:Ea; [|done]. cbn in E. set (s2 := deregister_logical _ _) in E. injection E as <-.
  pose proof (H4 _ _ Ea Hd) as Hb.
  assert (Hf : g_lheap s2 = g_lheap s ∧ g_uheap s2 = g_uheap s ∧ g_closed s2 = g_closed s ∧
    g_lcount s2 = g_lcount s ∧ sm_sorted (g_lmap s2) ∧
    ∀ i, sm_find i (g_lmap s2) = if i =? lv_id v then None else sm_find i (g_lmap s)).
  { unfold s2, deregister_logical. destruct (sm_find (lv_id v) (g_lmap s)) eqn:Ef; cbn; split_and!; try done.
    - by apply sm_erase_sorted.
    - intros i. by apply sm_find_erase.
    - intros i. destruct (N.eqb_spec i (lv_id v)) as [->|]; done. }
  clearbody s2. destruct Hf as (F1 & F2 & F3 & F4 & F6 & F7).
  split; cbn; rewrite ?F1, ?F2, ?F3, ?F4; try done.
  - by rewrite nnew_snoc.
  - by rewrite closed_snoc.
  - intros b w Hw [d Hd']. destruct (decide (b = l)) as [->|]; [by rewrite lookup_delete in Hw|].
    rewrite lookup_delete_ne in Hw by congruence. rewrite born_snoc. right. split; [|split; congruence].
    apply H4; [done|]. exists d. rewrite since_clear_snoc in Hd'. set_solver.
  - intros b d i. rewrite born_snoc. intros [[[=] _]|(Hb' & Hne & _)].
    rewrite lookup_delete_ne by congruence. by apply H5.
  - intros i b. setoid_rewrite registered_snoc. rewrite F7. destruct (N.eqb_spec i (lv_id v)) as [->|Hne].
    + split; [done|]. intros [d [([=] & _)|(Hr & Hne & _)]].
      destruct (born_inj _ _ _ _ _ _ Hb (registered_born _ _ _ _ Hr)) as [-> _]. done.
    + rewrite H6. split.
      * intros [d Hr]. exists d. right. split_and!; [done| |done]. intros [= ->].
        apply registered_born in Hr. apply H5 in Hr as (v' & Hv' & ? & _). congruence.
      * intros [d [([=] & _)|(Hr & _ & _)]]. by exists d.
  - intros b w Hw. destruct (decide (b = l)) as [->|]; [by rewrite lookup_delete in Hw|].
    rewrite lookup_delete_ne in Hw by congruence. by apply (H7 b).
Qed.
Lemma LI_clear es s : LI es s → LI (es ++ [EClear]) (clear s).
Proof.
  intros [H1 H2 H3 H4 H5 H6 H7]. split; cbn.
  - by rewrite nnew_snoc.
  - by rewrite closed_snoc.
  - constructor.
  - intros a v _ [d Hd]. rewrite since_clear_snoc in Hd. set_solver.
  - intros a d i. rewrite born_snoc. by intros [[[=] _]|(_ & _ & [])].
  - intros i l. split; [done|]. intros [d Hr]. rewrite registered_snoc in Hr. by destruct Hr as [([=] & _)|(_ & _ & [])].
  - done.
Qed.

(** * All histories *)
Definition Inv (os : list (op T Sh)) s : Prop := PI (map pev os) s ∧ LI (map lev os) s.

Lemma run_snoc (os : list (op T Sh)) o : run (os ++ [o]) = s ← run os; step s o.
Proof. unfold run. rewrite foldl_app. done. Qed.
Lemma proper_snoc (os : list (op T Sh)) o : proper (os ++ [o]) → proper os ∧
  match o with DelP a => ∃ d, ENew a d ∈ since_clear (map pev os) | DelL l => ∃ d, ENew l d ∈ since_clear (map lev os) | _ => True end.
Proof.
  unfold proper. rewrite !map_app, app_length. cbn. rewrite !no_stale_snoc. intros ([H1 H1'] & [H2 H2'] & H3).
  split; [split_and!; [done|done|lia]|]. by destruct o.
Qed.
Lemma Inv_nil : Inv [] gm_new.
Proof.
  split; split; cbn; try done.
  - constructor.
  - by intros a d i ?%born_nil.
  - by intros a d i ?%registered_born%born_nil.
  - intros g i [? H]. cbn in H; by rewrite lookup_empty in H.
  - constructor.
  - by intros a d i ?%born_nil.
  - intros i l. split; [done|]. by intros [d ?%registered_born%born_nil].
Qed.
Lemma PI_same es s s' : PI es s →
  g_pcount s' = g_pcount s → g_closed s' = g_closed s → g_pmap s' = g_pmap s → g_buf s' = g_buf s → g_gen s' = g_gen s →
  g_pheap s' = g_pheap s → PI (es ++ [EOther]) s'.
Proof. intros. apply (PI_other es s); try done. intros p. by rewrite H5. Qed.
Lemma LI_same es s s' : LI es s →
  g_lcount s' = g_lcount s → g_closed s' = g_closed s → g_lmap s' = g_lmap s → g_lheap s' = g_lheap s → g_uheap s' = g_uheap s →
  LI (es ++ [EOther]) s'.
Proof.
  intros H E1 E2 E3 E4 E5. apply (LI_keep es EOther s); try done; [by left| | |].
  - rewrite closed_snoc, E2. apply (li_closed _ _ H).
  - intros l. by rewrite E4.
  - intros u. by rewrite E5.
Qed.
Lemma Inv_step os s o s' : Inv os s → proper (os ++ [o]) → step s o = Some s' → Inv (os ++ [o]) s'.
Proof.
  intros [HP HL] Hpr E. assert (Hlen : N.of_nat (length (map pev os)) + 1 < 4294967296).
  { destruct Hpr as (_ & _ & H). rewrite app_length in H. rewrite map_length. cbn in H. lia. }
  apply proper_snoc in Hpr as [_ Hd]. unfold Inv. rewrite !map_app. cbn [map].
  destruct o as [u sh|l label u|a label lv tr|l|a|l p|p|fuel| |i|p]; cbn [step pev lev] in *.
  - unfold new_unplaced in E. destruct (decide _) as [[Hu _]|]; [|done]. injection E as <-. split.
    + by apply (PI_same _ s).
    + apply (LI_keep _ EOther s); try done; [by left|rewrite closed_snoc; apply (li_closed _ _ HL)|].
      intros u' [x Hx]. cbn. destruct (decide (u' = u)) as [->|]; [rewrite lookup_insert; by eexists|].
      rewrite lookup_insert_ne by done. by eexists.
  - split; [|by eapply LI_new]. unfold new_logical in E. destruct (g_lheap s !! l); [done|]. destruct (g_uheap s !! u); [|done].
    destruct (_ <? _); [|done]. injection E as <-. unfold register_logical. cbn.
    apply (PI_same _ s); try done; cbn; destruct (g_closed s) eqn:Ec; by cbn.
  - split; [by eapply PI_new|]. unfold new_placed in E. destruct (g_pheap s !! _); [done|]. destruct (g_lheap s !! lv); [|done].
    injection E as <-. unfold register_placed. cbn.
    apply (LI_same _ s); try done; cbn; destruct (g_closed s) eqn:Ec; by cbn.
  - split; [|by eapply LI_del]. unfold del_logical in E. destruct (g_lheap s !! l) as [v|]; [|done]. cbn in E. injection E as <-.
    unfold deregister_logical. apply (PI_same _ s); try done; cbn; by destruct (sm_find _ _).
  - split; [by eapply PI_del|]. unfold del_placed in E. destruct (g_pheap s !! _) as [v|]; [|done]. cbn in E. injection E as <-.
    unfold deregister_placed. apply (LI_same _ s); try done; cbn; by destruct (sm_find _ _).
  - unfold place_daughter in E. destruct (g_lheap s !! l) as [v|] eqn:Ev; [|done]. cbn in E.
    destruct (g_pheap s !! p) as [w|] eqn:Ew; [|done]. cbn in E. destruct (_ <? _)%Z; [|done]. injection E as <-. split.
    + apply (PI_other _ s); try done. intros q. cbn. destruct (decide (q = p)) as [->|].
      * by rewrite lookup_insert, Ew.
      * by rewrite lookup_insert_ne.
    + apply (LI_keep _ EOther s); try done; [by left|rewrite closed_snoc; apply (li_closed _ _ HL)|].
      intros q. cbn. destruct (decide (q = l)) as [->|].
      * by rewrite lookup_insert, Ev.
      * by rewrite lookup_insert_ne.
  - destruct (g_pheap s !! p); [|done]. injection E as <-. split; [by apply (PI_same _ s)|by apply (LI_same _ s)].
  - split; [by eapply PI_close|]. pose proof (PI_map_live _ _ HP) as Hl.
    apply close_compacted in E as (conv & [C1 C2 C3 C4 C5 C6 C7 C8 C9] & Hcl); [|apply HP|done|apply HP].
    destruct C9 as (R1 & R3 & R4 & R5 & R6 & R7). cbn in *.
    apply (LI_keep _ EClose s); try done; [by right|by rewrite closed_snoc| |].
    + intros l. specialize (C7 l). destruct (g_lheap s !! l) as [v|]; rewrite C7; done.
    + intros u [sh Hsh]. specialize (C8 u). rewrite Hsh in C8. destruct C8 as (sh' & -> & _). by eexists.
  - injection E as <-. split; [by apply PI_clear|by apply LI_clear].
  - injection E as <-. split; [by apply PI_convi|]. unfold convert_index.
    destruct (sm_find i (g_pmap s)); cbn; by apply (LI_same _ s).
  - injection E as <-. unfold convert_pointer.
    destruct (g_v2i s !! p); cbn; (split; [by apply (PI_same _ s)|by apply (LI_same _ s)]).
Qed.
Lemma run_inv os s : proper os → run os = Some s → Inv os s.
Proof.
  revert s. induction os as [|o os IH] using rev_ind; intros s Hp E.
  - injection E as <-. apply Inv_nil.
  - rewrite run_snoc in E. destruct (run os) as [s1|]; [|done]. cbn in E. eapply Inv_step; [|done|done].
    apply IH; [|done]. by apply proper_snoc in Hp as [? _].
Qed.
End Logical.
