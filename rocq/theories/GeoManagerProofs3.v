From stdpp Require Import list option gmap fin_maps sorting.
From Coq Require Import NArith ZArith Lia ZifyN ZifyBool ZifyNat.
From Verif Require Import NavTableModel NavPathModel GeoManagerModel GeoManagerSpec GeoManagerProofs GeoManagerProofs2 GeoVisitProofs.
Local Open Scope N_scope.

Local Arguments N.add : simpl never.
Local Arguments N.modulo : simpl never.
Local Arguments N.of_nat : simpl never.
Local Arguments N.ltb : simpl never.
Local Arguments N.eqb : simpl never.
Local Arguments compactify : simpl never.
Local Arguments max_depth : simpl never.
Local Arguments node_count : simpl never.

Section Hier.
Context {T Sh : Type}.
Implicit Types (s : gm T Sh).

(** * Labels *)
Lemma placed_label_spec s label m out :
  sm_sorted m → (∀ i p, (i, p) ∈ m → ∃ q v, p = Some q ∧ g_pheap s !! q = Some v) →
  ∃ r, placed_label_loop s label m out = Some r ∧
    match out with
    | Some _ => r = out
    | None => match r with
              | None => ∀ i q v, (i, Some q) ∈ m → g_pheap s !! q = Some v → pv_label v ≠ label
              | Some q => ∃ i v, (i, Some q) ∈ m ∧ g_pheap s !! q = Some v ∧ pv_label v = label ∧
                  ∀ j q' v', (j, Some q') ∈ m → g_pheap s !! q' = Some v' → pv_label v' = label → i ≤ j
              end
    end.
Proof.
  intros Hs. revert out. induction Hs as [|[i p] m Hs IH Hk]; intros out Hm; cbn [placed_label_loop].
  - exists out. split; [done|]. destruct out; [done|]. set_solver.
  - destruct (Hm i p) as (q & v & -> & Hv); [by left|]. cbn [mbind option_bind]. rewrite Hv. cbn [mbind option_bind].
    assert (Hm' : ∀ i p, (i, p) ∈ m → ∃ q v, p = Some q ∧ g_pheap s !! q = Some v) by (intros; apply (Hm i0); by right).
    rewrite Forall_forall in Hk. destruct (N.eqb_spec (pv_label v) label) as [El|El].
    + destruct out as [q0|].
      * destruct (IH (Some q0) Hm') as (r & E & ->). by exists (Some q0).
      * destruct (IH (Some q) Hm') as (r & E & ->). exists (Some q). split; [done|]. exists i, v. split_and!; [by left|done|done|].
        intros j q' v' [[= -> ->]|Hin]%elem_of_cons _ _; [lia|]. apply Hk in Hin. cbn in Hin. lia.
    + destruct (IH out Hm') as (r & E & Hr). exists r. split; [done|]. destruct out; [done|]. destruct r as [q0|].
      * destruct Hr as (i0 & v0 & H1 & H2 & H3 & H4). exists i0, v0. split_and!; [by right|done|done|].
        intros j q' v' [[= -> ->]|Hin]%elem_of_cons Hv' Hl'; [congruence|]. by eapply H4.
      * intros j q' v' [[= -> ->]|Hin]%elem_of_cons Hv'; [congruence|]. by eapply Hr.
Qed.
Lemma logical_label_spec s label m out :
  sm_sorted m → (∀ i l, (i, l) ∈ m → is_Some (g_lheap s !! l)) →
  ∃ r, logical_label_loop s label m out = Some r ∧
    match out with
    | Some _ => r = out
    | None => match r with
              | None => ∀ i l v, (i, l) ∈ m → g_lheap s !! l = Some v → lv_label v ≠ label
              | Some l => ∃ i v, (i, l) ∈ m ∧ g_lheap s !! l = Some v ∧ lv_label v = label ∧
                  ∀ j l' v', (j, l') ∈ m → g_lheap s !! l' = Some v' → lv_label v' = label → i ≤ j
              end
    end.
Proof.
  intros Hs. revert out. induction Hs as [|[i p] m Hs IH Hk]; intros out Hm; cbn [logical_label_loop].
  - exists out. split; [done|]. destruct out; [done|]. set_solver.
  - destruct (Hm i p) as (v & Hv); [by left|]. rewrite Hv. cbn [mbind option_bind].
    assert (Hm' : ∀ i p, (i, p) ∈ m → is_Some (g_lheap s !! p)) by (intros; apply (Hm i0); by right).
    rewrite Forall_forall in Hk. destruct (N.eqb_spec (lv_label v) label) as [El|El].
    + destruct out as [q0|].
      * destruct (IH (Some q0) Hm') as (r & E & ->). by exists (Some q0).
      * destruct (IH (Some p) Hm') as (r & E & ->). exists (Some p). split; [done|]. exists i, v. split_and!; [by left|done|done|].
        intros j q' v' [[= -> ->]|Hin]%elem_of_cons _ _; [lia|]. apply Hk in Hin. cbn in Hin. lia.
    + destruct (IH out Hm') as (r & E & Hr). exists r. split; [done|]. destruct out; [done|]. destruct r as [q0|].
      * destruct Hr as (i0 & v0 & H1 & H2 & H3 & H4). exists i0, v0. split_and!; [by right|done|done|].
        intros j q' v' [[= -> ->]|Hin]%elem_of_cons Hv' Hl'; [congruence|]. by eapply H4.
      * intros j q' v' [[= -> ->]|Hin]%elem_of_cons Hv'; [congruence|]. by eapply Hr.
Qed.

(** Without conversions of unknown indices the map holds no null pointers. *)
Definition no_conv (o : op T Sh) : bool := match o with ConvI _ => false | _ => true end.
Definition no_null s : Prop := ∀ i p, (i, p) ∈ g_pmap s → is_Some p.
Lemma no_null_step s o s' : no_conv o = true → sm_sorted (g_pmap s) → map_live s → fresh_gen s → step s o = Some s' →
  no_null s → no_null s'.
Proof.
  intros Ho Hs Hl Hf E Hn. destruct o as [u sh|l label u|a label lv tr|l|a|l p|p|fuel| |i|p]; cbn [step] in *.
  - unfold new_unplaced in E. destruct (decide _); [|done]. by injection E as <-.
  - unfold new_logical in E. destruct (g_lheap s !! l); [done|]. destruct (g_uheap s !! u); [|done]. destruct (_ <? _); [|done].
    injection E as <-. unfold register_logical. cbn. destruct (g_closed s); done.
  - unfold new_placed in E. destruct (g_pheap s !! _); [done|]. destruct (g_lheap s !! lv); [|done]. injection E as <-.
    unfold register_placed. cbn. destruct (g_closed s); [done|]. intros j q Hin. cbn in Hin.
    apply sm_insert_in in Hin as [[= -> ->]|Hin]; [by eexists|by eapply Hn].
  - unfold del_logical in E. destruct (g_lheap s !! l); [|done]. cbn in E. injection E as <-. unfold deregister_logical.
    destruct (sm_find _ _); done.
  - unfold del_placed in E. destruct (g_pheap s !! _); [|done]. cbn in E. injection E as <-. unfold deregister_placed.
    destruct (sm_find _ _); [|done]. intros j q Hin. cbn in Hin. apply sm_erase_in in Hin. by eapply Hn.
  - unfold place_daughter in E. destruct (g_lheap s !! l); [|done]. cbn in E. destruct (g_pheap s !! p); [|done]. cbn in E.
    destruct (_ <? _)%Z; [|done]. by injection E as <-.
  - destruct (g_pheap s !! p); [|done]. by injection E as <-.
  - apply close_compacted in E as (conv & [C1 _ _ _ _ _ _ _ _] & _); [|done..]. intros j q Hin. rewrite C1 in Hin.
    apply elem_of_list_In, in_map_iff in Hin as ([k x] & [= <- <-] & _). by eexists.
  - injection E as <-. intros j q Hin. cbn in Hin. set_solver.
  - done.
  - injection E as <-. unfold convert_pointer. destruct (g_v2i s !! p); done.
Qed.
Lemma run_no_null os s : proper os → forallb no_conv os = true → run os = Some s → no_null s.
Proof.
  revert s. induction os as [|o os IH] using rev_ind; intros s Hp Hc E.
  - injection E as <-. intros i p Hin. cbn in Hin. set_solver.
  - rewrite run_snoc in E. destruct (run os) as [s1|] eqn:E1; [|done]. cbn [mbind option_bind] in E.
    rewrite forallb_app in Hc. apply andb_true_iff in Hc as [Hc Ho]. cbn in Ho. rewrite andb_true_r in Ho.
    apply proper_snoc in Hp as [Hp _]. pose proof (run_inv _ _ Hp E1) as [HP _].
    eapply no_null_step; [done| | | |done|by apply IH]; [apply HP|by eapply PI_map_live|apply HP].
Qed.

(** * The hierarchy after compaction *)
Section After.
Context (s s' : gm T Sh) (conv : gmap addr addr) (HC : compacted s s' conv).
Context (Hsort : sm_sorted (g_pmap s)) (Hfresh : fresh_gen s).

Lemma live_not_new p v i : g_pheap s !! p = Some v → p ≠ Slot (g_gen s) i.
Proof using Hfresh. intros Hp ->. assert (g_gen s < g_gen s); [|lia]. apply (Hfresh _ i). by eexists. Qed.
Lemma heap_old p v : g_pheap s !! p = Some v → g_pheap s' !! p = Some v.
Proof using HC Hfresh. intros Hp. rewrite (co_other _ _ _ HC); [done|]. intros i. by eapply live_not_new. Qed.
Lemma heap_new p v : g_pheap s !! p = Some v → g_pheap s' !! old_to_new conv p = Some v.
Proof using HC Hfresh Hsort.
  intros Hp. unfold old_to_new. destruct (conv !! p) as [r|] eqn:E; cbn; [|by apply heap_old].
  apply (co_conv _ _ _ HC) in E as (i & Hin & ->). apply (co_slot _ _ _ HC) in Hin as (_ & q & v' & [= <-] & Hv & Hv' & _).
  by rewrite Hv', <-Hv.
Qed.
Definition moved (p p' : addr) : Prop := p' = p ∨ p' = old_to_new conv p.
Lemma heap_moved p p' v : moved p p' → g_pheap s !! p = Some v → g_pheap s' !! p' = Some v.
Proof using HC Hfresh Hsort. intros [-> | ->]; [apply heap_old|apply heap_new]. Qed.
Lemma dau_moved p p' ds : moved p p' → daughters s p = Some ds →
  ∃ ds', daughters s' p' = Some ds' ∧ Forall2 moved ds ds'.
Proof using HC Hfresh Hsort.
  intros Hm E. unfold daughters in *. destruct (g_pheap s !! p) as [v|] eqn:Ev; [|done]. cbn [mbind option_bind] in E.
  destruct (g_lheap s !! pv_lv v) as [l|] eqn:El; [|done]. injection E as <-.
  rewrite (heap_moved p p' v Hm Ev). cbn [mbind option_bind]. pose proof (co_lheap _ _ _ HC (pv_lv v)) as Hl. rewrite El in Hl.
  rewrite Hl. eexists. split; [done|]. cbn. destruct (decide _).
  - apply Forall2_fmap_r. apply Forall2_impl with (=); [|by intros x ? <-; right]. by apply Forall_Forall2_diag, Forall_true.
  - apply Forall2_impl with (=); [|by intros x ? <-; left]. by apply Forall_Forall2_diag, Forall_true.
Qed.
Lemma walk_moved p p' ks : moved p p' → (∀ ks q, walk (daughters s) p ks = Some q → is_Some (daughters s q)) →
  match walk (daughters s) p ks with
  | Some q => ∃ q', walk (daughters s') p' ks = Some q' ∧ moved q q'
  | None => walk (daughters s') p' ks = None
  end.
Proof using HC Hfresh Hsort.
  revert p p'. induction ks as [|k ks IH]; intros p p' Hm Ht; cbn [walk].
  - by exists p'.
  - destruct (Ht [] p eq_refl) as [ds Eds]. destruct (dau_moved p p' ds Hm Eds) as (ds' & Eds' & HF).
    rewrite Eds, Eds'. cbn [mbind option_bind]. destruct (ds !! k) as [d|] eqn:Ek.
    + destruct (Forall2_lookup_l _ _ _ _ _ HF Ek) as (d' & Ek' & Hd). rewrite Ek'. cbn [mbind option_bind].
      apply IH; [done|]. intros ks' q Hw. apply (Ht (k :: ks')). cbn. rewrite Eds. cbn. by rewrite Ek.
    + rewrite (proj2 (lookup_ge_None ds' k)); [done|]. apply lookup_ge_None in Ek.
      apply Forall2_length in HF. lia.
Qed.
Lemma parts_moved u l : parts s u = Some l → Forall is_Some l → parts s' u = Some l ∧
  kind_of <$> (g_uheap s' !! u) = kind_of <$> (g_uheap s !! u).
Proof using HC Hfresh Hsort.
  intros E Hl. unfold parts in *. pose proof (co_uheap _ _ _ HC u) as Hu. destruct (g_uheap s !! u) as [sh|]; [|done].
  destruct Hu as (sh' & Hu & Hk & Hsh). rewrite Hu. cbn [mbind option_bind fmap option_fmap option_map] in *. split; [|by rewrite Hk].
  injection E as <-. f_equal. destruct Hsh as [-> | ->].
  - rewrite Forall_fmap in Hl. apply list_fmap_ext. intros i p Hp. apply (elem_of_list_lookup_2 _ i) in Hp.
    rewrite Forall_forall in Hl. destruct (Hl _ Hp) as [v Hv]. cbn in Hv. rewrite Hv. by apply heap_old.
  - destruct sh as [x|op p q|p]; cbn in *; [done| |].
    + apply Forall_cons in Hl as [[v Hv] [[w Hw] _]%Forall_cons]. by rewrite Hv, Hw, (heap_new p v), (heap_new q w).
    + apply Forall_cons in Hl as [[v Hv] _]. by rewrite Hv, (heap_new p v).
Qed.
(** In a wholly registered hierarchy the new pointers are slots of the buffer. *)
Lemma conv_registered i p v : sm_find i (g_pmap s) = Some (Some p) → g_pheap s !! p = Some v →
  (∀ j, sm_find j (g_pmap s) = Some (Some p) → j = pv_id v) → old_to_new conv p = Slot (g_gen s) (pv_id v).
Proof using HC Hsort.
  intros Hf Hv Hid. apply sm_find_in in Hf; [|done]. apply (co_slot _ _ _ HC) in Hf as (_ & q & v' & [= <-] & _ & _ & [r Hr]).
  unfold old_to_new. rewrite Hr. cbn. apply (co_conv _ _ _ HC) in Hr as (j & Hj & ->). apply sm_find_in in Hj; [|done].
  by rewrite (Hid _ Hj).
Qed.
End After.

(** * Histories that only build *)
Record built s : Prop := {
  bu_open : g_closed s = false;
  bu_sorted : sm_sorted (g_pmap s);
  bu_count : placed_count s = g_pcount s;
  bu_lt : ∀ i p, (i, p) ∈ g_pmap s → i < g_pcount s ∧ is_Some p;
  bu_live : ∀ i p, sm_find i (g_pmap s) = Some (Some p) → is_Some (g_pheap s !! p);
  bu_reg : ∀ p v, g_pheap s !! p = Some v → find_placed s (pv_id v) = Some p ∧ is_Some (g_lheap s !! pv_lv v);
  bu_lsorted : sm_sorted (g_lmap s);
  bu_llt : ∀ i l, (i, l) ∈ g_lmap s → i < g_lcount s ∧ is_Some (g_lheap s !! l);
  bu_lreg : ∀ l v, g_lheap s !! l = Some v → find_logical s (lv_id v) = Some l ∧ is_Some (g_uheap s !! lv_shape v) ∧
    Forall (λ p, is_Some (g_pheap s !! p)) (lv_dau v);
  bu_world : ∀ w, g_world s = Some w → is_Some (g_pheap s !! w) }.

Lemma built_step s o s' : built s → builds o = true → g_pcount s + 1 < 4294967296 → step s o = Some s' →
  built s' ∧ g_pcount s' ≤ g_pcount s + 1.
Proof.
  intros [H1 H2 H3 H4 H5 H6 H7 H8 H9 H10] Ho Hc E. destruct o as [u sh|l label u|a label lv tr|l|a|l p|p|fuel| |i|p]; try done; cbn [step] in *.
  - unfold new_unplaced in E. destruct (decide _) as [[Hu _]|]; [|done]. injection E as <-. cbn. split; [|lia].
    split; try done. intros l v Hv. cbn in *. apply H9 in Hv as (? & [x Hx] & ?). split_and!; [done| |done].
    destruct (decide (lv_shape v = u)) as [->|]; [rewrite lookup_insert; by eexists|]. rewrite lookup_insert_ne by done. by eexists.
  - unfold new_logical in E. destruct (g_lheap s !! l) eqn:El; [done|]. destruct (g_uheap s !! u) as [sh|] eqn:Eu; [|done].
    destruct (N.ltb_spec (g_lcount s) int_max); [|done]. injection E as <-. unfold register_logical. cbn. rewrite H1. cbn. split; [|lia].
    assert (Hnf : sm_find (g_lcount s) (g_lmap s) = None).
    { destruct (sm_find (g_lcount s) (g_lmap s)) eqn:E; [|done]. apply sm_find_in in E; [|done]. apply H8 in E as [? _]. lia. }
    split; cbn; try done.
    + intros p v Hv. apply H6 in Hv as [? [x Hx]]. split; [done|]. destruct (decide (pv_lv v = l)) as [E|]; [rewrite E in Hx; congruence|].
      rewrite lookup_insert_ne by done. by eexists.
    + by apply sm_insert_sorted.
    + intros i l' [[= -> ->]|Hin]%sm_insert_in.
      * split; [lia|]. rewrite lookup_insert. by eexists.
      * apply H8 in Hin as [? [x Hx]]. split; [lia|]. destruct (decide (l' = l)) as [->|]; [rewrite lookup_insert; by eexists|].
        rewrite lookup_insert_ne by done. by eexists.
    + intros l' v Hv. unfold find_logical. cbn. rewrite sm_find_insert by done. destruct (decide (l' = l)) as [->|].
      * rewrite lookup_insert in Hv. injection Hv as <-. cbn. rewrite N.eqb_refl. split_and!; [done|rewrite Eu; by eexists|done].
      * rewrite lookup_insert_ne in Hv by done. apply H9 in Hv as (Hf & ? & ?). split_and!; [|done|done].
        destruct (N.eqb_spec (lv_id v) (g_lcount s)) as [E|]; [|done]. unfold find_logical in Hf. rewrite E in Hf. congruence.
  - unfold new_placed in E. destruct (g_pheap s !! _) eqn:Ea; [done|]. destruct (g_lheap s !! lv) as [lx|] eqn:El; [|done].
    injection E as <-. unfold register_placed. cbn. rewrite H1. cbn. rewrite N.mod_small by done. split; [|lia].
    assert (Hnf : sm_find (g_pcount s) (g_pmap s) = None).
    { destruct (sm_find (g_pcount s) (g_pmap s)) eqn:E; [|done]. apply sm_find_in in E; [|done]. apply H4 in E as [? _]. lia. }
    assert (Hlive : ∀ p, is_Some (g_pheap s !! p) →
      is_Some (<[inl a := PV (g_pcount s) label lv tr (-1)]> (g_pheap s) !! (p : addr))).
    { intros p [x Hx]. destruct (decide (p = inl a)) as [->|]; [congruence|]. rewrite lookup_insert_ne by done. by eexists. }
    split; cbn; try done.
    + by apply sm_insert_sorted.
    + unfold placed_count in *. cbn. rewrite sm_insert_fresh_length by done. lia.
    + intros i p [[= -> ->]|Hin]%sm_insert_in; [split; [lia|by eexists]|]. apply H4 in Hin as [? ?]. split; [lia|done].
    + intros i p. rewrite sm_find_insert by done. destruct (i =? g_pcount s); [|intros ?%H5; by apply Hlive].
      intros [= <-]. rewrite lookup_insert. by eexists.
    + intros p v Hv. unfold find_placed. cbn. rewrite sm_find_insert by done. destruct (decide (p = inl a)) as [->|].
      * rewrite lookup_insert in Hv. injection Hv as <-. cbn. rewrite N.eqb_refl. split; [done|]. rewrite El. by eexists.
      * rewrite lookup_insert_ne in Hv by done. apply H6 in Hv as [Hf ?]. split; [|done].
        destruct (N.eqb_spec (pv_id v) (g_pcount s)) as [E|]; [|done]. unfold find_placed in Hf. rewrite E, Hnf in Hf. done.
    + intros l v Hv. apply H9 in Hv as (? & ? & Hd). split_and!; [done|done|]. eapply Forall_impl; [done|]. apply Hlive.
    + intros w Hw. apply Hlive, H10, Hw.
  - unfold place_daughter in E. destruct (g_lheap s !! l) as [lv|] eqn:El; [|done]. cbn in E.
    destruct (g_pheap s !! p) as [pv|] eqn:Ep; [|done]. cbn in E. destruct (_ <? _)%Z; [|done]. injection E as <-. cbn. split; [|lia].
    set (pv' := PV _ _ _ _ _).
    assert (Hlive : ∀ q, is_Some (g_pheap s !! q) → is_Some (<[p := pv']> (g_pheap s) !! q)).
    { intros q [x Hx]. destruct (decide (q = p)) as [->|]; [rewrite lookup_insert; by eexists|]. rewrite lookup_insert_ne by done. by eexists. }
    assert (Hll : ∀ q, is_Some (g_lheap s !! q) → is_Some (<[l := LV (lv_id lv) (lv_label lv) (lv_shape lv) (lv_dau lv ++ [p])]> (g_lheap s) !! q)).
    { intros q [x Hx]. destruct (decide (q = l)) as [->|]; [rewrite lookup_insert; by eexists|]. rewrite lookup_insert_ne by done. by eexists. }
    split; cbn; try done.
    + intros i q Hq. apply Hlive. by eapply H5.
    + intros q v Hv. destruct (decide (q = p)) as [->|].
      * rewrite lookup_insert in Hv. injection Hv as <-. cbn. apply H6 in Ep as [? ?]. split; [done|by apply Hll].
      * rewrite lookup_insert_ne in Hv by done. apply H6 in Hv as [? ?]. split; [done|by apply Hll].
    + intros i l' Hin. apply H8 in Hin as [? ?]. split; [done|by apply Hll].
    + intros l' v Hv. destruct (decide (l' = l)) as [->|].
      * rewrite lookup_insert in Hv. injection Hv as <-. cbn. apply H9 in El as (? & ? & Hd). split_and!; [done|done|].
        apply Forall_app. split; [eapply Forall_impl; [done|apply Hlive]|]. constructor; [|done]. rewrite lookup_insert. by eexists.
      * rewrite lookup_insert_ne in Hv by done. apply H9 in Hv as (? & ? & Hd). split_and!; [done|done|].
        eapply Forall_impl; [done|apply Hlive].
    + intros w Hw. apply Hlive, H10, Hw.
  - destruct (g_pheap s !! p) as [v|] eqn:Ep; [|done]. injection E as <-. cbn. split; [|lia]. split; try done. cbn.
    intros w [= <-]. rewrite Ep. by eexists.
Qed.
Lemma built_new : built gm_new.
Proof.
  split; cbn; try done; try constructor; try set_solver.
Qed.
Lemma run_built os s : forallb builds os = true → N.of_nat (length os) < 4294967296 → run os = Some s →
  built s ∧ g_pcount s ≤ N.of_nat (length os).
Proof.
  revert s. induction os as [|o os IH] using rev_ind; intros s Hb Hn E.
  - injection E as <-. split; [apply built_new|done].
  - rewrite run_snoc in E. destruct (run os) as [s1|] eqn:E1; [|done]. cbn [mbind option_bind] in E.
    rewrite forallb_app in Hb. apply andb_true_iff in Hb as [Hb Ho]. cbn in Ho. rewrite andb_true_r in Ho.
    rewrite app_length in *. cbn in Hn |- *. destruct (IH s1 Hb) as [HB Hc]; [lia|done|].
    apply built_step with (o:=o) (s':=s) in HB as [HB Hc']; [|done|lia|done]. split; [done|lia].
Qed.
Lemma built_whole s : built s → whole s.
Proof.
  intros [H1 H2 H3 H4 H5 H6 H7 H8 H9 H10] w ks p Hw Hk.
  assert (Hl : is_Some (g_pheap s !! p)).
  { assert (Hwl : is_Some (g_pheap s !! w)) by (by apply H10). clear Hw. revert w Hwl Hk. induction ks as [|k ks IH]; intros w Hwl Hk.
    - cbn in Hk. by injection Hk as ->.
    - cbn [walk] in Hk. destruct Hwl as [v Hv]. destruct (daughters s w) as [ds|] eqn:Eds; [|done]. cbn [mbind option_bind] in Hk.
      unfold daughters in Eds. rewrite Hv in Eds. cbn [mbind option_bind] in Eds.
      destruct (g_lheap s !! pv_lv v) as [lv|] eqn:El; [|done]. injection Eds as <-. destruct (lv_dau lv !! k) as [d|] eqn:Ed; [|done].
      cbn [mbind option_bind] in Hk. apply (IH d); [|done]. apply H9 in El as (_ & _ & Hd). by eapply Forall_lookup_1 in Hd. }
  destruct Hl as [v Hv]. destruct (H6 _ _ Hv) as [Hf [l Hl]]. exists v, l. split_and!; [done|done|done|].
  by apply H9 in Hl as (? & _).
Qed.
Lemma compactify_some s : (∀ i p, (i, p) ∈ g_pmap s → i < placed_count s ∧ ∃ q, p = Some q ∧ is_Some (g_pheap s !! q)) →
  (∀ i l, (i, l) ∈ g_lmap s → ∃ v, g_lheap s !! l = Some v ∧ is_Some (g_uheap s !! lv_shape v)) → is_Some (compactify s).
Proof.
  intros H1 H2. unfold compactify. destruct (copy_loop_some (g_gen s) (placed_count s) (g_pmap s) (g_pheap s) ∅ H1) as [[[h pm] conv] ->].
  cbn [mbind option_bind]. destruct (daughters_loop_some conv (g_lmap s) (g_lheap s)) as [lh Elh].
  { intros i l Hin. apply H2 in Hin as (v & Hv & _). by eexists. }
  rewrite Elh. cbn [mbind option_bind].
  destruct (shapes_loop_some conv lh (g_lmap s) (g_uheap s)) as [uh ->]; [|by eexists].
  intros i l Hin. apply H2 in Hin as (v & Hv & Hs).
  assert (Hx : ∀ m (h h' : gmap N lvol), daughters_loop conv m h = Some h' → ∀ l, match h !! l with None => True | Some v =>
    ∃ v', h' !! l = Some v' ∧ lv_shape v' = lv_shape v end).
  { clear. induction m as [|[i l] m IH]; intros h h' E l'; cbn in E.
    - injection E as <-. destruct (h !! l') as [v|]; [by exists v|done].
    - destruct (h !! l) as [v|] eqn:Ev; [|done]. cbn in E. specialize (IH _ _ E l'). destruct (decide (l' = l)) as [->|].
      + rewrite lookup_insert in IH. rewrite Ev. done.
      + by rewrite lookup_insert_ne in IH by done. }
  specialize (Hx _ _ _ Elh l). rewrite Hv in Hx. destruct Hx as (v' & Hv' & Es). exists v'. by rewrite Es.
Qed.
End Hier.
