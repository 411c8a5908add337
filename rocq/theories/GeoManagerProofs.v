From stdpp Require Import list option gmap fin_maps sorting.
From Coq Require Import NArith ZArith Lia ZifyN ZifyBool ZifyNat.
From Verif Require Import NavTableModel NavPathModel GeoManagerModel GeoManagerSpec.
Local Open Scope N_scope.

Local Arguments N.add : simpl never.
Local Arguments N.modulo : simpl never.
Local Arguments N.of_nat : simpl never.
Local Arguments N.ltb : simpl never.
Local Arguments N.eqb : simpl never.

(** * Maps *)
Section Smap.
Context {V : Type}.
Implicit Types m : smap V.
Definition sm_sorted m : Prop := StronglySorted (λ a b, a.1 < b.1) m.
Lemma sm_find_lt m k : Forall (λ b, k < b.1) m → sm_find k m = None.
Proof.
  induction 1 as [|[k' v'] m Hk _ IH]; cbn in *; [done|]. destruct (N.eqb_spec k k'); [lia|done].
Qed.
Lemma sm_find_in m k v : sm_sorted m → sm_find k m = Some v ↔ (k, v) ∈ m.
Proof.
  intros Hs. induction Hs as [|[k' v'] m Hs IH Hk]; cbn; [set_solver|].
  rewrite elem_of_cons. destruct (N.eqb_spec k k') as [->|].
  - split; [intros [= ->]; by left|]. intros [[= ->]|Hin]; [done|].
    rewrite Forall_forall in Hk. specialize (Hk _ Hin). cbn in Hk. lia.
  - rewrite IH. split; [by right|]. intros [[= ? ?]|]; [done|done].
Qed.
Lemma sm_find_insert k v m k' : sm_sorted m → sm_find k' (sm_insert k v m) = if k' =? k then Some v else sm_find k' m.
Proof.
  intros Hs. induction Hs as [|[k1 v1] m Hs IH Hk]; cbn; [done|].
  destruct (N.eqb_spec k k1) as [->|]; cbn; [by destruct (N.eqb_spec k' k1)|].
  destruct (N.ltb_spec k k1); cbn.
  - by destruct (N.eqb_spec k' k).
  - destruct (N.eqb_spec k' k1) as [->|]; [by destruct (N.eqb_spec k1 k); [lia|]|done].
Qed.
Lemma sm_insert_in k v m x : x ∈ sm_insert k v m → x = (k, v) ∨ x ∈ m.
Proof.
  induction m as [|[k1 v1] m IH]; cbn; [set_solver|].
  destruct (k =? k1); [set_solver|]. destruct (k <? k1); set_solver.
Qed.
Lemma sm_insert_sorted k v m : sm_sorted m → sm_sorted (sm_insert k v m).
Proof.
  intros Hs. induction Hs as [|[k1 v1] m Hs IH Hk]; cbn; [by repeat constructor|].
  destruct (N.eqb_spec k k1) as [->|]; [by constructor|].
  destruct (N.ltb_spec k k1).
  - constructor; [by constructor|]. constructor; [done|]. eapply Forall_impl; [done|]. intros x Hx. cbn in *. lia.
  - constructor; [done|]. apply Forall_forall. intros x [-> | Hx]%sm_insert_in; cbn; [lia|].
    rewrite Forall_forall in Hk. by apply Hk.
Qed.
Lemma sm_erase_in k m x : x ∈ sm_erase k m → x ∈ m.
Proof. induction m as [|[k1 v1] m IH]; cbn; [done|]. destruct (k =? k1); set_solver. Qed.
Lemma sm_erase_sorted k m : sm_sorted m → sm_sorted (sm_erase k m).
Proof.
  intros Hs. induction Hs as [|[k1 v1] m Hs IH Hk]; cbn; [constructor|].
  destruct (k =? k1); [done|]. constructor; [done|]. rewrite Forall_forall in Hk |- *.
  intros x Hx%sm_erase_in. by apply Hk.
Qed.
Lemma sm_find_erase k m k' : sm_sorted m → sm_find k' (sm_erase k m) = if k' =? k then None else sm_find k' m.
Proof.
  intros Hs. induction Hs as [|[k1 v1] m Hs IH Hk]; cbn; [by destruct (k' =? k)|].
  destruct (N.eqb_spec k k1) as [->|].
  - destruct (N.eqb_spec k' k1) as [->|]; [by apply sm_find_lt|done].
  - cbn. destruct (N.eqb_spec k' k1) as [->|]; [by destruct (N.eqb_spec k1 k)|done].
Qed.
Lemma sm_insert_fresh_length k v m : sm_sorted m → sm_find k m = None → length (sm_insert k v m) = S (length m).
Proof.
  intros Hs. induction Hs as [|[k1 v1] m Hs IH Hk]; cbn; [done|].
  destruct (N.eqb_spec k k1); [done|]. intros Hf. destruct (k <? k1); [done|]. cbn. by rewrite IH.
Qed.
End Smap.

(** * Histories *)
Section Events.
Context {D : Type}.
Implicit Types (es : list (ev D)) (e : ev D).
Lemma since_clear_snoc es e :
  since_clear (es ++ [e]) = match e with EClear => [] | _ => since_clear es ++ [e] end.
Proof. unfold since_clear. rewrite foldl_app. by destruct e. Qed.
Lemma nnew_snoc es e :
  nnew (es ++ [e]) = match e with EClear => 0 | ENew _ _ => nnew es + 1 | _ => nnew es end.
Proof.
  unfold nnew. rewrite since_clear_snoc.
  destruct e; rewrite ?List.filter_app; cbn; rewrite ?app_length, ?app_nil_r; cbn; lia.
Qed.
Lemma closed_snoc es e :
  closed (es ++ [e]) = match e with EClear => false | EClose => true | _ => closed es end.
Proof.
  unfold closed. rewrite since_clear_snoc.
  destruct e; rewrite ?existsb_app; cbn; rewrite ?orb_false_r, ?orb_true_r; done.
Qed.
Lemma split_snoc es e es1 x es2 :
  es ++ [e] = es1 ++ x :: es2 ↔ (es2 = [] ∧ es = es1 ∧ e = x) ∨ (∃ es2', es2 = es2' ++ [e] ∧ es = es1 ++ x :: es2').
Proof.
  split.
  - destruct es2 as [|y es2 _] using rev_ind; intros E.
    + left. apply app_inj_tail in E as [-> ->]. done.
    + right. rewrite app_comm_cons, app_assoc in E. apply app_inj_tail in E as [-> ->]. by exists es2.
  - intros [(-> & -> & ->)|(es2' & -> & ->)]; [done|]. by rewrite app_comm_cons, app_assoc.
Qed.
Lemma born_snoc es e a d i :
  born (es ++ [e]) a d i ↔ (e = ENew a d ∧ i = nnew es) ∨ (born es a d i ∧ e ≠ EDel a ∧ e ≠ EClear).
Proof.
  unfold born. split.
  - intros (es1 & es2 & E & -> & H1 & H2). apply split_snoc in E as [(-> & -> & ->)|(es2' & -> & ->)]; [by left|].
    right. split; [|set_solver]. exists es1, es2'. set_solver.
  - intros [[-> ->]|[(es1 & es2 & -> & -> & H1 & H2) [H3 H4]]].
    + exists es, []. set_solver.
    + exists es1, (es2 ++ [e]). split; [by rewrite app_comm_cons, app_assoc|]. set_solver.
Qed.
Lemma registered_snoc es e a d i :
  registered (es ++ [e]) a d i ↔
  (e = ENew a d ∧ i = nnew es ∧ closed es = false) ∨ (registered es a d i ∧ e ≠ EDel a ∧ e ≠ EClear).
Proof.
  unfold registered. split.
  - intros (es1 & es2 & E & -> & H1 & H2 & H0). apply split_snoc in E as [(-> & -> & ->)|(es2' & -> & ->)]; [by left|].
    right. split; [|set_solver]. exists es1, es2'. set_solver.
  - intros [(-> & -> & ?)|[(es1 & es2 & -> & -> & H1 & H2 & H0) [H3 H4]]].
    + exists es, []. set_solver.
    + exists es1, (es2 ++ [e]). split; [by rewrite app_comm_cons, app_assoc|]. set_solver.
Qed.
Lemma registered_born es a d i : registered es a d i → born es a d i.
Proof. intros (es1 & es2 & ? & ? & ? & ? & ?). by exists es1, es2. Qed.
Lemma born_nil a d i : ¬ born (D:=D) [] a d i.
Proof. intros (es1 & es2 & E & _). by destruct es1. Qed.
Lemma born_lt es a d i : born es a d i → i < nnew es.
Proof.
  revert a d i. induction es as [|e es IH] using rev_ind; intros a d i; [by intros ?%born_nil|].
  rewrite born_snoc, nnew_snoc. intros [[-> ->]|(H & H1 & H2)]; [lia|]. apply IH in H. destruct e; try lia. done.
Qed.
Lemma born_inj es a d b d' i : born es a d i → born es b d' i → a = b ∧ d = d'.
Proof.
  revert a d b d' i. induction es as [|e es IH] using rev_ind; intros a d b d' i; [by intros ?%born_nil|].
  rewrite !born_snoc. intros [[-> ->]|(H & H1 & H2)] [[E E']|(H' & H1' & H2')].
  - by injection E as -> ->.
  - apply born_lt in H'. lia.
  - apply born_lt in H. lia.
  - by eapply IH.
Qed.
Lemma no_stale_snoc es e :
  no_stale (es ++ [e]) ↔ no_stale es ∧ match e with EDel a => ∃ d, ENew a d ∈ since_clear es | _ => True end.
Proof.
  unfold no_stale. split.
  - intros H. split.
    + intros es1 a es2 ->. apply (H es1 a (es2 ++ [e])). by rewrite app_comm_cons, app_assoc.
    + destruct e; try done. by apply (H es a []).
  - intros [H1 H2] es1 a es2 E. apply split_snoc in E as [(-> & -> & ->)|(es2' & -> & ->)]; [done|]. by eapply H1.
Qed.
Lemma nnew_le es : nnew es ≤ N.of_nat (length es).
Proof.
  induction es as [|e es IH] using rev_ind; [done|]. rewrite nnew_snoc, app_length. cbn. destruct e; lia.
Qed.
End Events.

(** * Compaction *)
Section Compact.
Context {T Sh : Type}.
Implicit Types (s : gm T Sh) (h : gmap addr (pvol T)).

Lemma copy_loop_spec g n m h conv h' m' conv' :
  sm_sorted m → copy_loop g n m h conv = Some (h', m', conv') →
  (∀ i q, (i, Some q) ∈ m → ∀ j, q ≠ Slot g j) →
  m' = map (λ ip, (ip.1, Some (Slot g ip.1))) m ∧
  (∀ i p, (i, p) ∈ m → i < n ∧ ∃ q v, p = Some q ∧ h !! q = Some v ∧ h' !! Slot g i = Some v ∧ is_Some (conv' !! q)) ∧
  (∀ p, (∀ i x, p = Slot g i → (i, x) ∉ m) → h' !! p = h !! p) ∧
  (∀ q r, conv' !! q = Some r → conv !! q = Some r ∨ ∃ i, (i, Some q) ∈ m ∧ r = Slot g i) ∧
  (∀ q, is_Some (conv !! q) → is_Some (conv' !! q)).
Proof.
  intros Hs. revert h conv h' m' conv'. induction Hs as [|[i p] m Hs IH Hk]; intros h conv h' m' conv' E Hq; cbn in E.
  - injection E as <- <- <-. split_and!; [done|set_solver|done|by left|done].
  - destruct p as [q|]; [|done]. cbn in E. destruct (h !! q) as [v|] eqn:Ev; [|done]. cbn in E.
    destruct (N.ltb_spec i n); [|done].
    destruct (copy_loop g n m _ _) as [[[h1 m1] c1]|] eqn:E1; [|done]. cbn in E. injection E as <- <- <-.
    assert (Hkey : ∀ x, (i, x) ∉ m).
    { intros x Hx. rewrite Forall_forall in Hk. specialize (Hk _ Hx). cbn in Hk. lia. }
    apply IH in E1 as (-> & H2 & H3 & H4 & H5); [|intros i0 q0 Hin; apply (Hq i0); by right].
    assert (Hi : h1 !! Slot g i = Some v).
    { rewrite H3; [apply lookup_insert|]. intros j x [= <-]. apply Hkey. }
    split_and!; [done| | | |].
    + intros j r [[= -> ->] | Hin]%elem_of_cons.
      * split; [done|]. exists q, v. split_and!; [done|done|done|]. apply H5. rewrite lookup_insert. by eexists.
      * destruct (H2 _ _ Hin) as [? (q1 & v1 & -> & Hh & Hh' & Hc)]. split; [done|]. exists q1, v1. split_and!; [done| |done|done].
        rewrite lookup_insert_ne in Hh; [done|]. intros E. symmetry in E. revert E. apply (Hq j). by right.
    + intros r Hr. rewrite H3; [apply lookup_insert_ne|].
      * intros E. by apply (Hr i (Some q)); [|left].
      * intros j x -> Hin. apply (Hr j x); [done|by right].
    + intros r r' Hr. apply H4 in Hr as [Hr|(j & Hj & ->)].
      * destruct (decide (r = q)) as [->|]; [|rewrite lookup_insert_ne in Hr by done; by left].
        rewrite lookup_insert in Hr. injection Hr as <-. right. exists i. split; [by left|done].
      * right. exists j. split; [by right|done].
    + intros r Hr. apply H5. destruct (decide (r = q)) as [->|]; [rewrite lookup_insert; by eexists|by rewrite lookup_insert_ne].
Qed.
Lemma copy_loop_some g n m h conv :
  (∀ i p, (i, p) ∈ m → i < n ∧ ∃ q, p = Some q ∧ is_Some (h !! q)) → is_Some (copy_loop g n m h conv).
Proof.
  revert h conv. induction m as [|[i p] m IH]; intros h conv H; cbn; [by eexists|].
  destruct (H i p) as [Hi (q & -> & [v Hv])]; [by left|]. cbn. rewrite Hv. cbn.
  destruct (N.ltb_spec i n); [|lia].
  destruct (IH (<[Slot g i:=v]> h) (<[q:=Slot g i]> conv)) as [[[h1 m1] c1] ->]; [|by eexists].
  intros j r Hin. destruct (H j r) as [Hj (q' & -> & Hq')]; [by right|]. split; [done|]. exists q'. split; [done|].
  destruct (decide (q' = Slot g i)) as [->|]; [rewrite lookup_insert; by eexists|by rewrite lookup_insert_ne].
Qed.

Lemma daughters_loop_spec conv (m : smap N) (h h' : gmap N lvol) :
  (∀ q r, conv !! q = Some r → conv !! r = None) →
  daughters_loop conv m h = Some h' →
  ∀ l, match h !! l with
       | None => h' !! l = None
       | Some v => h' !! l = Some (LV (lv_id v) (lv_label v) (lv_shape v)
                    (if decide (l ∈ m.*2) then map (old_to_new conv) (lv_dau v) else lv_dau v))
       end.
Proof.
  intros Hc. assert (Hid : ∀ p, old_to_new conv (old_to_new conv p) = old_to_new conv p).
  { intros p. unfold old_to_new. destruct (conv !! p) as [r|] eqn:E; cbn; [by rewrite (Hc _ _ E)|by rewrite E]. }
  revert h. induction m as [|[i l] m IH]; intros h E l'; cbn in E.
  - injection E as <-. destruct (h !! l') as [[]|]; [|done]. cbn. done.
  - destruct (h !! l) as [v|] eqn:Ev; [|done]. cbn in E. specialize (IH _ E l'). cbn [fmap list_fmap].
    destruct (decide (l' = l)) as [->|Hne].
    + rewrite lookup_insert in IH. cbn in IH. rewrite IH, Ev.
      destruct (decide (l ∈ (i, l).2 :: m.*2)) as [_|Hn]; [|exfalso; apply Hn; left].
      destruct (decide (l ∈ m.*2)); [|done]. rewrite map_map. do 2 f_equal. apply map_ext. apply Hid.
    + rewrite lookup_insert_ne in IH by done. destruct (h !! l') as [v'|]; [|done]. rewrite IH. do 2 f_equal.
      destruct (decide (l' ∈ m.*2)), (decide (l' ∈ (i, l).2 :: m.*2)); try done; cbn in *; set_solver.
Qed.
Lemma daughters_loop_some conv (m : smap N) (h : gmap N lvol) :
  (∀ i l, (i, l) ∈ m → is_Some (h !! l)) → is_Some (daughters_loop conv m h).
Proof.
  revert h. induction m as [|[i l] m IH]; intros h H; cbn; [by eexists|].
  destruct (H i l) as [v ->]; [by left|]. cbn. apply IH. intros j l' Hin.
  destruct (decide (l' = l)) as [->|]; [rewrite lookup_insert; by eexists|]. rewrite lookup_insert_ne by done. apply (H j). by right.
Qed.
Lemma shapes_loop_spec conv lh (m : smap N) (h h' : gmap N (shape Sh)) :
  shapes_loop conv lh m h = Some h' →
  ∀ u, match h !! u with
       | None => h' !! u = None
       | Some sh => ∃ sh', h' !! u = Some sh' ∧ kind_of sh' = kind_of sh ∧
           (sh' = sh ∨ sh' = convert_shape conv sh ∨ ∃ k, sh' = Nat.iter k (convert_shape conv) sh)
       end.
Proof.
  revert h. induction m as [|[i l] m IH]; intros h E u; cbn in E.
  - injection E as <-. destruct (h !! u) as [sh|]; [|done]. exists sh. split_and!; [done|done|by left].
  - destruct (lh !! l) as [v|]; [|done]. cbn in E. destruct (h !! lv_shape v) as [sh|] eqn:Es; [|done]. cbn in E.
    specialize (IH _ E u). destruct (decide (u = lv_shape v)) as [->|].
    + rewrite lookup_insert in IH. rewrite Es. destruct IH as (sh' & H1 & H2 & H3). exists sh'. split; [done|].
      split; [rewrite H2; by destruct sh|]. right. right.
      destruct H3 as [->|[->|[k ->]]]; [by exists 1%nat|by exists 2%nat|].
      exists (S k). by rewrite Nat.iter_succ_r.
    + by rewrite lookup_insert_ne in IH by done.
Qed.
Lemma shapes_loop_some conv lh (m : smap N) (h : gmap N (shape Sh)) :
  (∀ i l, (i, l) ∈ m → ∃ v, lh !! l = Some v ∧ is_Some (h !! lv_shape v)) → is_Some (shapes_loop conv lh m h).
Proof.
  revert h. induction m as [|[i l] m IH]; intros h H; cbn; [by eexists|].
  destruct (H i l) as (v & -> & [sh Hsh]); [by left|]. cbn. rewrite Hsh. cbn. apply IH. intros j l' Hin.
  destruct (H j l') as (v' & Hv' & Hs'); [by right|]. exists v'. split; [done|].
  destruct (decide (lv_shape v' = lv_shape v)) as [->|]; [rewrite lookup_insert; by eexists|]. by rewrite lookup_insert_ne.
Qed.
Lemma convert_shape_iter conv k (sh : shape Sh) : (∀ q r, conv !! q = Some r → conv !! r = None) →
  Nat.iter k (convert_shape conv) sh = sh ∨ Nat.iter k (convert_shape conv) sh = convert_shape conv sh.
Proof.
  intros Hc. assert (Hid : ∀ p, old_to_new conv (old_to_new conv p) = old_to_new conv p).
  { intros p. unfold old_to_new. destruct (conv !! p) as [r|] eqn:E; cbn; [by rewrite (Hc _ _ E)|by rewrite E]. }
  induction k as [|k [IH|IH]]; rewrite ?Nat.iter_succ; [by left|right; by rewrite IH|right]. rewrite IH.
  destruct sh; cbn; rewrite ?Hid; done.
Qed.

Definition fresh_gen s : Prop := ∀ g i, is_Some (g_pheap s !! Slot g i) → g < g_gen s.
Definition map_live s : Prop := ∀ i q, sm_find i (g_pmap s) = Some (Some q) → is_Some (g_pheap s !! q).

(** What a successful compaction does. *)
Record compacted s s' (conv : gmap addr addr) : Prop := Compacted {
  co_pmap : g_pmap s' = map (λ ip, (ip.1, Some (Slot (g_gen s) ip.1))) (g_pmap s);
  co_slot : ∀ i p, (i, p) ∈ g_pmap s → i < placed_count s ∧
    ∃ q v, p = Some q ∧ g_pheap s !! q = Some v ∧ g_pheap s' !! Slot (g_gen s) i = Some v ∧ is_Some (conv !! q);
  co_other : ∀ p, (∀ i, p ≠ Slot (g_gen s) i) → g_pheap s' !! p = g_pheap s !! p;
  co_new : ∀ g i, is_Some (g_pheap s' !! Slot g i) → g < g_gen s' ;
  co_conv : ∀ q r, conv !! q = Some r → ∃ i, (i, Some q) ∈ g_pmap s ∧ r = Slot (g_gen s) i;
  co_idem : ∀ q r, conv !! q = Some r → conv !! r = None;
  co_lheap : ∀ l, match g_lheap s !! l with
       | None => g_lheap s' !! l = None
       | Some v => g_lheap s' !! l = Some (LV (lv_id v) (lv_label v) (lv_shape v)
                    (if decide (l ∈ (g_lmap s).*2) then map (old_to_new conv) (lv_dau v) else lv_dau v))
       end;
  co_uheap : ∀ u, match g_uheap s !! u with
       | None => g_uheap s' !! u = None
       | Some sh => ∃ sh', g_uheap s' !! u = Some sh' ∧ kind_of sh' = kind_of sh ∧
           (sh' = sh ∨ sh' = convert_shape conv sh)
       end;
  co_rest : g_lmap s' = g_lmap s ∧ g_world s' = old_to_new conv <$> g_world s ∧
    g_pcount s' = g_pcount s ∧ g_lcount s' = g_lcount s ∧ g_buf s' = Some (g_gen s, placed_count s) ∧
    g_gen s' = g_gen s + 1 }.

Lemma compactify_spec s s' : sm_sorted (g_pmap s) → map_live s → fresh_gen s →
  compactify s = Some s' → ∃ conv, compacted s s' conv ∧ g_closed s' = g_closed s.
Proof.
  intros Hs Hl Hf. unfold compactify. intros E.
  destruct (copy_loop _ _ _ _ _) as [[[h pm] conv]|] eqn:E1; [|done]. cbn in E.
  destruct (daughters_loop _ _ _) as [lh|] eqn:E2; [|done]. cbn in E.
  destruct (shapes_loop _ _ _ _) as [uh|] eqn:E3; [|done]. cbn in E. injection E as <-. exists conv. split; [|done].
  assert (Hne : ∀ i q, (i, Some q) ∈ g_pmap s → ∀ j, q ≠ Slot (g_gen s) j).
  { intros i q Hin j ->. apply sm_find_in in Hin; [|done]. apply Hl in Hin. apply Hf in Hin. lia. }
  apply copy_loop_spec in E1 as (-> & H2 & H3 & H4 & _); [|done|done].
  assert (Hc : ∀ q r, conv !! q = Some r → ∃ i, (i, Some q) ∈ g_pmap s ∧ r = Slot (g_gen s) i).
  { intros q r [Hc|Hc]%H4; [by rewrite lookup_empty in Hc|done]. }
  assert (Hi : ∀ q r, conv !! q = Some r → conv !! r = None).
  { intros q r (i & Hin & ->)%Hc. destruct (conv !! _) as [r'|] eqn:E; [|done].
    apply Hc in E as (j & Hj & _). exfalso. by apply (Hne _ _ Hj i). }
  split; cbn; [done|done| | |done|done| | |done].
  - intros p Hp. apply H3. intros i x ->. by destruct (Hp i).
  - intros g i Hg. destruct (decide (g = g_gen s)) as [->|]; [lia|].
    rewrite H3 in Hg; [apply Hf in Hg; lia|]. by intros j x [= -> ->].
  - intros l. by apply (daughters_loop_spec conv (g_lmap s) (g_lheap s) lh).
  - intros u. pose proof (shapes_loop_spec _ _ _ _ _ E3 u) as H. destruct (g_uheap s !! u) as [sh|]; [|done].
    destruct H as (sh' & ? & ? & H). exists sh'. split_and!; [done|done|].
    destruct H as [->|[->|[k ->]]]; [by left|by right|]. by apply convert_shape_iter.
Qed.
Lemma sm_find_map g (m : smap (option addr)) i :
  sm_find i (map (λ ip, (ip.1, Some (Slot g ip.1))) m) = (λ _, Some (Slot g i)) <$> sm_find i m.
Proof. induction m as [|[k v] m IH]; cbn; [done|]. destruct (N.eqb_spec i k) as [->|]; [done|done]. Qed.
Lemma sm_sorted_map g (m : smap (option addr)) :
  sm_sorted m → sm_sorted (map (λ ip, (ip.1, Some (Slot g ip.1))) m).
Proof.
  intros Hs. induction Hs as [|[k v] m Hs IH Hk]; cbn; [constructor|]. constructor; [done|].
  rewrite Forall_forall in Hk |- *. intros x Hx. apply elem_of_list_In, in_map_iff in Hx as ([k' v'] & <- & Hin).
  apply elem_of_list_In in Hin. by apply Hk in Hin.
Qed.

(** * Invariant of the placed volumes *)
Definition pdata (v : pvol T) : N * N * T := (pv_label v, pv_lv v, pv_tr v).
Record PI (es : list (ev (N * N * T))) s : Prop := {
  pi_count : g_pcount s = nnew es;
  pi_closed : g_closed s = closed es;
  pi_sorted : sm_sorted (g_pmap s);
  pi_live : ∀ a v, g_pheap s !! Obj a = Some v → (∃ d, ENew a d ∈ since_clear es) → born es a (pdata v) (pv_id v);
  pi_born : ∀ a d i, born es a d i → ∃ v, g_pheap s !! Obj a = Some v ∧ pv_id v = i ∧ pdata v = d;
  pi_map : ∀ i p, sm_find i (g_pmap s) = Some (Some p) →
    ∃ a v, g_pheap s !! p = Some v ∧ pv_id v = i ∧ registered es a (pdata v) i ∧
      (if g_closed s then ∃ g n, g_buf s = Some (g, n) ∧ i < n ∧ p = Slot g i else p = Obj a);
  pi_reg : ∀ a d i, registered es a d i → ∃ p, sm_find i (g_pmap s) = Some (Some p);
  pi_gen : fresh_gen s }.
Lemma PI_map_live es s : PI es s → map_live s.
Proof. intros H i q Hq. apply (pi_map _ _ H) in Hq as (a & v & Hv & _). by eexists. Qed.

Lemma born_other es a d i : born (es ++ [EOther (D:=N * N * T)]) a d i ↔ born es a d i.
Proof. rewrite born_snoc. naive_solver. Qed.
Lemma registered_other es a d i : registered (es ++ [EOther (D:=N * N * T)]) a d i ↔ registered es a d i.
Proof. rewrite registered_snoc. naive_solver. Qed.
Lemma since_other es a (d : N * N * T) : ENew a d ∈ since_clear (es ++ [EOther]) ↔ ENew a d ∈ since_clear es.
Proof. rewrite since_clear_snoc. set_solver. Qed.

Lemma PI_other es s s' : PI es s →
  g_pcount s' = g_pcount s → g_closed s' = g_closed s → g_pmap s' = g_pmap s → g_buf s' = g_buf s → g_gen s' = g_gen s →
  (∀ p, (λ v, (pv_id v, pdata v)) <$> (g_pheap s' !! p) = (λ v, (pv_id v, pdata v)) <$> (g_pheap s !! p)) →
  PI (es ++ [EOther]) s'.
Proof.
  intros [H1 H2 H3 H4 H5 H6 H7 H8] E1 E2 E3 E4 E5 Hh.
  assert (Hf : ∀ p v, g_pheap s' !! p = Some v → ∃ w, g_pheap s !! p = Some w ∧ pv_id w = pv_id v ∧ pdata w = pdata v).
  { intros p v Hv. specialize (Hh p). rewrite Hv in Hh. destruct (g_pheap s !! p) as [w|]; [|done].
    cbn [fmap option_fmap option_map] in Hh. exists w. apply (inj Some) in Hh. pose proof (f_equal fst Hh). pose proof (f_equal snd Hh). done. }
  assert (Hb : ∀ p v, g_pheap s !! p = Some v → ∃ w, g_pheap s' !! p = Some w ∧ pv_id w = pv_id v ∧ pdata w = pdata v).
  { intros p v Hv. specialize (Hh p). rewrite Hv in Hh. destruct (g_pheap s' !! p) as [w|]; [|done].
    cbn [fmap option_fmap option_map] in Hh. exists w. apply (inj Some) in Hh. pose proof (f_equal fst Hh). pose proof (f_equal snd Hh). done. }
  split.
  - by rewrite E1, nnew_snoc.
  - by rewrite E2, closed_snoc.
  - by rewrite E3.
  - intros a v Hv [d Hd]. rewrite since_other in Hd. rewrite born_other. apply Hf in Hv as (w & Hw & <- & <-). apply H4; [done|by exists d].
  - intros a d i Hb'. rewrite born_other in Hb'. apply H5 in Hb' as (v & Hv & <- & <-). apply Hb in Hv as (w & ? & ? & ?). by exists w.
  - intros i p Hp. rewrite E3 in Hp. apply H6 in Hp as (a & v & Hv & <- & Hr & Hc).
    apply Hb in Hv as (w & ? & ? & Ew). exists a, w. rewrite E2, E4, Ew. split_and!; [done|done| |done]. by rewrite registered_other.
  - intros a d i Hr. rewrite registered_other in Hr. rewrite E3. by eapply H7.
  - intros g i [v Hv]. rewrite E5. apply Hf in Hv as (w & Hw & _). apply (H8 g i). by eexists.
Qed.
Lemma PI_new es s a label lv tr s' : PI es s → N.of_nat (length es) + 1 < 4294967296 →
  new_placed s a label lv tr = Some s' → PI (es ++ [ENew a (label, lv, tr)]) s'.
Proof.
  intros [H1 H2 H3 H4 H5 H6 H7 H8] Hlen E. unfold new_placed in E.
  destruct (g_pheap s !! Obj a) eqn:Ea; [done|]. destruct (g_lheap s !! lv); [|done].
  assert (Hfresh : ∀ d i, ¬ born es a d i).
  { intros d i Hb. apply H5 in Hb as (v & Hv & _). congruence. }
  set (s2 := register_placed _ _ _) in E. injection E as <-.
  assert (Hf : g_pheap s2 = g_pheap s ∧ g_closed s2 = g_closed s ∧ g_buf s2 = g_buf s ∧ g_gen s2 = g_gen s ∧
    g_pcount s2 = (g_pcount s + 1) mod 4294967296 ∧
    g_pmap s2 = if g_closed s then g_pmap s else sm_insert (g_pcount s) (Some (Obj a)) (g_pmap s)).
  { unfold s2, register_placed. cbn. destruct (g_closed s) eqn:Ec; cbn; rewrite ?Ec; by split_and!. }
  clearbody s2. destruct Hf as (F1 & F2 & F3 & F4 & F5 & F6).
  pose proof (nnew_le es) as Hle.
  assert (Hs : sm_sorted (g_pmap s2)).
  { rewrite F6. destruct (g_closed s); [done|]. by apply sm_insert_sorted. }
  split; cbn; rewrite ?F1, ?F2, ?F3, ?F4.
  - rewrite F5, nnew_snoc, H1. rewrite N.mod_small by lia. done.
  - by rewrite closed_snoc.
  - done.
  - intros b v Hv [d Hd]. rewrite born_snoc. destruct (decide (b = a)) as [->|].
    + rewrite lookup_insert in Hv. injection Hv as <-. left. by rewrite H1.
    + rewrite lookup_insert_ne in Hv by congruence. right. split; [|done]. apply H4; [done|]. exists d.
      rewrite since_clear_snoc in Hd. set_solver.
  - intros b d i. rewrite born_snoc. intros [[[= <- <-] ->]|[Hb _]].
    + rewrite lookup_insert. eexists. split_and!; [done| |done]. cbn. by rewrite H1.
    + destruct (decide (b = a)) as [->|]; [by apply Hfresh in Hb|]. rewrite lookup_insert_ne by congruence. by apply H5.
  - intros i p Hp.
    assert (Hold : sm_find i (g_pmap s) = Some (Some p) → ∃ (a0 : N) (v : pvol T),
      <[Obj a:=PV (g_pcount s) label lv tr (-1)]> (g_pheap s) !! p = Some v ∧ pv_id v = i ∧
      registered (es ++ [ENew a (label, lv, tr)]) a0 (pdata v) i ∧
      (if g_closed s then ∃ g n, g_buf s = Some (g, n) ∧ i < n ∧ p = Slot g i else p = Obj a0)).
    { intros Hp'. apply H6 in Hp' as (b & v & Hv & <- & Hr & Hc). exists b, v. split_and!; [|done| |done].
      - rewrite lookup_insert_ne; [done|]. intros <-. congruence.
      - rewrite registered_snoc. by right. }
    rewrite F6 in Hp. destruct (g_closed s) eqn:Ec; [by apply Hold|].
    rewrite sm_find_insert in Hp by done. destruct (N.eqb_spec i (g_pcount s)) as [->|]; [|by apply Hold].
    injection Hp as <-. exists a. eexists. rewrite lookup_insert. split_and!; [done|done| |done].
    rewrite registered_snoc. left. cbn. by rewrite H1, <-H2.
  - intros b d i. rewrite registered_snoc. rewrite F6. intros [([= <- <-] & -> & Hc)|[Hr _]].
    + rewrite H2, Hc. rewrite sm_find_insert by done. rewrite H1, N.eqb_refl. by eexists.
    + pose proof (born_lt _ _ _ _ (registered_born _ _ _ _ Hr)). apply H7 in Hr. destruct (g_closed s); [done|].
      rewrite sm_find_insert by done. destruct (N.eqb_spec i (g_pcount s)); [lia|done].
  - intros g i. cbn. rewrite ?F1, lookup_insert_ne by done. rewrite F4. apply H8.
Qed.
Lemma PI_del es s a s' : PI es s → (∃ d, ENew a d ∈ since_clear es) → del_placed s a = Some s' → PI (es ++ [EDel a]) s'.
Proof.
  intros [H1 H2 H3 H4 H5 H6 H7 H8] Hd E. unfold del_placed in E.
  destruct (g_pheap s !! Obj a) as [v|] eqn:Ea; [|done]. cbn in E. set (s2 := deregister_placed _ _) in E. injection E as <-.
  pose proof (H4 _ _ Ea Hd) as Hb.
  assert (Hf : g_pheap s2 = g_pheap s ∧ g_closed s2 = g_closed s ∧ g_buf s2 = g_buf s ∧ g_gen s2 = g_gen s ∧
    g_pcount s2 = g_pcount s ∧ sm_sorted (g_pmap s2) ∧ 
    ∀ i, sm_find i (g_pmap s2) = if i =? pv_id v then None else sm_find i (g_pmap s)).
  { unfold s2, deregister_placed. destruct (sm_find (pv_id v) (g_pmap s)) eqn:Ef; cbn; split_and!; try done.
    - by apply sm_erase_sorted.
    - intros i. by apply sm_find_erase.
    - intros i. destruct (N.eqb_spec i (pv_id v)) as [->|]; done. }
  clearbody s2. destruct Hf as (F1 & F2 & F3 & F4 & F5 & F6 & F7).
  split; cbn; rewrite ?F1, ?F2, ?F3, ?F4, ?F5; try done.
  - by rewrite nnew_snoc.
  - by rewrite closed_snoc.
  - intros b w Hw [d Hd']. destruct (decide (b = a)) as [->|]; [by rewrite lookup_delete in Hw|].
    rewrite lookup_delete_ne in Hw by congruence. rewrite born_snoc. right. split; [|split; congruence].
    apply H4; [done|]. exists d. rewrite since_clear_snoc in Hd'. set_solver.
  - intros b d i. rewrite born_snoc. intros [[[=] _]|(Hb' & Hne & _)].
    rewrite lookup_delete_ne by congruence. by apply H5.
  - intros i p. rewrite F7. destruct (N.eqb_spec i (pv_id v)) as [->|Hne]; [done|]. intros Hp.
    apply H6 in Hp as (b & w & Hw & Hi & Hr & Hc). exists b, w.
    assert (b ≠ a).
    { intros ->. apply registered_born in Hr. apply H5 in Hr as (v' & Hv' & ? & _). congruence. }
    split_and!; [|done| |done].
    + rewrite lookup_delete_ne; [done|]. destruct (g_closed s); [by destruct Hc as (? & ? & ? & ? & ->)|congruence].
    + rewrite registered_snoc. right. split_and!; [done|congruence|done].
  - intros b d i. rewrite registered_snoc. intros [([=] & _)|(Hr & Hne & _)]. rewrite F7.
    destruct (N.eqb_spec i (pv_id v)) as [->|]; [|by eapply H7].
    destruct (born_inj _ _ _ _ _ _ Hb (registered_born _ _ _ _ Hr)) as [-> _]. done.
  - intros g i. cbn. rewrite ?F1, lookup_delete_ne, F4 by done. apply H8.
Qed.
Lemma PI_clear es s : PI es s → PI (es ++ [EClear]) (clear s).
Proof.
  intros [H1 H2 H3 H4 H5 H6 H7 H8]. split; cbn.
  - by rewrite nnew_snoc.
  - by rewrite closed_snoc.
  - constructor.
  - intros a v _ [d Hd]. rewrite since_clear_snoc in Hd. set_solver.
  - intros a d i. rewrite born_snoc. by intros [[[=] _]|(_ & _ & [])].
  - done.
  - intros a d i. rewrite registered_snoc. by intros [([=] & _)|(_ & _ & [])].
  - intros g i [v Hv]. cbn in *. apply map_filter_lookup_Some in Hv as [Hv _]. apply (H8 g i). by eexists.
Qed.
Lemma PI_convi es s i : PI es s → PI (es ++ [EOther]) (convert_index s i).1.
Proof.
  intros H. unfold convert_index. destruct (sm_find i (g_pmap s)) eqn:Ei; cbn.
  - by apply (PI_other es s).
  - destruct H as [H1 H2 H3 H4 H5 H6 H7 H8]. split; cbn; try done.
    + by rewrite nnew_snoc.
    + by rewrite closed_snoc.
    + by apply sm_insert_sorted.
    + intros a v Hv [d Hd]. rewrite since_other in Hd. rewrite born_other. apply H4; [done|by exists d].
    + intros a d j Hb. rewrite born_other in Hb. by apply H5.
    + intros j p Hp. rewrite sm_find_insert in Hp by done. destruct (j =? i); [done|].
      apply H6 in Hp as (a & v & ? & ? & ? & ?). exists a, v. split_and!; [done|done| |done]. by rewrite registered_other.
    + intros a d j Hr. rewrite registered_other in Hr. rewrite sm_find_insert by done. apply H7 in Hr as [p Hp].
      destruct (N.eqb_spec j i) as [->|]; [congruence|by eexists].
Qed.
Lemma close_inv fuel s s' : close fuel s = Some s' →
  ∃ w d n s2, g_world s = Some w ∧ max_depth (daughters s) fuel w = Some d ∧ node_count (daughters s) fuel w = Some n ∧
    compactify (set_v2i s (index_loop (g_pmap s) (g_v2i s))) = Some s2 ∧
    s' = GM (g_pheap s2) (g_lheap s2) (g_uheap s2) (g_pmap s2) (g_lmap s2) (g_v2i s2) (g_world s2)
           true (g_pcount s2) (g_lcount s2) (g_buf s2) (g_gen s2) d n.
Proof.
  unfold close. intros E. destruct (g_world s) as [w|] eqn:Ew; [|done]. cbn [mbind option_bind] in E.
  destruct (max_depth _ _ _) as [d|] eqn:Ed; [|done]. cbn [mbind option_bind] in E.
  destruct (node_count _ _ _) as [n|] eqn:En; [|done]. cbn [mbind option_bind] in E.
  destruct (compactify _) as [s2|] eqn:E2; [|done]. cbn [mbind option_bind] in E. injection E as <-.
  exists w, d, n, s2. by split_and!.
Qed.
Lemma close_compacted fuel s s' : sm_sorted (g_pmap s) → map_live s → fresh_gen s → close fuel s = Some s' →
  ∃ conv, compacted (set_v2i s (index_loop (g_pmap s) (g_v2i s))) s' conv ∧ g_closed s' = true.
Proof.
  intros H1 H2 H3 E. apply close_inv in E as (w & d & n & s2 & _ & _ & _ & E & ->).
  apply compactify_spec in E as (conv & [C1 C2 C3 C4 C5 C6 C7 C8 C9] & _); [|done|done|done].
  exists conv. split; [|done]. split; done.
Qed.
Lemma PI_close es s fuel s' : PI es s → close fuel s = Some s' → PI (es ++ [EClose]) s'.
Proof.
  intros HPI E. pose proof (PI_map_live _ _ HPI) as Hl. destruct HPI as [H1 H2 H3 H4 H5 H6 H7 H8].
  apply close_compacted in E as (conv & [C1 C2 C3 C4 C5 C6 C7 C8 C9] & Hcl); [|done|done|done].
  destruct C9 as (R1 & R3 & R4 & R5 & R6 & R7). cbn in *.
  split.
  - by rewrite R4, nnew_snoc.
  - by rewrite closed_snoc, Hcl.
  - rewrite C1. by apply sm_sorted_map.
  - intros a v Hv [d Hd]. rewrite C3 in Hv by done. rewrite born_snoc. right. split; [|done]. apply H4; [done|].
    exists d. rewrite since_clear_snoc in Hd. set_solver.
  - intros a d i. rewrite born_snoc. intros [[[=] _]|(Hb & _)]. rewrite C3 by done. by apply H5.
  - intros i p. rewrite C1, sm_find_map. destruct (sm_find i (g_pmap s)) as [q|] eqn:Eq; [|done]. cbn. intros [= <-].
    pose proof Eq as Eq'. apply sm_find_in in Eq; [|done]. apply C2 in Eq as (Hi & q' & v & -> & Hv & Hv' & _).
    apply H6 in Eq' as (a & v' & Hv1 & Hid & Hr & _). assert (v' = v) as -> by congruence.
    exists a, v. split_and!; [done|done| |].
    + rewrite registered_snoc. by right.
    + rewrite Hcl. eexists _, _. done.
  - intros a d i. rewrite registered_snoc. intros [([=] & _)|(Hr & _)]. apply H7 in Hr as [p Hp].
    rewrite C1, sm_find_map, Hp. by eexists.
  - done.
Qed.
End Compact.
