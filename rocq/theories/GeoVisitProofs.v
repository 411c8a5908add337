From stdpp Require Import list option gmap fin_maps sorting.
From Coq Require Import NArith ZArith Lia ZifyN ZifyBool ZifyNat.
From Verif Require Import NavTableModel NavTableSpec NavPathModel NavPathSpec NavPathProofs GeoManagerModel GeoManagerSpec.
Local Open Scope N_scope.

Local Arguments N.add : simpl never.
Local Arguments N.of_nat : simpl never.
Local Arguments N.ltb : simpl never.
Local Arguments N.eqb : simpl never.

Section Visit.
Context {P : Type} (dau : P → option (list P)).

(** The nodes in the order of the visit, with their paths. *)
Definition below (k : nat) (ns : list (list nat * P)) : list (list nat * P) := (λ n, (k :: n.1, n.2)) <$> ns.
Fixpoint dnodes (f : P → option (list (list nat * P))) (k : nat) (ds : list P) : option (list (list nat * P)) :=
  match ds with
  | [] => Some []
  | d :: r => a ← f d; b ← dnodes f (S k) r; Some (below k a ++ b)
  end.
Fixpoint nodes (fuel : nat) (p : P) : option (list (list nat * P)) :=
  match fuel with
  | O => None
  | S f => ds ← dau p; ns ← dnodes (nodes f) 0 ds; Some (([], p) :: ns)
  end.
Definition apply_nodes {S} (ap : P → N → S → option S) (level : N) (ns : list (list nat * P)) (st : option S) : option S :=
  foldl (λ a n, s ← a; ap n.2 (level + N.of_nat (length n.1)) s) st ns.
Lemma apply_nodes_none {S} (ap : P → N → S → option S) level ns : apply_nodes ap level ns None = None.
Proof. unfold apply_nodes. induction ns; [done|]. done. Qed.
Lemma apply_nodes_cons {S} (ap : P → N → S → option S) level n ns s :
  apply_nodes ap level (n :: ns) (Some s) = apply_nodes ap level ns (ap n.2 (level + N.of_nat (length n.1)) s).
Proof. done. Qed.
Lemma apply_nodes_app {S} (ap : P → N → S → option S) level ns ns' st :
  apply_nodes ap level (ns ++ ns') st = apply_nodes ap level ns' (apply_nodes ap level ns st).
Proof. apply foldl_app. Qed.
Lemma apply_nodes_below {S} (ap : P → N → S → option S) level k ns st :
  apply_nodes ap level (below k ns) st = apply_nodes ap (level + 1) ns st.
Proof.
  unfold apply_nodes, below. revert st. induction ns as [|[ks q] ns IH]; intros st; [done|]. cbn. rewrite IH. f_equal.
  destruct st; [|done]. cbn. f_equal. lia.
Qed.

Lemma visit_fold_none {S} (ap : P → N → S → option S) fuel level ds :
  foldl (λ a d, s ← a; visit_all dau ap fuel d (level + 1) s) None ds = None.
Proof. induction ds; done. Qed.
(** The visit applies the visitor to the nodes in this order. *)
Lemma visit_nodes {S} (ap : P → N → S → option S) fuel p level st :
  visit_all dau ap fuel p level st = ns ← nodes fuel p; apply_nodes ap level ns (Some st).
Proof.
  revert p level st. induction fuel as [|fuel IH]; intros p level st; [done|]. cbn.
  assert (Hd : ∀ ds k s0, foldl (λ a d, s ← a; visit_all dau ap fuel d (level + 1) s) s0 ds =
    match s0 with None => None | Some _ => ns ← dnodes (nodes fuel) k ds; apply_nodes ap level ns s0 end).
  { induction ds as [|d ds IHd]; intros k s0; cbn [foldl dnodes]; [by destruct s0|].
    rewrite (IHd (Datatypes.S k)). destruct s0 as [s0|]; [|done]. cbn [mbind option_bind]. rewrite IH.
    destruct (nodes fuel d) as [a|]; [|done]. cbn [mbind option_bind].
    destruct (dnodes (nodes fuel) (Datatypes.S k) ds) as [b|] eqn:Eb; cbn [mbind option_bind].
    - rewrite apply_nodes_app, apply_nodes_below. destruct (apply_nodes ap (level + 1) a (Some s0)) eqn:E; [done|].
      by rewrite apply_nodes_none.
    - by destruct (apply_nodes _ _ _ _). }
  destruct (dau p) as [ds|]; cbn [mbind option_bind].
  - destruct (ap p level st) as [st1|] eqn:E1; cbn [mbind option_bind].
    + rewrite (Hd ds 0%nat). destruct (dnodes (nodes fuel) 0 ds) as [ns|]; [|done]. cbn.
      rewrite N.add_0_r, E1. done.
    + destruct (dnodes (nodes fuel) 0 ds) as [ns|]; [|done]. cbn. rewrite N.add_0_r, E1. symmetry; apply (apply_nodes_none ap level ns).
  - by destruct (ap p level st).
Qed.

(** * The nodes are the paths *)
Lemma dnodes_spec fuel k ds ns :
  (∀ p ns, nodes fuel p = Some ns → NoDup ns.*1 ∧ (∀ ks q, (ks, q) ∈ ns ↔ walk dau p ks = Some q) ∧
    ∀ ks q, (ks, q) ∈ ns → is_Some (dau q) ∧ (length ks < fuel)%nat) →
  dnodes (nodes fuel) k ds = Some ns →
  NoDup ns.*1 ∧ (∀ ks q, (ks, q) ∈ ns ↔ ∃ j r d, ks = (k + j)%nat :: r ∧ ds !! j = Some d ∧ walk dau d r = Some q) ∧
  ∀ ks q, (ks, q) ∈ ns → is_Some (dau q) ∧ (length ks < S fuel)%nat.
Proof.
  intros IH. revert k ns. induction ds as [|d ds IHd]; intros k ns E; cbn in E.
  - injection E as <-. split; [constructor|]. split; [|set_solver]. intros ks q. split; [set_solver|].
    by intros (j & r & d & _ & ? & _).
  - destruct (nodes fuel d) as [a|] eqn:Ea; [|done]. cbn in E.
    destruct (dnodes (nodes fuel) (S k) ds) as [b|] eqn:Eb; [|done]. cbn in E. injection E as <-.
    apply IH in Ea as (N1 & M1 & D1). apply IHd in Eb as (N2 & M2 & D2).
    assert (Hbel : ∀ ks q, (ks, q) ∈ below k a ↔ ∃ r, ks = k :: r ∧ (r, q) ∈ a).
    { intros ks q. unfold below. rewrite elem_of_list_fmap. split.
      - intros ([r q'] & [= -> ->] & ?). by exists r.
      - intros (r & -> & ?). by exists (r, q). }
    split; [|split].
    + rewrite fmap_app. apply NoDup_app. split_and!; [| |done].
      * unfold below. rewrite <-list_fmap_compose. cbn. change (NoDup ((λ n : list nat * P, k :: n.1) <$> a)).
        replace ((λ n : list nat * P, k :: n.1) <$> a) with (cons k <$> a.*1) by (by rewrite <-list_fmap_compose).
        apply NoDup_fmap_2; [|done]. by intros ? ? [= ->].
      * intros ks ([ks1 q1] & -> & H1)%elem_of_list_fmap ([ks2 q2] & E & H2)%elem_of_list_fmap. cbn in *. subst ks2.
        apply Hbel in H1 as (r & -> & _). apply M2 in H2 as (j & r2 & d2 & [= ? ?] & _). lia.
    + intros ks q. rewrite elem_of_app, Hbel, M2. split.
      * intros [(r & -> & H%M1)|(j & r & d' & -> & Hj & Hw)].
        -- exists 0%nat, r, d. split_and!; [f_equal; lia|done|done].
        -- exists (S j), r, d'. split_and!; [f_equal; lia|done|done].
      * intros (j & r & d' & -> & Hj & Hw). destruct j as [|j].
        -- injection Hj as ->. left. exists r. split; [f_equal; lia|by apply M1].
        -- right. exists j, r, d'. split_and!; [f_equal; lia|done|done].
    + intros ks q [H|H]%elem_of_app; [|by eapply D2]. apply Hbel in H as (r & -> & H). apply D1 in H as [? ?].
      split; [done|]. cbn. lia.
Qed.
Lemma nodes_spec fuel p ns : nodes fuel p = Some ns →
  NoDup ns.*1 ∧ (∀ ks q, (ks, q) ∈ ns ↔ walk dau p ks = Some q) ∧
  ∀ ks q, (ks, q) ∈ ns → is_Some (dau q) ∧ (length ks < fuel)%nat.
Proof.
  revert p ns. induction fuel as [|fuel IH]; intros p ns E; [done|]. cbn in E.
  destruct (dau p) as [ds|] eqn:Ed; [|done]. cbn in E. destruct (dnodes (nodes fuel) 0 ds) as [ns'|] eqn:E'; [|done].
  cbn in E. injection E as <-. apply dnodes_spec in E' as (H1 & H2 & H3); [|done]. split; [|split].
  - cbn. constructor; [|done]. intros ([ks q] & E & Hin)%elem_of_list_fmap. cbn in E. subst ks.
    apply H2 in Hin as (j & r & d & ? & _). done.
  - intros ks q. rewrite elem_of_cons, H2. destruct ks as [|k ks]; cbn.
    + split; [by intros [[= ->]|(j & r & d & ? & _)]|]. intros [= ->]. by left.
    + rewrite Ed. cbn. split.
      * intros [[=]|(j & r & d & [= -> ->] & -> & Hw)]. done.
      * intros Hw. right. destruct (ds !! k) as [d|] eqn:Ek; [|done]. by exists k, ks, d.
  - intros ks q [[= -> ->]|Hin]%elem_of_cons; [split; [by eexists|cbn; lia]|by eapply H3].
Qed.
Lemma nodes_some fuel p : depth_below dau p fuel → (∀ ks q, walk dau p ks = Some q → is_Some (dau q)) → is_Some (nodes fuel p).
Proof.
  revert p. induction fuel as [|fuel IH]; intros p Hd Ht.
  - specialize (Hd [] ltac:(by eexists)). cbn in Hd. lia.
  - cbn. destruct (Ht [] p eq_refl) as [ds Eds]. rewrite Eds. cbn.
    assert (∀ k, is_Some (dnodes (nodes fuel) k ds)) as Hn; [|destruct (Hn 0%nat) as [ns ->]; by eexists].
    assert (Hk : ∀ d, d ∈ ds → is_Some (nodes fuel d)).
    { intros d [k Hk]%elem_of_list_lookup. apply IH.
      - intros ks Hw. specialize (Hd (k :: ks)). cbn in Hd. rewrite Eds in Hd. cbn in Hd. rewrite Hk in Hd. cbn in Hd.
        specialize (Hd Hw). lia.
      - intros ks q Hw. apply (Ht (k :: ks)). cbn. rewrite Eds. cbn. by rewrite Hk. }
    clear -Hk. induction ds as [|d ds IHd]; intros k; cbn; [by eexists|].
    destruct (Hk d) as [a ->]; [by left|]. cbn. destruct (IHd ltac:(intros; apply Hk; by right) (S k)) as [b ->]. by eexists.
Qed.
Lemma nodes_depth fuel p ns : nodes fuel p = Some ns → depth_below dau p fuel.
Proof. intros (_ & H1 & H2)%nodes_spec ks [q Hq]. apply H1 in Hq. by apply H2 in Hq as [_ ?]. Qed.
Lemma visit_reach {S} (ap : P → N → S → option S) fuel p level st r : visit_all dau ap fuel p level st = Some r →
  ∀ ks q, walk dau p ks = Some q → is_Some (dau q) ∧ (length ks < fuel)%nat.
Proof.
  rewrite visit_nodes. destruct (nodes fuel p) as [ns|] eqn:E; [|done]. intros _ ks q Hw.
  apply nodes_spec in E as (_ & H1 & H2). by apply H2, H1.
Qed.
Lemma nodes_enumerates fuel p ns (Q : P → Prop) `{∀ q, Decision (Q q)} : nodes fuel p = Some ns →
  enumerates dau p Q (filter (λ n, Q n.2) ns).*1.
Proof.
  intros (H1 & H2 & _)%nodes_spec. split.
  - clear H2. induction ns as [|n ns IH]; [constructor|]. cbn in H1. apply NoDup_cons in H1 as [Hn H1].
    rewrite filter_cons. destruct (decide (Q n.2)); [|by apply IH]. cbn. constructor; [|by apply IH].
    intros (x & E & Hx)%elem_of_list_fmap. apply elem_of_list_filter in Hx as [_ Hx]. apply Hn. rewrite E. by apply elem_of_list_fmap_1.
  - intros ks. rewrite elem_of_list_fmap. split.
    + intros ([ks' q] & -> & Hin). apply elem_of_list_filter in Hin as [HQ Hin]. exists q. split; [by apply H2|done].
    + intros (q & Hw & HQ). exists (ks, q). split; [done|]. apply elem_of_list_filter. split; [done|by apply H2].
Qed.
Lemma enumerates_all fuel p ns : nodes fuel p = Some ns → enumerates dau p (λ _, True) ns.*1.
Proof.
  intros (H1 & H2 & _)%nodes_spec. split; [done|]. intros ks. rewrite elem_of_list_fmap. split.
  - intros ([ks' q] & -> & Hin). exists q. split; [by apply H2|done].
  - intros (q & Hw & _). exists (ks, q). split; [done|by apply H2].
Qed.
Lemma enumerates_length p Q l1 l2 : enumerates dau p Q l1 → enumerates dau p Q l2 → length l1 = length l2.
Proof.
  intros [N1 M1] [N2 M2]. apply Permutation_length, NoDup_Permutation; [done|done|]. intros x. by rewrite M1, M2.
Qed.

(** * The visitors *)
Lemma apply_count_nodes level ns n r : apply_nodes apply_count level ns (Some n) = Some r → r = n + N.of_nat (length ns).
Proof.
  revert n. induction ns as [|x ns IH]; intros n; [intros [= <-]; cbn; lia|]; rewrite apply_nodes_cons.
  unfold apply_count at 2. destruct (N.ltb_spec n int_max); [|by rewrite apply_nodes_none].
  intros E%IH. cbn. lia.
Qed.
Lemma apply_count_some level ns n : n + N.of_nat (length ns) ≤ int_max → is_Some (apply_nodes apply_count level ns (Some n)).
Proof.
  revert n. induction ns as [|x ns IH]; intros n Hn; [by eexists|]; rewrite apply_nodes_cons.
  unfold apply_count at 2. cbn in Hn. destruct (N.ltb_spec n int_max); [|lia]. apply IH. lia.
Qed.
Lemma apply_depth_nodes level ns m : ∃ r, apply_nodes apply_depth level ns (Some m) = Some r ∧ m ≤ r ∧
  (∀ ks q, (ks, q) ∈ ns → level + N.of_nat (length ks) ≤ r) ∧
  (r = m ∨ ∃ ks q, (ks, q) ∈ ns ∧ r = level + N.of_nat (length ks)).
Proof.
  revert m. induction ns as [|[ks q] ns IH]; intros m; [|rewrite apply_nodes_cons].
  - exists m. split_and!; [done|lia|set_solver|by left].
  - destruct (IH (if m <? level + N.of_nat (length ks) then level + N.of_nat (length ks) else m)) as (r & E & H1 & H2 & H3).
    exists r. split; [done|]. destruct (N.ltb_spec m (level + N.of_nat (length ks))); split_and!.
    + lia.
    + intros ks' q' [[= -> ->]|Hin]%elem_of_cons; [done|]. by eapply H2.
    + destruct H3 as [->|(ks' & q' & Hin & ->)]; right; [exists ks, q; split; [by left|done]|exists ks', q'; split; [by right|done]].
    + done.
    + intros ks' q' [[= -> ->]|Hin]%elem_of_cons; [lia|]. by eapply H2.
    + destruct H3 as [->|(ks' & q' & Hin & ->)]; [by left|right; exists ks', q'; split; [by right|done]].
Qed.
Lemma apply_placed_nodes level ns (c : list P) : apply_nodes apply_placed level ns (Some c) = Some (c ++ ns.*2).
Proof.
  revert c. induction ns as [|[ks q] ns IH]; intros c; [cbn; by rewrite app_nil_r|]; rewrite apply_nodes_cons; unfold apply_placed at 2; cbn.
  rewrite IH. by rewrite <-app_assoc.
Qed.
Lemma apply_logical_nodes (lvo : P → option N) level ns c r : NoDup c →
  apply_nodes (apply_logical lvo) level ns (Some c) = Some r →
  NoDup r ∧ (∀ l, l ∈ r ↔ l ∈ c ∨ ∃ ks q, (ks, q) ∈ ns ∧ lvo q = Some l).
Proof.
  revert c. induction ns as [|[ks q] ns IH]; intros c Hc; [cbn|rewrite apply_nodes_cons; cbn [fst snd]].
  - intros [= <-]. split; [done|]. intros l. split; [by left|]. intros [|(? & ? & ? & _)]; [done|set_solver].
  - unfold apply_logical at 2. destruct (lvo q) as [l0|] eqn:El; cbn [mbind option_bind]; [|by rewrite apply_nodes_none].
    intros E. destruct (decide (l0 ∈ c)).
    + apply IH in E as [H1 H2]; [|done]. split; [done|]. intros l. rewrite H2. split.
      * intros [|(ks' & q' & ? & ?)]; [by left|]. right. exists ks', q'. split; [by right|done].
      * intros [|(ks' & q' & [[= -> ->]|?]%elem_of_cons & ?)]; [by left| |right; by exists ks', q'].
        left. congruence.
    + apply IH in E as [H1 H2].
      * split; [done|]. intros l. rewrite H2, elem_of_app, elem_of_list_singleton. split.
        -- intros [[ | -> ]|(ks' & q' & ? & ?)]; [by left| |].
           ++ right. exists ks, q. split; [by left|done].
           ++ right. exists ks', q'. split; [by right|done].
        -- intros [|(ks' & q' & [[= -> ->]|?]%elem_of_cons & ?)]; [by left; left| |right; by exists ks', q'].
           left. right. congruence.
      * apply NoDup_app. split_and!; [done|set_solver|apply NoDup_singleton].
Qed.
Lemma apply_logical_some (lvo : P → option N) level ns c : (∀ ks q, (ks, q) ∈ ns → is_Some (lvo q)) →
  is_Some (apply_nodes (apply_logical lvo) level ns (Some c)).
Proof.
  revert c. induction ns as [|[ks q] ns IH]; intros c H; [by eexists|]; rewrite apply_nodes_cons; cbn [fst snd].
  unfold apply_logical at 2. destruct (H ks q) as [l ->]; [by left|]. cbn [mbind option_bind]. apply IH. intros k2 q2 Hin. apply (H k2). by right.
Qed.
End Visit.

(** * The visitor with a navigation state *)
Section Paths.
Context {T : Type} (G : geo T) (lvo : N → N).
Let dau (p : N) : option (list N) := Some (g_dau G p).

Definition holds (cap : nat) (p : N) (l : list N) (n : list nat * N) (st : nsp) : Prop :=
  ∃ t, trace dau p n.1 = Some t ∧ PRep cap (rev t ++ l) st.
Lemma visit_context_spec lv cap fuel p ns l s c :
  nodes dau fuel p = Some ns → PRep cap l s →
  (∀ ks q, (ks, q) ∈ ns → (length l + length ks < cap)%nat ∧ (length l + length ks < 255)%nat) →
  ∃ s' cs, visit_context G lvo lv fuel p s c = Some (s', c ++ cs) ∧ PRep cap l s' ∧
    Forall2 (holds cap p l) (filter (λ n, lvo n.2 = lv) ns) cs.
Proof.
  revert p ns l s c. induction fuel as [|fuel IH]; intros p ns l s c E HP Hb; [done|]. cbn in E.
  destruct (dnodes (nodes dau fuel) 0 (g_dau G p)) as [ns'|] eqn:E'; [|done]. cbn in E. injection E as <-.
  destruct (PRep_push cap l s p HP) as (s1 & Hs1 & HP1 & _); [destruct (Hb [] p ltac:(by left)); cbn in *; lia..|].
  cbn [visit_context]. rewrite Hs1. cbn [mbind option_bind].
  assert (Htop : nsp_top s1 = Some (Some p)).
  { unfold nsp_top. destruct HP1 as (Hc & ? & ? & Ht & ?). cbn [length] in *. rewrite Hc.
    destruct (N.ltb_spec 0 (N.of_nat (S (length l)))); [|lia].
    replace (N.of_nat (S (length l)) - 1) with (N.of_nat (length l)) by lia. unfold slot. rewrite Nat2N.id.
    rewrite <-(lookup_take _ (S (length l))) by lia. rewrite Ht. cbn. rewrite lookup_app_r by (rewrite rev_length; lia).
    rewrite rev_length, Nat.sub_diag. done. }
  unfold apply_paths. rewrite Htop. cbn [mbind option_bind].
  assert (Hloop : ∀ pre ds ns2 s2 c2, g_dau G p = pre ++ ds → dnodes (nodes dau fuel) (length pre) ds = Some ns2 →
    PRep cap (p :: l) s2 →
    (∀ ks q, (ks, q) ∈ ns2 → (length l + length ks < cap)%nat ∧ (length l + length ks < 255)%nat) →
    ∃ s' cs, foldl (λ a d, '(s, c) ← a; visit_context G lvo lv fuel d s c) (Some (s2, c2)) ds = Some (s', c2 ++ cs) ∧
      PRep cap (p :: l) s' ∧ Forall2 (holds cap p l) (filter (λ n, lvo n.2 = lv) ns2) cs).
  { intros pre ds. revert pre. induction ds as [|d ds IHd]; intros pre ns2 s2 c2 Eds En HP2 Hb2; cbn in En.
    - injection En as <-. exists s2, []. rewrite app_nil_r. split_and!; [done|done|constructor].
    - destruct (nodes dau fuel d) as [a|] eqn:Ea; [|done]. cbn in En.
      destruct (dnodes (nodes dau fuel) (S (length pre)) ds) as [b|] eqn:Eb; [|done]. cbn in En. injection En as <-.
      destruct (IH d a (p :: l) s2 c2 Ea HP2) as (s3 & cs3 & E3 & HP3 & HF3).
      { intros ks q Hin. destruct (Hb2 (length pre :: ks) q) as [? ?].
        - apply elem_of_app. left. unfold below. apply elem_of_list_fmap. by exists (ks, q).
        - cbn in *. lia. }
      cbn [foldl mbind option_bind]. rewrite E3.
      destruct (IHd (pre ++ [d]) b s3 (c2 ++ cs3)) as (s4 & cs4 & E4 & HP4 & HF4).
      { by rewrite <-app_assoc. }
      { rewrite app_length. cbn. by rewrite Nat.add_1_r. }
      { done. }
      { intros ks q Hin. apply (Hb2 ks q). apply elem_of_app. by right. }
      exists s4, (cs3 ++ cs4). rewrite app_assoc. split_and!; [done|done|].
      rewrite filter_app. apply Forall2_app; [|done].
      clear -HF3 Eds. unfold below. revert cs3 HF3. induction a as [|[ks q] a IHa]; intros cs3 HF3.
      + apply Forall2_nil_inv_l in HF3 as ->. constructor.
      + rewrite filter_cons in HF3. cbn [fmap list_fmap]. rewrite filter_cons. cbn [fst snd] in *.
        destruct (decide (lvo q = lv)); [|by apply IHa].
        apply Forall2_cons_inv_l in HF3 as (st & cs' & (t & Ht & HPt) & HF & ->). constructor; [|by apply IHa].
        exists (p :: t). split.
        * cbn [fst trace]. change (dau p) with (Some (g_dau G p)). cbn [mbind option_bind]. rewrite Eds, list_lookup_middle by done. cbn [mbind option_bind].
          cbn [fst] in Ht. by rewrite Ht.
        * cbn [rev]. by rewrite <-app_assoc. }
  destruct (Hloop [] (g_dau G p) ns' s1 (if lvo p =? lv then c ++ [s1] else c) eq_refl E' HP1) as (s2 & cs & E2 & HP2 & HF2).
  { intros ks q Hin. apply (Hb ks q). by right. }
  rewrite E2. cbn [mbind option_bind]. destruct (PRep_pop cap (p :: l) s2 HP2) as [HP3 _]. cbn [tail] in HP3.
  rewrite filter_cons. cbn [snd]. destruct (N.eqb_spec (lvo p) lv) as [Elv|Elv].
  - exists (nsp_pop s2), (s1 :: cs). rewrite <-app_assoc. split_and!; [done|done|].
    destruct (decide (lvo p = lv)); [|done]. constructor; [|done]. exists [p]. split; [done|done].
  - exists (nsp_pop s2), cs. split_and!; [done|done|]. by destruct (decide (lvo p = lv)).
Qed.

Lemma n_total_spec (ldau : N → list N) fuel p ns : (∀ q, ldau (lvo q) = g_dau G q) →
  nodes dau fuel p = Some ns → n_total lvo ldau fuel (lvo p) = Some (N.of_nat (length ns) - 1).
Proof.
  intros Hl. revert p ns. induction fuel as [|fuel IH]; intros p ns E; [done|]. cbn in E.
  destruct (dnodes (nodes dau fuel) 0 (g_dau G p)) as [ns'|] eqn:E'; [|done]. cbn in E. injection E as <-.
  cbn [n_total]. rewrite Hl. replace (N.of_nat (length (([], p) :: ns')) - 1) with (N.of_nat (length ns')) by (cbn; lia).
  assert (∀ ds k ns2 a, dnodes (nodes dau fuel) k ds = Some ns2 →
    foldl (λ a d, n ← a; m ← n_total lvo ldau fuel (lvo d); Some (n + m)) (Some (a + N.of_nat (length ds))) ds =
    Some (a + N.of_nat (length ns2))) as Hf.
  { induction ds as [|d ds IHd]; intros k ns2 a En; cbn in En.
    - injection En as <-. done.
    - destruct (nodes dau fuel d) as [nd|] eqn:Ed; [|done]. cbn in En.
      destruct (dnodes (nodes dau fuel) (S k) ds) as [b|] eqn:Eb; [|done]. cbn in En. injection En as <-.
      assert (1 ≤ length nd)%nat.
      { apply nodes_spec in Ed as (_ & Hw & _). destruct nd; [|cbn; lia]. assert (([], d) ∈ ([] : list (list nat * N))) by (by apply Hw). set_solver. }
      cbn [foldl mbind option_bind length]. rewrite (IH _ _ Ed). cbn [mbind option_bind].
      replace (a + N.of_nat (S (length ds)) + (N.of_nat (length nd) - 1)) with
        ((a + N.of_nat (length nd)) + N.of_nat (length ds)) by lia.
      rewrite (IHd _ _ _ Eb). f_equal. rewrite app_length. unfold below. rewrite fmap_length. lia. }
  specialize (Hf (g_dau G p) 0%nat ns' 0 E'). rewrite !N.add_0_l in Hf. done.
Qed.
End Paths.
