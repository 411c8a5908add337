(** Proofs about flattening. *)
From Coq Require Import Reals Lra Lia.
From stdpp Require Import list option gmap fin_maps.
From Verif Require Import Real3 TransModel TransSpec TransProofs BoolModel BoolSpec FlattenModel FlattenSpec.
Import stdpp.list.

Lemma occupies_unique h u S T : occupies h u S → occupies h u T → ∀ p, S p ↔ T p.
Proof.
  intros HS. revert T. induction HS as [u f S E HS|u op l r A B S E HA IA HB IB HS|u cs G S E HG IG HS]; intros T HT p.
  - inversion HT as [? f' ? E' HT'|? ? ? ? ? ? ? E'|? ? ? ? E']; subst; try congruence. rewrite HS, HT'. by simplify_eq.
  - inversion HT as [? ? ? E'|? op' l' r' A' B' ? E' HA' HB' HT'|? ? ? ? E']; subst; try congruence. rewrite E in E'. simplify_eq.
    rewrite HS, HT'. unfold combined, put. pose proof (IA _ HA' (transform l'.1 p)). pose proof (IB _ HB' (transform r'.1 p)). destruct op'; tauto.
  - inversion HT as [? ? ? E'|? ? ? ? ? ? ? E'|? cs' G' ? E' HG' HT']; subst; try congruence. rewrite E in E'. simplify_eq.
    rewrite HS, HT'. unfold put. split; intros (j & c & Hc & Hp); exists j, c; (split; [done|]); by eapply (IG j c Hc _ (HG' j c Hc)).
Qed.
Lemma occupies_ext h u S T : occupies h u S → (∀ p, S p ↔ T p) → occupies h u T.
Proof.
  intros HS HT. destruct HS as [u f S E HS|u op l r A B S E HA HB HS|u cs G S E HG HS]; [eapply occ_leaf|eapply occ_bool|eapply occ_multi]; try done; intros p; rewrite <- HT; apply HS.
Qed.
Lemma unions_unique h u a b : unions h u a → unions h u b → a = b.
Proof.
  intros HS. revert b. induction HS as [u v E N|u op l r a b E HA IA HB IB]; intros k HT.
  - inversion HT as [|? ? ? ? ? ? E']; subst; [done|]. rewrite E in E'. by simplify_eq.
  - inversion HT as [? ? E' N'|? ? ? ? ? ? E' A' B']; subst; rewrite E in E'; simplify_eq. by rewrite (IA _ A'), (IB _ B').
Qed.
(** One volume taking the place of another in a later heap. *)
Definition stands (h h' : heap) (a b : N) : Prop :=
  (∀ S, occupies h a S → occupies h' b S) ∧ ∀ k, unions h a k → ∃ k', (k' ≤ k)%nat ∧ unions h' b k'.
Definition evolves (h h' : heap) : Prop :=
  ∀ i v, h !! i = Some v →
    match v with
    | VBool op l r => ∃ l' r', h' !! i = Some (VBool op (l.1, l') (r.1, r')) ∧ stands h h' l.2 l' ∧ stands h h' r.2 r'
    | v => h' !! i = Some v
    end.
Lemma evolves_stands h h' i : evolves h h' → stands h h' i i.
Proof.
  intros H. split.
  - intros S HS. induction HS as [u f S E HS|u op l r A B S E HA IA HB IB HS|u cs G S E HG IG HS]; specialize (H _ _ E); cbn in H.
    + by eapply occ_leaf.
    + destruct H as (l' & r' & E' & [L _] & [R _]). eapply (occ_bool h' u op (l.1, l') (r.1, r') A B); try done; [by apply L|by apply R].
    + by eapply occ_multi.
  - intros k HS. induction HS as [u v E N|u op l r a b E HA IA HB IB]; specialize (H _ _ E).
    + exists 0%nat. split; [done|]. eapply uni_leaf; [|exact N]. by destruct v.
    + destruct H as (l' & r' & E' & [_ L] & [_ R]). destruct (L a HA) as (a' & ? & HA'), (R b HB) as (b' & ? & HB').
      eexists. split; [|eapply (uni_bool h' u op (l.1, l') (r.1, r') a' b'); done]. lia.
Qed.
Lemma stands_trans h1 h2 h3 a b c : stands h1 h2 a b → stands h2 h3 b c → stands h1 h3 a c.
Proof.
  intros [A1 A2] [B1 B2]. split; [auto|]. intros k Hk. destruct (A2 k Hk) as (k' & ? & Hk'), (B2 k' Hk') as (k'' & ? & ?). exists k''. split; [lia|done].
Qed.
Lemma evolves_refl h : evolves h h.
Proof. intros i v E. destruct v as [|op [tl l] [tr r]|]; try done. exists l, r. split; [done|]. split; split; eauto. Qed.
Lemma evolves_trans h1 h2 h3 : evolves h1 h2 → evolves h2 h3 → evolves h1 h3.
Proof.
  intros A B i v E. pose proof (A i v E) as A1. destruct v as [f|op l r|cs]; try (by apply (B _ _ A1)).
  destruct A1 as (l' & r' & E1 & L & R). destruct (B _ _ E1) as (l'' & r'' & E2 & L2 & R2). exists l'', r''. split; [done|]. by split; eapply stands_trans.
Qed.
Lemma evolves_fresh h m v : h !! m = None → evolves h (<[m := v]> h).
Proof.
  intros Hm. assert (∀ i, is_Some (h !! i) → <[m := v]> h !! i = h !! i) as K. { intros i [w Hw]. apply lookup_insert_ne. intros ->. congruence. }
  assert (∀ i, stands h (<[m := v]> h) i i) as St.
  { intros i. split.
    - intros S HS. induction HS as [u f S E HS|u op l r A B S E HA IA HB IB HS|u cs G S E HG IG HS].
      + eapply occ_leaf; [rewrite K by done; exact E|done].
      + eapply occ_bool; [rewrite K by done; exact E|done|done|done].
      + eapply occ_multi; [rewrite K by done; exact E|exact IG|done].
    - intros k HS. exists k. split; [done|]. induction HS as [u w E N|u op l r a b E HA IA HB IB].
      + eapply uni_leaf; [rewrite K by done; exact E|done].
      + eapply uni_bool; [rewrite K by done; exact E|done|done]. }
  intros i w E. destruct w as [f|op [tl l] [tr r]|cs]; try (by rewrite K by (by eexists)). exists l, r. rewrite K by (by eexists). split; [done|]. split; apply St.
Qed.
(** Overwriting one operand by a volume that stands for it. *)
Lemma occupies_replace h u op l r l' r' : h !! u = Some (VBool op l r) → (∀ S, occupies h l.2 S → occupies h l' S) → (∀ S, occupies h r.2 S → occupies h r' S) →
  (∀ k, unions h l.2 k → ∃ k', (k' ≤ k)%nat ∧ unions h l' k') → (∀ k, unions h r.2 k → ∃ k', (k' ≤ k)%nat ∧ unions h r' k') →
  (∃ rk, ranked rk (<[u := VBool op (l.1, l') (r.1, r')]> h)) → evolves h (<[u := VBool op (l.1, l') (r.1, r')]> h).
Proof.
  intros E L R L2 R2 [rk Hrk]. set (h' := <[u := _]> h) in *.
  assert (∀ n i, (rk i < n)%nat → is_Some (h' !! i) → stands h h' i i) as K.
  { induction n as [|n IH]; intros i Hi Hd; [lia|].
    destruct (decide (i = u)) as [->|Hne].
    - assert (h' !! u = Some (VBool op (l.1, l') (r.1, r'))) as Eu by apply lookup_insert.
      destruct (Hrk u _ (l.1, l') Eu) as [Dl Kl]; [by left|]. destruct (Hrk u _ (r.1, r') Eu) as [Dr Kr]; [right; left|]. cbn [snd] in *.
      destruct (IH l' ltac:(lia) Dl) as [Sl Cl], (IH r' ltac:(lia) Dr) as [Sr Cr]. split.
      + intros S HS. inversion HS as [? ? ? E'|? op' l1 r1 A B ? E' HA HB HT|? ? ? ? E']; subst; rewrite E in E'; simplify_eq.
        eapply (occ_bool h' u _ (_, l') (_, r') A B); [exact Eu| | |done]; cbn; auto.
      + intros k HS. inversion HS as [? ? E' N'|? ? ? ? a b E' HA HB]; subst; rewrite E in E'; simplify_eq.
        destruct (L2 _ HA) as (a1 & ? & HA1), (R2 _ HB) as (b1 & ? & HB1). destruct (Cl _ HA1) as (a2 & ? & HA2), (Cr _ HB1) as (b2 & ? & HB2).
        eexists. split; [|eapply (uni_bool h' u _ (_, l') (_, r') a2 b2); done]. lia.
    - assert (h' !! i = h !! i) as Ei by (by apply lookup_insert_ne). split.
      + intros S HS. inversion HS as [? f ? E' HT|? op' l1 r1 A B ? E' HA HB HT|? cs G ? E' HG HT]; subst.
        * eapply occ_leaf; [by rewrite Ei|done].
        * destruct (Hrk i _ l1 (eq_trans Ei E')) as [Dl Kl]; [by left|]. destruct (Hrk i _ r1 (eq_trans Ei E')) as [Dr Kr]; [right; left|].
          eapply occ_bool; [by rewrite Ei|apply (IH l1.2); [lia|done|done]|apply (IH r1.2); [lia|done|done]|done].
        * eapply occ_multi; [by rewrite Ei| |done]. intros j c Hc. destruct (Hrk i _ c (eq_trans Ei E')) as [Dc Kc]; [by eapply elem_of_list_lookup_2|].
          apply (IH c.2); [lia|done|by apply HG].
      + intros k HS. inversion HS as [? v E' N'|? op' l1 r1 a b E' HA HB]; subst.
        * exists 0%nat. split; [done|]. eapply uni_leaf; [by rewrite Ei|done].
        * destruct (Hrk i _ l1 (eq_trans Ei E')) as [Dl Kl]; [by left|]. destruct (Hrk i _ r1 (eq_trans Ei E')) as [Dr Kr]; [right; left|].
          destruct (IH l1.2 ltac:(lia) Dl) as [_ Cl], (IH r1.2 ltac:(lia) Dr) as [_ Cr]. destruct (Cl _ HA) as (a1 & ? & HA1), (Cr _ HB) as (b1 & ? & HB1).
          eexists. split; [|eapply uni_bool; [by rewrite Ei|done|done]]. destruct op'; lia. }
  assert (∀ i, is_Some (h' !! i) → stands h h' i i) as St by (intros i Hd; apply (K (S (rk i))); [lia|done]).
  intros i v Ev. destruct (decide (i = u)) as [->|Hne].
  - rewrite E in Ev. simplify_eq. exists l', r'. assert (h' !! u = Some (VBool op (l.1, l') (r.1, r'))) as Eu by apply lookup_insert. split; [done|].
    destruct (Hrk u _ (l.1, l') Eu) as [Dl _]; [by left|]. destruct (Hrk u _ (r.1, r') Eu) as [Dr _]; [right; left|]. cbn [snd] in *.
    split; (eapply stands_trans; [|by apply St]); by split.
  - assert (h' !! i = h !! i) as Ei by (by apply lookup_insert_ne). destruct v as [f|op' [tl l1] [tr r1]|cs]; try (by rewrite Ei).
    exists l1, r1. split; [by rewrite Ei|]. destruct (Hrk i _ (tl, l1) (eq_trans Ei Ev)) as [Dl Kl]; [by left|]. destruct (Hrk i _ (tr, r1) (eq_trans Ei Ev)) as [Dr Kr]; [right; left|].
    by split; apply St.
Qed.

Lemma stands_refl h a : stands h h a a.
Proof. split; eauto. Qed.
(** Counting. *)
Lemma count_ok fuel : ∀ h u nu ni ns c, count_nodes fuel h u (nu, ni, ns) = Some c → ∃ k, unions h u k ∧ c.1.1 = (nu + k)%nat.
Proof.
  induction fuel as [|fuel IH]; intros h u nu ni ns c; [done|]. cbn [count_nodes]. destruct (h !! u) as [v|] eqn:E; [|done]. cbn [mbind option_bind].
  destruct (boolean_struct v) as [[[op l] r]|] eqn:B.
  - destruct v as [|op' l' r'|]; try done. injection B as -> -> ->.
    destruct (match op with kUnion => (S nu, ni, ns) | kIntersection => (nu, S ni, ns) | kSubtraction => (nu, ni, S ns) end) as [[nu1 ni1] ns1] eqn:C.
    destruct (count_nodes fuel h l.2 (nu1, ni1, ns1)) as [[[nu2 ni2] ns2]|] eqn:C1; [|done]. cbn [mbind option_bind]. intros C2.
    destruct (IH _ _ _ _ _ _ C1) as (a & Ha & Ea), (IH _ _ _ _ _ _ C2) as (b & Hb & Eb). cbn [fst] in Ea.
    eexists. split; [by eapply uni_bool|]. rewrite Eb, Ea. destruct op; injection C as <- <- <-; lia.
  - intros [= <-]. exists 0%nat. split; [by eapply uni_leaf|cbn; lia].
Qed.
Lemma count_total rk h : ranked rk h → ∀ fuel u c, is_Some (h !! u) → (rk u < fuel)%nat → is_Some (count_nodes fuel h u c).
Proof.
  intros Hr. induction fuel as [|fuel IH]; intros u [[nu ni] ns] [v E] Hf; [lia|]. cbn [count_nodes]. rewrite E. cbn [mbind option_bind].
  destruct (boolean_struct v) as [[[op l] r]|] eqn:B; [|by eexists]. destruct v as [|op' l' r'|]; try done. injection B as -> -> ->.
  destruct (Hr u _ l E) as [Dl Kl]; [by left|]. destruct (Hr u _ r E) as [Dr Kr]; [right; left|].
  match goal with |- context [count_nodes fuel h l.2 ?x] => destruct (IH l.2 x Dl ltac:(lia)) as [c2 ->] end. cbn [mbind option_bind]. apply IH; [done|lia].
Qed.

Definition good_children (cs : list child) : Prop := Forall (λ c, rigid c.1) cs.
Lemma rigid_one : rigid tr_one.
Proof. apply one_ok. Qed.
Lemma rigid_multiply a b : rigid a → rigid b → rigid (multiply a b).
Proof. intros [? ?] [? ?]. split; [by apply multiply_flags|by apply multiply_ortho]. Qed.
Lemma put_multiply a b S p : rigid a → rigid b → put (multiply a b) S p ↔ put a (put b S) p.
Proof. intros [? ?] [? ?]. unfold put. by rewrite multiply_transform. Qed.
Lemma put_one S p : put tr_one S p ↔ S p.
Proof. unfold put. replace (transform tr_one p) with p; [done|]. destruct p as [x y z]. unfold transform, transform_code; cbn. unfold rotate_general; cbn. f_equal; ring. Qed.

(** Every volume of an acyclic heap occupies a set. *)
Fixpoint set_of (n : nat) (h : heap) (u : N) (p : v3) : Prop :=
  match n with
  | 0 => False
  | S n =>
    match h !! u with
    | Some (VLeaf f) => f p = true
    | Some (VBool op l r) => combined op (put l.1 (set_of n h l.2)) (put r.1 (set_of n h r.2)) p
    | Some (VMulti cs) => ∃ j c, cs !! j = Some c ∧ put c.1 (set_of n h c.2) p
    | None => False
    end
  end.
Lemma occupies_total rk h : ranked rk h → ∀ n u, is_Some (h !! u) → (rk u < n)%nat → occupies h u (set_of n h u).
Proof.
  intros Hr. induction n as [|n IH]; intros u [v E] Hn; [lia|]. destruct v as [f|op l r|cs].
  - eapply occ_leaf; [exact E|]. intros p. cbn [set_of]. by rewrite E.
  - destruct (Hr u _ l E) as [Dl Kl]; [by left|]. destruct (Hr u _ r E) as [Dr Kr]; [right; left|].
    eapply occ_bool; [exact E|apply (IH l.2); [done|lia]|apply (IH r.2); [done|lia]|]. intros p. cbn [set_of]. by rewrite E.
  - eapply (occ_multi h u cs (λ j, match cs !! j with Some c => set_of n h c.2 | None => λ _, False end)); [exact E| |].
    + intros j c Hc. rewrite Hc. destruct (Hr u _ c E) as [Dc Kc]; [by eapply elem_of_list_lookup_2|]. apply IH; [done|lia].
    + intros p. cbn [set_of]. rewrite E. split; intros (j & c & Hc & Hp); exists j, c; (split; [done|]); rewrite Hc in *; done.
Qed.

(** What one call does. *)
Definition sets_of (h : heap) (cs : list child) (G : nat → v3 → Prop) : Prop := ∀ j c, cs !! j = Some c → occupies h c.2 (G j).
Definition some_of (cs : list child) (G : nat → v3 → Prop) (p : v3) : Prop := ∃ j c, cs !! j = Some c ∧ put c.1 (G j) p.
Record outcome (min : nat) (h : heap) (u : N) (base : option trans) (acc : option (list child)) (rk : N → nat) (h' : heap) (acc' : option (list child)) (ret : option N) (rk' : N → nat) : Prop := Outcome {
  o_rank : ranked rk' h';
  o_same : ∀ i, is_Some (h !! i) → rk' i = rk i;
  o_rigid : rigid_heap h';
  o_evolves : evolves h h';
  o_ret : ∀ m, ret = Some m → is_Some (h' !! m) ∧ rk' m = rk u ∧ boolean_struct <$> h' !! m = Some None ∧
    (∃ cs, h' !! m = Some (VMulti cs) ∧ ∀ c, c ∈ cs → flat min h' c.2) ∧
    ∀ S, occupies h u S → occupies h' m (put (default tr_one base) S);
  o_none : acc = None → acc' = None;
  o_acc : ∀ cs, acc = Some cs → ret = None ∧ ∃ new, acc' = Some (cs ++ new) ∧ good_children new ∧
    (∀ c, c ∈ new → is_Some (h' !! c.2) ∧ (rk' c.2 ≤ rk u)%nat ∧ flat min h' c.2) ∧
    ∀ S, occupies h u S → ∃ G, sets_of h' new G ∧ ∀ p, some_of new G p ↔ put (default tr_one base) S p
}.
Lemma evolves_dom h h' i : evolves h h' → is_Some (h !! i) → is_Some (h' !! i).
Proof. intros H [v E]. specialize (H i v E). destruct v; [by eexists|destruct H as (? & ? & ? & _); by eexists|by eexists]. Qed.
Lemma flat_evolves min h h' i : evolves h h' → flat min h i → flat min h' i.
Proof.
  intros H [(k & Hk & L)|(op & l & r & E & N)].
  - left. destruct (proj2 (evolves_stands _ _ i H) k Hk) as (k' & ? & ?). exists k'. split; [done|lia].
  - right. specialize (H i _ E). destruct H as (l' & r' & E' & _). by do 3 eexists.
Qed.
Lemma some_of_app a b Ga Gb p : some_of (a ++ b) (λ j, if (j <? length a)%nat then Ga j else Gb (j - length a)%nat) p ↔ some_of a Ga p ∨ some_of b Gb p.
Proof.
  unfold some_of. split.
  - intros (j & c & E & Hp). destruct (Nat.ltb_spec j (length a)) as [L|L].
    + left. rewrite lookup_app_l in E by lia. by exists j, c.
    + right. rewrite lookup_app_r in E by lia. by exists (j - length a)%nat, c.
  - intros [(j & c & E & Hp)|(j & c & E & Hp)].
    + exists j, c. pose proof (lookup_lt_Some _ _ _ E). split; [by apply lookup_app_l_Some|]. by rewrite (proj2 (Nat.ltb_lt _ _)).
    + exists (length a + j)%nat, c. split; [rewrite lookup_app_r by lia; by replace (length a + j - length a)%nat with j by lia|].
      rewrite (proj2 (Nat.ltb_ge _ _)) by lia. by replace (length a + j - length a)%nat with j by lia.
Qed.
Lemma sets_of_app h a b Ga Gb : sets_of h a Ga → sets_of h b Gb → sets_of h (a ++ b) (λ j, if (j <? length a)%nat then Ga j else Gb (j - length a)%nat).
Proof.
  intros A B j c E. destruct (Nat.ltb_spec j (length a)) as [L|L].
  - rewrite lookup_app_l in E by lia. by apply A.
  - rewrite lookup_app_r in E by lia. by apply B.
Qed.
(** Adding the volume itself. *)
Lemma add_outcome min h u base cs rk h' rk' t : base = Some t → rigid t → ranked rk' h' → (∀ i, is_Some (h !! i) → rk' i = rk i) → rigid_heap h' → evolves h h' →
  is_Some (h !! u) → flat min h' u → outcome min h u base (Some cs) rk h' (Some (add_node cs t u)) None rk'.
Proof.
  intros -> Ht R1 R2 R3 R4 Hu Hf. split; try done. intros ? [= <-]. split; [done|]. exists [(t, u)]. split; [done|]. split; [by constructor|]. split.
  - intros c ->%elem_of_list_singleton. split; [by eapply evolves_dom|]. cbn. rewrite R2 by done. done.
  - intros S HS. exists (λ _, S). split.
    + intros j c E. destruct j; [|done]. injection E as <-. by apply (evolves_stands _ _ u R4).
    + intros p. unfold some_of. cbn [default]. split.
      * intros (j & c & E & Hp). destruct j; [|done]. by injection E as <-.
      * intros Hp. by exists 0%nat, (t, u).
Qed.
Lemma replace_ok rk h u op l r l' r' : ranked rk h → rigid_heap h → h !! u = Some (VBool op l r) → is_Some (h !! l') → is_Some (h !! r') → (rk l' < rk u)%nat → (rk r' < rk u)%nat →
  stands h h l.2 l' → stands h h r.2 r' →
  let h' := <[u := VBool op (l.1, l') (r.1, r')]> h in ranked rk h' ∧ rigid_heap h' ∧ evolves h h'.
Proof.
  intros Hr Hg E Dl Dr Kl Kr [A1 A2] [B1 B2] h'.
  assert (ranked rk h') as Hr'.
  { intros i v c Ei Hc. assert (∀ j, is_Some (h !! j) → is_Some (h' !! j)) as Dm. { intros j [w Hw]. destruct (decide (j = u)) as [->|]; [unfold h'; rewrite lookup_insert; by eexists|]. unfold h'. rewrite lookup_insert_ne by done. by eexists. }
    destruct (decide (i = u)) as [->|Hne].
    - unfold h' in Ei. rewrite lookup_insert in Ei. injection Ei as <-. apply elem_of_cons in Hc as [->|Hc%elem_of_list_singleton]; [|subst c]; cbn; auto.
    - unfold h' in Ei. rewrite lookup_insert_ne in Ei by done. destruct (Hr i v c Ei Hc). auto. }
  split; [done|]. split.
  - intros i v c Ei Hc. destruct (decide (i = u)) as [->|Hne].
    + unfold h' in Ei. rewrite lookup_insert in Ei. injection Ei as <-. apply elem_of_cons in Hc as [->|Hc%elem_of_list_singleton]; [|subst c]; cbn; [apply (Hg u _ l E); by left|apply (Hg u _ r E); right; left].
    + unfold h' in Ei. rewrite lookup_insert_ne in Ei by done. by apply (Hg i v c).
  - eapply occupies_replace; try done. by exists rk.
Qed.
(** The two operands of a union give their components one after the other. *)
Lemma union_outcome min h u l r base (acc : list child) rk h1 m1 o1 rk1 r1 h2 m2 o2 rk2 : h !! u = Some (VBool kUnion l r) → ranked rk h → rigid_heap h → rigid base →
  outcome min h l.2 (Some (multiply base l.1)) (Some acc) rk h1 m1 o1 rk1 → stands h h1 r.2 r1 → rk1 r1 = rk1 r1 → (rk1 r1 < rk1 u)%nat → is_Some (h1 !! r1) →
  outcome min h1 r1 (Some (multiply base r.1)) m1 rk1 h2 m2 o2 rk2 →
  ranked rk2 h2 ∧ (∀ i, is_Some (h !! i) → rk2 i = rk i) ∧ rigid_heap h2 ∧ evolves h h2 ∧ ∃ new, m2 = Some (acc ++ new) ∧ good_children new ∧
    (∀ c, c ∈ new → is_Some (h2 !! c.2) ∧ (rk2 c.2 < rk u)%nat ∧ flat min h2 c.2) ∧
    ∀ S, occupies h u S → ∃ G, sets_of h2 new G ∧ ∀ p, some_of new G p ↔ put base S p.
Proof.
  intros E Hr Hg Hb O1 Hs _ Kr Dr O2. destruct (o_acc _ _ _ _ _ _ _ _ _ _ O1 acc eq_refl) as (_ & new1 & -> & G1 & C1 & S1).
  destruct (o_acc _ _ _ _ _ _ _ _ _ _ O2 _ eq_refl) as (_ & new2 & -> & G2 & C2 & S2).
  pose proof (o_evolves _ _ _ _ _ _ _ _ _ _ O1) as V1. pose proof (o_evolves _ _ _ _ _ _ _ _ _ _ O2) as V2.
  pose proof (o_same _ _ _ _ _ _ _ _ _ _ O1) as K1. pose proof (o_same _ _ _ _ _ _ _ _ _ _ O2) as K2.
  destruct (Hr u _ l E) as [Dl Kl]; [by left|]. destruct (Hr u _ r E) as [Dr0 Kr0]; [right; left|].
  split; [apply O2|]. split; [|split; [apply O2|split; [by eapply evolves_trans|]]].
  { intros i Hi. rewrite K2 by (by eapply evolves_dom). by apply K1. }
  exists (new1 ++ new2). split; [by rewrite app_assoc|]. split; [by apply Forall_app|]. split.
  - intros c [Hc|Hc]%elem_of_app.
    + destruct (C1 c Hc) as (Dc & Kc & Fc). split; [by eapply evolves_dom|]. rewrite K2 by done. split; [lia|by eapply flat_evolves].
    + destruct (C2 c Hc) as (Dc & Kc & Fc). split; [done|]. split; [|done]. assert (rk1 u = rk u) as Eu by (apply K1; by eexists). lia.
  - intros S HS. inversion HS as [? ? ? E'|? op' l1 r1' A B ? E' HA HB HT|? ? ? ? E']; subst; rewrite E in E'; simplify_eq.
    destruct (S1 A HA) as (Ga & SA & PA), (S2 B (proj1 Hs B HB)) as (Gb & SB & PB). eexists. split; [apply sets_of_app; [|exact SB]|].
    + intros j c Ec. apply (evolves_stands _ _ c.2 V2). by apply SA.
    + intros p. rewrite some_of_app, PA, PB. change (default tr_one (Some (multiply base l1.1))) with (multiply base l1.1). change (default tr_one (Some (multiply base r1'.1))) with (multiply base r1'.1). rewrite !put_multiply; [|done|apply (Hg u _ r1' E); right; left|done|apply (Hg u _ l1 E); by left].
      change (put base S p) with (S (transform base p)). rewrite HT. done.
Qed.
Lemma left_done min rk h u op l r h1 m1 lb rk1 l1 r1 : ranked rk h → h !! u = Some (VBool op l r) → outcome min h l.2 None None rk h1 m1 lb rk1 →
  h1 !! u = Some (VBool op (l.1, l1) (r.1, r1)) → stands h h1 l.2 l1 →
  ∃ h2 l2, (match lb with Some m => <[u:=VBool op (l.1, m) (r.1, r1)]> h1 | None => h1 end) = h2 ∧ h2 !! u = Some (VBool op (l.1, l2) (r.1, r1)) ∧ ranked rk1 h2 ∧ rigid_heap h2 ∧ evolves h1 h2.
Proof.
  intros Hr E O1 E1 Sl. destruct (Hr u _ l E) as [Dl Kl]; [by left|].
  pose proof (o_rank _ _ _ _ _ _ _ _ _ _ O1) as Hr1. pose proof (o_rigid _ _ _ _ _ _ _ _ _ _ O1) as Hg1. pose proof (o_same _ _ _ _ _ _ _ _ _ _ O1) as K1.
  destruct (Hr1 u _ (l.1, l1) E1) as [Dl1 Kl1]; [by left|]. destruct (Hr1 u _ (r.1, r1) E1) as [Dr1 Kr1]; [right; left|]. cbn [snd] in Dl1, Kl1, Dr1, Kr1.
  destruct lb as [m|]; [|exists h1, l1; split; [done|]; split; [done|]; split; [done|]; split; [done|apply evolves_refl]].
  destruct (o_ret _ _ _ _ _ _ _ _ _ _ O1 m eq_refl) as (Dm & Km & Bm & _ & Sm). exists (<[u:=VBool op (l.1, m) (r.1, r1)]> h1), m. split; [done|]. split; [apply lookup_insert|].
  destruct (replace_ok rk1 h1 u op (l.1, l1) (r.1, r1) m r1 Hr1 Hg1 E1 Dm Dr1) as (? & ? & ?); try done.
  - rewrite Km, (K1 u) by (by eexists). done.
  - split.
    + intros S HS. pose proof (occupies_total rk h Hr _ l.2 Dl (Nat.lt_succ_diag_r _)) as HA. set (A := set_of _ h l.2) in HA.
      eapply occupies_ext; [exact (Sm A HA)|]. intros p. change (default tr_one None) with tr_one. rewrite put_one. by apply (occupies_unique h1 l1 A S); [apply Sl|].
    + intros j Hj. exists 0%nat. split; [lia|]. destruct (h1 !! m) as [w|] eqn:Ew; [|done]. cbn in Bm. eapply uni_leaf; [done|]. by injection Bm.
  - apply stands_refl.
Qed.
Lemma flatten_ok min fuel : ∀ rk h u base acc h' acc' ret, flatten fuel min h u base acc = Some (h', acc', ret) → ranked rk h → rigid_heap h → is_Some (h !! u) →
  (∀ t, base = Some t → rigid t) → ∃ rk', outcome min h u base acc rk h' acc' ret rk'.
Proof.
  induction fuel as [|fuel IH]; intros rk h u base acc h' acc' ret F Hr Hg Hu Hb; [done|]. cbn [flatten] in F.
  destruct (count_nodes (S fuel) h u (0, 0, 0)%nat) as [[[nu ni] ns]|] eqn:C; [|done]. cbn [mbind option_bind] in F.
  destruct (count_ok _ _ _ _ _ _ _ C) as (k & Hk & Ek). cbn [fst] in Ek.
  destruct (Nat.ltb_spec nu min) as [L|L].
  - destruct acc as [cs|].
    + destruct base as [t|]; [|done]. injection F as <- <- <-. exists rk. eapply add_outcome; try done; [by apply Hb|apply evolves_refl|]. left. exists k. split; [done|lia].
    + injection F as <- <- <-. exists rk. split; try done. apply evolves_refl.
  - destruct (h !! u) as [v|] eqn:E; [|done]. cbn [mbind option_bind] in F. destruct v as [|op l r|]; try done. cbn [boolean_struct mbind option_bind] in F.
    destruct (Hr u _ l E) as [Dl Kl]; [by left|]. destruct (Hr u _ r E) as [Dr Kr]; [right; left|].
    assert (rigid l.1 ∧ rigid r.1) as [Hl Hrr]. { split; [apply (Hg u _ l E); by left|apply (Hg u _ r E); right; left]. }
    assert (rigid (default tr_one base)) as Hbase. { destruct base as [t|]; [by apply Hb|apply rigid_one]. }
    assert (op = kUnion ∨ op ≠ kUnion) as [-> | Hop] by (destruct op; auto).
    + cbn [is_union] in F. destruct (flatten fuel min h l.2 _ _) as [[[h1 m1] o1]|] eqn:F1; [|done]. cbn [mbind option_bind] in F.
      destruct (IH _ _ _ _ _ _ _ _ F1 Hr Hg Dl) as [rk1 O1]; [intros ? [= <-]; by apply rigid_multiply|].
      destruct (o_evolves _ _ _ _ _ _ _ _ _ _ O1 u _ E) as (l1 & r1 & E1 & Sl & Sr). rewrite E1 in F. cbn [mbind option_bind boolean_struct snd fst] in F.
      destruct (flatten fuel min h1 r1 _ _) as [[[h2 m2] o2]|] eqn:F2; [|done]. cbn [mbind option_bind] in F.
      pose proof (o_rank _ _ _ _ _ _ _ _ _ _ O1) as Hr1. pose proof (o_rigid _ _ _ _ _ _ _ _ _ _ O1) as Hg1.
      destruct (Hr1 u _ (r.1, r1) E1) as [Dr1 Kr1]; [right; left|]. cbn [snd] in Dr1, Kr1.
      destruct (IH _ _ _ _ _ _ _ _ F2 Hr1 Hg1 Dr1) as [rk2 O2]; [intros ? [= <-]; by apply rigid_multiply|].
      destruct (union_outcome min h u l r _ _ rk h1 m1 o1 rk1 r1 h2 m2 o2 rk2 E Hr Hg Hbase O1 Sr eq_refl Kr1 Dr1 O2) as (Hr2 & K2 & Hg2 & V2 & new & -> & Gn & Cn & Sn).
      destruct acc as [cs|].
      * injection F as <- <- <-. exists rk2. split; try done. intros ? [= <-]. split; [done|]. exists new. split; [done|]. split; [done|]. split; [|done].
        intros c Hc. destruct (Cn c Hc) as (? & ? & ?). split; [done|]. split; [lia|done].
      * cbn [mbind option_bind default app] in F. set (m := fresh (dom h2)) in F. injection F as <- <- <-.
        assert (h2 !! m = None) as Hm by (apply not_elem_of_dom; apply is_fresh).
        pose proof (evolves_fresh h2 m (VMulti new) Hm) as Vf. set (h3 := <[m := VMulti new]> h2) in *.
        assert (h3 !! m = Some (VMulti new)) as Em by apply lookup_insert.
        assert (∀ i, is_Some (h2 !! i) → i ≠ m) as Nm by (intros i [w Hw] ->; congruence).
        exists (λ i, if decide (i = m) then rk u else rk2 i). split; try done.
        -- intros i v c Ei Hc. destruct (decide (i = m)) as [->|Hi].
           ++ rewrite Em in Ei. injection Ei as <-. destruct (Cn c Hc) as (Dc & Kc & _). split; [by eapply evolves_dom|]. rewrite decide_False by (by apply Nm). done.
           ++ unfold h3 in Ei. rewrite lookup_insert_ne in Ei by done. destruct (Hr2 i v c Ei Hc) as [Dc Kc]. split; [by eapply evolves_dom|]. rewrite decide_False by (by apply Nm). done.
        -- intros i Hi. rewrite decide_False by (apply Nm; by eapply evolves_dom). by apply K2.
        -- intros i v c Ei Hc. destruct (decide (i = m)) as [->|Hi].
           ++ rewrite Em in Ei. injection Ei as <-. by eapply Forall_forall in Gn.
           ++ unfold h3 in Ei. rewrite lookup_insert_ne in Ei by done. by apply (Hg2 i v c).
        -- by eapply evolves_trans.
        -- intros ? [= <-]. split; [by rewrite Em|]. rewrite decide_True by done. split; [done|]. rewrite Em. split; [done|]. split.
           { exists new. split; [done|]. intros c Hc. eapply flat_evolves; [exact Vf|]. by apply Cn. }
           intros S HS. destruct (Sn S HS) as (G & SG & PG). eapply occ_multi; [exact Em| |intros p; symmetry; apply PG].
           intros j c Ec. apply (evolves_stands _ _ c.2 Vf). by apply SG.
    + replace (is_union op) with false in F by (by destruct op).
      destruct (flatten fuel min h l.2 None None) as [[[h1 m1] lb]|] eqn:F1; [|done]. cbn [mbind option_bind] in F.
      destruct (IH _ _ _ _ _ _ _ _ F1 Hr Hg Dl) as [rk1 O1]; [done|].
      destruct (o_evolves _ _ _ _ _ _ _ _ _ _ O1 u _ E) as (l1 & r1 & E1 & Sl & Sr). rewrite E1 in F. cbn [mbind option_bind boolean_struct snd fst] in F.
      pose proof (o_rank _ _ _ _ _ _ _ _ _ _ O1) as Hr1. pose proof (o_rigid _ _ _ _ _ _ _ _ _ _ O1) as Hg1. pose proof (o_same _ _ _ _ _ _ _ _ _ _ O1) as K1. pose proof (o_evolves _ _ _ _ _ _ _ _ _ _ O1) as V1.
      destruct (Hr1 u _ (l.1, l1) E1) as [Dl1 Kl1]; [by left|]. destruct (Hr1 u _ (r.1, r1) E1) as [Dr1 Kr1]; [right; left|]. cbn [snd] in Dl1, Kl1, Dr1, Kr1.
      destruct (left_done min rk h u op l r h1 m1 lb rk1 l1 r1 Hr E O1 E1 Sl) as (h2 & l2 & Eh2 & E2 & Hr2 & Hg2 & V2).
      rewrite Eh2 in F. cbn zeta in F. rewrite E2 in F. cbn [mbind option_bind boolean_struct snd fst] in F.
      destruct (flatten fuel min h2 r1 None None) as [[[h3 m3] rb]|] eqn:F3; [|done]. cbn [mbind option_bind] in F.
      destruct (Hr2 u _ (r.1, r1) E2) as [Dr2 Kr2]; [right; left|]. cbn [snd] in Dr2, Kr2.
      destruct (IH _ _ _ _ _ _ _ _ F3 Hr2 Hg2 Dr2) as [rk3 O3]; [done|].
      destruct (o_evolves _ _ _ _ _ _ _ _ _ _ O3 u _ E2) as (l3 & r3 & E3 & Sl3 & Sr3). rewrite E3 in F. cbn [mbind option_bind boolean_struct snd fst] in F.
      pose proof (o_rank _ _ _ _ _ _ _ _ _ _ O3) as Hr3. pose proof (o_rigid _ _ _ _ _ _ _ _ _ _ O3) as Hg3. pose proof (o_same _ _ _ _ _ _ _ _ _ _ O3) as K3. pose proof (o_evolves _ _ _ _ _ _ _ _ _ _ O3) as V3.
      destruct (Hr3 u _ (l.1, l3) E3) as [Dl3 Kl3]; [by left|]. destruct (Hr3 u _ (r.1, r3) E3) as [Dr3 Kr3]; [right; left|]. cbn [snd] in Dl3, Kl3, Dr3, Kr3.
      assert (∃ h4 r4, (match rb with Some m => <[u:=VBool op (l.1, l3) (r.1, m)]> h3 | None => h3 end) = h4 ∧ h4 !! u = Some (VBool op (l.1, l3) (r.1, r4)) ∧ ranked rk3 h4 ∧ rigid_heap h4 ∧ evolves h3 h4) as (h4 & r4 & Eh4 & E4 & Hr4 & Hg4 & V4).
      { destruct rb as [m|]; [|exists h3, r3; split; [done|]; split; [done|]; split; [done|]; split; [done|apply evolves_refl]].
        destruct (o_ret _ _ _ _ _ _ _ _ _ _ O3 m eq_refl) as (Dm & Km & Bm & _ & Sm). exists (<[u:=VBool op (l.1, l3) (r.1, m)]> h3), m. split; [done|]. split; [apply lookup_insert|].
        destruct (replace_ok rk3 h3 u op (l.1, l3) (r.1, r3) l3 m Hr3 Hg3 E3 Dl3 Dm) as (? & ? & ?); try done.
        - rewrite Km, (K3 u) by (by eexists). done.
        - apply stands_refl.
        - split.
          + intros S HS. pose proof (occupies_total rk1 h2 Hr2 _ r1 Dr2 (Nat.lt_succ_diag_r _)) as HA. set (A := set_of _ h2 r1) in HA.
            eapply occupies_ext; [exact (Sm A HA)|]. intros p. change (default tr_one None) with tr_one. rewrite put_one. by apply (occupies_unique h3 r3 A S); [apply Sr3|].
          + intros j Hj. exists 0%nat. split; [lia|]. destruct (h3 !! m) as [w|] eqn:Ew; [|done]. cbn in Bm. eapply uni_leaf; [done|]. by injection Bm. }
      rewrite Eh4 in F.
      assert (∀ i, is_Some (h !! i) → rk3 i = rk i) as Ks. { intros i Hi. rewrite K3, K1; [done|done|]. eapply evolves_dom; [exact V2|]. by eapply evolves_dom. }
      assert (evolves h h4) as V. { eapply evolves_trans; [exact V1|]. eapply evolves_trans; [exact V2|]. by eapply evolves_trans. }
      assert (flat min h4 u) as Fu by (right; by do 3 eexists).
      destruct acc as [cs|].
      * destruct base as [t|]; [|done]. injection F as <- <- <-. exists rk3. eapply add_outcome; try done; by apply Hb || by eexists.
      * injection F as <- <- <-. exists rk3. by split.
Qed.
Lemma flatten_total min fuel : (1 ≤ min)%nat → ∀ rk h u base acc, ranked rk h → rigid_heap h → is_Some (h !! u) → (∀ t, base = Some t → rigid t) → (rk u < fuel)%nat →
  (is_Some acc → is_Some base) → is_Some (flatten fuel min h u base acc).
Proof.
  intros Hmin. induction fuel as [|fuel IH]; intros rk h u base acc Hr Hg Hu Hb Hf Ha; [lia|]. cbn [flatten].
  destruct (count_total rk h Hr (S fuel) u (0, 0, 0)%nat Hu Hf) as [[[nu ni] ns] C]. rewrite C. cbn [mbind option_bind].
  destruct (count_ok _ _ _ _ _ _ _ C) as (k & Hk & Ek). cbn [fst] in Ek.
  destruct (Nat.ltb_spec nu min) as [L|L].
  - destruct acc as [cs|]; [|by eexists]. destruct Ha as [t ->]; by eexists.
  - destruct Hu as [v E]. rewrite E. cbn [mbind option_bind].
    destruct v as [f|op l r|cs0].
    1: { exfalso. inversion Hk as [|? ? ? ? ? ? E']; subst; [lia|congruence]. }
    2: { exfalso. inversion Hk as [|? ? ? ? ? ? E']; subst; [lia|congruence]. }
    cbn [boolean_struct mbind option_bind].
    destruct (Hr u _ l E) as [Dl Kl]; [by left|]. destruct (Hr u _ r E) as [Dr Kr]; [right; left|].
    assert (rigid l.1 ∧ rigid r.1) as [Hl Hrr]. { split; [apply (Hg u _ l E); by left|apply (Hg u _ r E); right; left]. }
    assert (rigid (default tr_one base)) as Hbase. { destruct base as [t|]; [by apply Hb|apply rigid_one]. }
    assert (op = kUnion ∨ op ≠ kUnion) as [-> | Hop] by (destruct op; auto).
    + cbn [is_union]. edestruct (IH rk h l.2 (Some (multiply (default tr_one base) l.1)) (Some (default [] acc)) Hr Hg Dl) as [[[h1 m1] o1] F1]; [intros ? [= <-]; by apply rigid_multiply|lia|by eexists|].
      rewrite F1. cbn [mbind option_bind]. destruct (flatten_ok _ _ _ _ _ _ _ _ _ _ F1 Hr Hg Dl) as [rk1 O1]; [intros ? [= <-]; by apply rigid_multiply|].
      destruct (o_evolves _ _ _ _ _ _ _ _ _ _ O1 u _ E) as (l1 & r1 & E1 & Sl & Sr). rewrite E1. cbn [mbind option_bind boolean_struct snd fst].
      pose proof (o_rank _ _ _ _ _ _ _ _ _ _ O1) as Hr1. pose proof (o_rigid _ _ _ _ _ _ _ _ _ _ O1) as Hg1. pose proof (o_same _ _ _ _ _ _ _ _ _ _ O1 u ltac:(by eexists)) as Ku.
      destruct (Hr1 u _ (r.1, r1) E1) as [Dr1 Kr1]; [right; left|]. cbn [snd] in Dr1, Kr1. destruct (o_acc _ _ _ _ _ _ _ _ _ _ O1 _ eq_refl) as (_ & new1 & -> & _).
      edestruct (IH rk1 h1 r1 (Some (multiply (default tr_one base) r.1)) (Some (default [] acc ++ new1)) Hr1 Hg1 Dr1) as [[[h2 m2] o2] F2]; [intros ? [= <-]; by apply rigid_multiply|lia|by eexists|].
      rewrite F2. cbn [mbind option_bind]. destruct acc; [by eexists|]. destruct (flatten_ok _ _ _ _ _ _ _ _ _ _ F2 Hr1 Hg1 Dr1) as [rk2 O2]; [intros ? [= <-]; by apply rigid_multiply|].
      destruct (o_acc _ _ _ _ _ _ _ _ _ _ O2 _ eq_refl) as (_ & new2 & -> & _). by eexists.
    + replace (is_union op) with false by (by destruct op).
      edestruct (IH rk h l.2 None None Hr Hg Dl) as [[[h1 m1] lb] F1]; [done|lia|by intros [? ?]|].
      rewrite F1. cbn [mbind option_bind]. destruct (flatten_ok _ _ _ _ _ _ _ _ _ _ F1 Hr Hg Dl) as [rk1 O1]; [done|].
      destruct (o_evolves _ _ _ _ _ _ _ _ _ _ O1 u _ E) as (l1 & r1 & E1 & Sl & Sr). rewrite E1. cbn [mbind option_bind boolean_struct snd fst].
      destruct (left_done min rk h u op l r h1 m1 lb rk1 l1 r1 Hr E O1 E1 Sl) as (h2 & l2 & Eh2 & E2 & Hr2 & Hg2 & V2).
      rewrite Eh2. cbn zeta. rewrite E2. cbn [mbind option_bind boolean_struct snd fst]. destruct (Hr2 u _ (r.1, r1) E2) as [Dr2 Kr2]; [right; left|]. cbn [snd] in Dr2, Kr2.
      pose proof (o_same _ _ _ _ _ _ _ _ _ _ O1 u ltac:(by eexists)) as Ku.
      edestruct (IH rk1 h2 r1 None None Hr2 Hg2 Dr2) as [[[h3 m3] rb] F3]; [done|lia|by intros [? ?]|].
      rewrite F3. cbn [mbind option_bind]. destruct (flatten_ok _ _ _ _ _ _ _ _ _ _ F3 Hr2 Hg2 Dr2) as [rk3 O3]; [done|].
      destruct (o_evolves _ _ _ _ _ _ _ _ _ _ O3 u _ E2) as (l3 & r3 & E3 & _). rewrite E3. cbn [mbind option_bind boolean_struct snd fst].
      destruct acc as [cs|]; [|by eexists]. destruct Ha as [t ->]; by eexists.
Qed.
(** Which calls return a new volume. *)
Lemma flatten_ret min fuel h u base acc h' acc' ret : flatten fuel min h u base acc = Some (h', acc', ret) →
  ∃ k, unions h u k ∧ (is_Some ret ↔ acc = None ∧ (min ≤ k)%nat ∧ ∃ l r, h !! u = Some (VBool kUnion l r)) ∧ ((k < min)%nat → h' = h).
Proof.
  destruct fuel as [|fuel]; [done|]. cbn [flatten]. destruct (count_nodes (S fuel) h u (0, 0, 0)%nat) as [[[nu ni] ns]|] eqn:C; [|done]. cbn [mbind option_bind].
  destruct (count_ok _ _ _ _ _ _ _ C) as (k & Hk & Ek). cbn [fst] in Ek. intros F. exists k. split; [done|]. destruct (Nat.ltb_spec nu min) as [L|L].
  - destruct acc as [cs|].
    + destruct base as [t|]; [|done]. injection F as <- <- <-. split; [|done]. split; [by intros [? ?]|by intros (? & _)].
    + injection F as <- <- <-. split; [|done]. split; [by intros [? ?]|]. intros (_ & ? & _). lia.
  - split; [|lia]. destruct (h !! u) as [v|] eqn:E; [|done]. cbn [mbind option_bind] in F. destruct v as [|op l r|]; try done. cbn [boolean_struct mbind option_bind] in F.
    destruct (is_union op) eqn:Eop.
    + destruct op; try done. destruct (flatten fuel min h l.2 _ _) as [[[h1 m1] o1]|]; [|done]. cbn [mbind option_bind] in F. destruct (h1 !! u) as [v1|]; [|done]. cbn [mbind option_bind] in F.
      destruct (boolean_struct v1) as [[[? ?] r1]|]; [|done]. cbn [mbind option_bind] in F. destruct (flatten fuel min h1 r1.2 _ _) as [[[h2 m2] o2]|]; [|done]. cbn [mbind option_bind] in F.
      destruct acc as [cs|]; [injection F as <- <- <-; split; [by intros [? ?]|by intros (? & _)]|]. destruct m2 as [cs2|]; [|done]. cbn [mbind option_bind] in F. injection F as <- <- <-.
      split; [|by eexists]. intros _. split; [done|]. split; [lia|by do 2 eexists].
    + destruct (flatten fuel min h l.2 _ _) as [[[h1 m1] lb]|]; [|done]. cbn [mbind option_bind] in F. destruct (h1 !! u) as [v1|]; [|done]. cbn [mbind option_bind] in F.
      destruct (boolean_struct v1) as [[[? l1] r1]|]; [|done]. cbn [mbind option_bind] in F. cbn zeta in F.
      match type of F with ?a ≫= _ = _ => destruct a as [v2|]; [|done] end. cbn [mbind option_bind] in F.
      destruct (boolean_struct v2) as [[[? l2] r2]|]; [|done]. cbn [mbind option_bind] in F.
      match type of F with ?a ≫= _ = _ => destruct a as [[[h3 m3] rb]|]; [|done] end. cbn [mbind option_bind] in F.
      match type of F with ?a ≫= _ = _ => destruct a as [v3|]; [|done] end. cbn [mbind option_bind] in F.
      destruct (boolean_struct v3) as [[[? l3] r3]|]; [|done]. cbn [mbind option_bind] in F.
      assert (ret = None) as ->. { destruct acc; [destruct base; [|done]|]; by injection F as _ _ <-. }
      split; [by intros [? ?]|]. intros (_ & _ & ? & ? & [= -> _ _]). done.
Qed.
