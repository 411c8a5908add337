(** Proofs about point location. *)
From stdpp Require Import list option.
From Coq Require Import NArith Lia.
From Verif Require Import LocateModel LocateSpec.

Section Proofs.
Context {pt : Type} (G : geom pt).
Implicit Types (p q : pt) (path ds : list N) (ok : N → Prop).

Lemma elem_of_rev (x : N) l : x ∈ rev l ↔ x ∈ l.
Proof. rewrite !elem_of_list_In. symmetry. apply in_rev. Qed.
Lemma chain_app ok v p ds w q ds' w' q' : chain G ok v p ds w q → chain G ok w q ds' w' q' → chain G ok v p (ds ++ ds') w' q'.
Proof. induction 1; [done|]. intros. cbn. constructor; auto. Qed.
Lemma chain_weaken ok ok' v p ds w q : (∀ d, d ∈ ds → ok' d) → chain G ok v p ds w q → chain G ok' v p ds w q.
Proof. intros H. induction 1; constructor; auto; [apply H; by left|]. apply IHchain. intros; apply H; by right. Qed.
Lemma chain_ok ok v p ds w q d : chain G ok v p ds w q → d ∈ ds → ok d.
Proof. induction 1; [by intros ?%elem_of_nil|]. intros [->|]%elem_of_cons; auto. Qed.
Lemma chain_height ok h v p ds w q : height G h → chain G ok v p ds w q → (h w + length ds ≤ h v)%nat.
Proof. intros Hh. induction 1 as [|v p d ds w q Hd]; cbn; [lia|]. specialize (Hh _ _ Hd). lia. Qed.
Lemma chain_height_in ok h v p ds w q d : height G h → chain G ok v p ds w q → d ∈ ds → (h d < h v)%nat.
Proof.
  intros Hh. induction 1 as [|v p d' ds w q Hd]; [by intros ?%elem_of_nil|]. intros [->|Hin]%elem_of_cons; [by apply Hh|].
  specialize (Hh _ _ Hd). apply IHchain in Hin. lia.
Qed.
Lemma chain_last ok v p ds w q path : chain G ok v p ds w q → head (rev ds ++ v :: path) = Some w.
Proof.
  intros H. revert path. induction H as [|v p d ds w q Hd Hok Hc H IH]; intros path; [done|]. cbn. rewrite <- app_assoc. apply IH.
Qed.
Lemma pcont_spec v p q : pcont G v p = Some q ↔ q = to_local G v p ∧ cont G v q = true.
Proof. unfold pcont. destruct (cont G v (to_local G v p)) eqn:E; split; [intros [= <-]|intros [-> _]|intros|intros [-> ?]]; auto; congruence. Qed.
Lemma pcont_None v p : pcont G v p = None ↔ cont G v (to_local G v p) = false.
Proof. unfold pcont. destruct (cont G v (to_local G v p)); done. Qed.

(** ** Level locators *)
Lemma first_cont_Some e ds p d q : first_cont G e ds p = Some (d, q) → d ∈ ds ∧ Some d ≠ e ∧ q = to_local G d p ∧ cont G d q = true.
Proof.
  induction ds as [|x r IH]; [done|]. cbn. case_bool_decide as He.
  - intros H. destruct (IH H) as (? & ?). split; [by right|done].
  - destruct (pcont G x p) as [y|] eqn:E.
    + intros [= <- <-]. apply pcont_spec in E. split; [by left|done].
    + intros H. destruct (IH H) as (? & ?). split; [by right|done].
Qed.
Lemma first_cont_None e ds p d : first_cont G e ds p = None → d ∈ ds → Some d ≠ e → cont G d (to_local G d p) = false.
Proof.
  induction ds as [|x r IH]; [by intros _ ?%elem_of_nil|]. cbn. case_bool_decide as He.
  - intros H [->|Hd]%elem_of_cons Hne; [done|]. by apply IH.
  - destruct (pcont G x p) as [y|] eqn:E; [done|]. intros H [->|Hd]%elem_of_cons Hne; [by apply pcont_None|by apply IH].
Qed.
Lemma simple_ok v : locator_ok G (simple_locator G) v.
Proof.
  split; [|split; [|split]]; cbn.
  - intros p ds q. destruct (first_cont G None (dau G v) p) as [[d q']|] eqn:E; [|done]. intros [= <- <-].
    apply first_cont_Some in E as (H1 & H2 & -> & H4). split; [done|]. exists d. repeat constructor; done.
  - intros p. destruct (first_cont G None (dau G v) p) as [[d q']|] eqn:E; [done|]. intros _ d Hd _. by eapply first_cont_None.
  - intros e p d q E. apply first_cont_Some in E. naive_solver.
  - intros e p E d Hd He. by eapply first_cont_None.
Qed.
Lemma abbox_Some inbox i e ds p d q : abbox_cont G inbox i e ds p = Some (d, q) → d ∈ ds ∧ Some d ≠ e ∧ q = to_local G d p ∧ cont G d q = true.
Proof.
  revert i. induction ds as [|x r IH]; intros i; [done|]. cbn. destruct (inbox i p && _) eqn:Eb.
  - destruct (pcont G x p) as [y|] eqn:E.
    + intros [= <- <-]. apply pcont_spec in E. apply andb_true_iff in Eb as [_ Eb]. rewrite negb_true_iff, bool_decide_eq_false in Eb.
      split; [by left|done].
    + intros H. destruct (IH _ H) as (? & ?). split; [by right|done].
  - intros H. destruct (IH _ H) as (? & ?). split; [by right|done].
Qed.
Lemma abbox_None inbox i e ds p k d : (∀ k d, ds !! k = Some d → cont G d (to_local G d p) = true → inbox (i + k)%nat p = true) →
  abbox_cont G inbox i e ds p = None → ds !! k = Some d → Some d ≠ e → cont G d (to_local G d p) = false.
Proof.
  revert i k. induction ds as [|x r IH]; intros i k Hb; [done|]. cbn. intros H Hk He.
  assert (∀ k d, r !! k = Some d → cont G d (to_local G d p) = true → inbox (S i + k)%nat p = true) as Hb'.
  { intros k' d' Hk' Hc. replace (S i + k')%nat with (i + S k')%nat by lia. by eapply Hb. }
  destruct (inbox i p && _) eqn:Eb.
  - destruct (pcont G x p) as [y|] eqn:E; [done|]. destruct k as [|k]; cbn in Hk.
    + injection Hk as ->. by apply pcont_None.
    + by eapply (IH (S i) k).
  - destruct k as [|k]; cbn in Hk; [|by eapply (IH (S i) k)]. injection Hk as ->.
    destruct (cont G d (to_local G d p)) eqn:Ec; [|done]. apply (Hb 0%nat d) in Ec; [|done]. rewrite Nat.add_0_r in Ec. rewrite Ec in Eb. cbn in Eb.
    rewrite bool_decide_false in Eb; done.
Qed.
Lemma abbox_ok inbox v : (∀ p k d, dau G v !! k = Some d → cont G d (to_local G d p) = true → inbox v k p = true) → locator_ok G (abbox_locator G inbox) v.
Proof.
  intros Hb. split; [|split; [|split]]; cbn.
  - intros p ds q. destruct (abbox_cont _ _ _ _ _ _) as [[d q']|] eqn:E; [|done]. intros [= <- <-].
    apply abbox_Some in E as (H1 & H2 & -> & H4). split; [done|]. exists d. repeat constructor; done.
  - intros p. destruct (abbox_cont _ _ _ _ _ _) as [[d q']|] eqn:E; [done|]. intros _ d Hd _. apply elem_of_list_lookup in Hd as [k Hk].
    eapply (abbox_None (inbox v) 0 None (dau G v) p k); [|done..]. intros. by eapply Hb.
  - intros e p d q E. apply abbox_Some in E. naive_solver.
  - intros e p E d Hd He. apply elem_of_list_lookup in Hd as [k Hk].
    eapply (abbox_None (inbox v) 0 e (dau G v) p k); [|done..]. intros. by eapply Hb.
Qed.
Lemma asm_state_ok bbox h fuel v : height G h → assemblies G bbox → (h v < fuel)%nat →
  (∀ p ds q, asm_state G bbox fuel v p = Some (ds, q) → ds ≠ [] ∧ ∃ w, chain G any v p ds w q) ∧
  (∀ p, asm_state G bbox fuel v p = None → deepest G any v p).
Proof.
  intros Hh Ha. revert v. induction fuel as [|f IH]; intros v Hf; [lia|]. cbn [asm_state].
  assert (∀ ds p, (∀ d, d ∈ ds → d ∈ dau G v) →
    (∀ l q, asm_loop G bbox (asm_state G bbox f) ds p = Some (l, q) → l ≠ [] ∧ ∃ w, chain G any v p l w q) ∧
    (asm_loop G bbox (asm_state G bbox f) ds p = None → ∀ d, d ∈ ds → cont G d (to_local G d p) = false)) as L.
  { induction ds as [|d r IHr]; intros p Hds; [split; [done|by intros _ ? ?%elem_of_nil]|].
    destruct (IHr p) as [R1 R2]; [intros; apply Hds; by right|]. assert (d ∈ dau G v) as Hd by (apply Hds; by left).
    cbn [asm_loop]. destruct (asm G d) eqn:Ea.
    - destruct (IH d) as [I1 I2]; [specialize (Hh _ _ Hd); lia|].
      destruct (bbox d (to_local G d p)) eqn:Eb; [destruct (asm_state G bbox f d (to_local G d p)) as [[l q']|] eqn:Es|].
      + split; [|done]. intros l0 q [= <- <-]. destruct (I1 _ _ _ Es) as (Hl & w & Hc). split; [done|]. exists w. constructor; [done|done| |done].
        apply Ha; [done|]. split; [done|]. inversion Hc as [|? ? d' ? ? ? Hd' _ Hc']; subst; [done|]. eauto.
      + split; [done|]. intros Hn d' [->|Hd']%elem_of_cons; [|by apply R2]. destruct (cont G d (to_local G d p)) eqn:Ec; [|done].
        apply Ha in Ec as (_ & d2 & H2 & H3); [|done]. rewrite (I2 _ Es d2 H2) in H3; done.
      + split; [done|]. intros Hn d' [->|Hd']%elem_of_cons; [|by apply R2]. destruct (cont G d (to_local G d p)) eqn:Ec; [|done].
        apply Ha in Ec as (Ec & _); [congruence|done].
    - destruct (pcont G d p) as [q'|] eqn:E.
      + split; [|done]. intros l q [= <- <-]. apply pcont_spec in E as [-> E]. split; [done|]. exists d. repeat constructor; done.
      + split; [done|]. intros Hn d' [->|Hd']%elem_of_cons; [by apply pcont_None|by apply R2]. }
  split; [intros p ds q; by apply L|]. intros p Hn d Hd _. by apply (proj2 (L (dau G v) p ltac:(done)) Hn).
Qed.
Lemma asm_ok bbox h fuel v : height G h → assemblies G bbox → (h v < fuel)%nat → locator_ok G (asm_locator G bbox fuel) v.
Proof.
  intros Hh Ha Hf. destruct (asm_state_ok bbox h fuel v Hh Ha Hf) as [H1 H2]. split; [done|]. split; [done|].
  destruct (simple_ok v) as (_ & _ & H3 & H4). done.
Qed.

(** ** Going down *)
Lemma located_here ok v p path : deepest G ok v p → located G ok v p path (v :: path).
Proof. intros H. exists [], v, p. split; [done|]. split; [constructor|done]. Qed.
Lemma located_step ok v p ds w q path path' : chain G ok v p ds w q → located G ok w q (tail (rev ds ++ v :: path)) path' → located G ok v p path path'.
Proof.
  intros Hc (ds' & w' & q' & -> & Hc' & Hd). exists (ds ++ ds'), w', q'. split; [|split; [by eapply chain_app|done]].
  pose proof (chain_last _ _ _ _ _ _ path Hc) as Hl. rewrite rev_app_distr, <- app_assoc. f_equal.
  destruct (rev ds ++ v :: path) as [|x l]; [done|]. injection Hl as ->. done.
Qed.
Lemma deepest_nil ok v p : dau G v = [] → deepest G ok v p.
Proof. intros H d Hd. rewrite H in Hd. by apply elem_of_nil in Hd. Qed.
Lemma down_ok h fuel v p path : height G h → locators_ok G → all_locators G → (h v < fuel)%nat →
  ∃ path', down G fuel v p (v :: path) = Some path' ∧ located G any v p path path'.
Proof.
  intros Hh Hl Ha. revert v p path. induction fuel as [|f IH]; intros v p path Hf; [lia|]. cbn [down].
  destruct (dau G v) as [|d0 r0] eqn:Ed.
  - eexists. split; [done|]. by apply located_here, deepest_nil.
  - destruct (Ha v) as [L EL]; [by rewrite Ed|]. rewrite EL. destruct (Hl v L EL) as (H1 & H2 & _).
    destruct (l_state L v p) as [[ds q]|] eqn:Es.
    + destruct (H1 _ _ _ Es) as (Hne & w & Hc). rewrite (chain_last _ _ _ _ _ _ path Hc). cbn [mbind option_bind].
      pose proof (chain_height _ h _ _ _ _ _ Hh Hc) as Hlt. assert (1 ≤ length ds)%nat by (destruct ds; [done|cbn; lia]).
      destruct (IH w q (tail (rev ds ++ v :: path))) as (path' & E & HL); [lia|].
      assert (w :: tail (rev ds ++ v :: path) = rev ds ++ v :: path) as Eq.
      { pose proof (chain_last _ _ _ _ _ _ path Hc) as Hla. destruct (rev ds ++ v :: path); [done|]. by injection Hla as ->. }
      rewrite Eq in E. exists path'. split; [done|]. by eapply located_step.
    + eexists. split; [done|]. apply located_here. by apply H2.
Qed.
Lemma down_excl_ok h fuel e lv v p path : height G h → locators_ok G → (h v < fuel)%nat → (lv = v ∨ loc G lv = None) →
  ∃ w q ds, down_excl G fuel e lv (dau G v) v p (v :: path) = Some (w, rev ds ++ v :: path) ∧
    chain G (not_excl e) v p ds w q ∧ deepest G (not_excl e) w q.
Proof.
  intros Hh Hl. revert lv v p path. induction fuel as [|f IH]; intros lv v p path Hf Hlv; [lia|]. cbn [down_excl].
  destruct (dau G v) as [|d0 r0] eqn:Ed.
  - exists v, p, []. split; [done|]. split; [constructor|by apply deepest_nil].
  - rewrite <- Ed.
    assert (∀ d q lv', d ∈ dau G v → Some d ≠ e → q = to_local G d p → cont G d q = true → (lv' = d ∨ loc G lv' = None) →
      ∃ w q' ds, down_excl G f e lv' (dau G d) d q (d :: v :: path) = Some (w, rev ds ++ v :: path) ∧
      chain G (not_excl e) v p ds w q' ∧ deepest G (not_excl e) w q') as Step.
    { intros d q lv' Hd He -> Hc Hlv'. destruct (IH lv' d (to_local G d p) (v :: path)) as (w & q' & ds & E & H1 & H2); [specialize (Hh _ _ Hd); lia|done|].
      exists w, q', (d :: ds). split; [cbn; by rewrite <- app_assoc|]. split; [by constructor|done]. }
    destruct (loc G lv) as [L|] eqn:EL.
    + destruct Hlv as [-> |]; [|done]. destruct (Hl v L EL) as (_ & _ & H3 & H4).
      destruct (l_excl L v e p) as [[d q]|] eqn:Es.
      * destruct (H3 _ _ _ _ Es) as (? & ? & ? & ?). apply Step; auto.
      * exists v, p, []. split; [done|]. split; [constructor|by apply H4].
    + destruct (first_cont G e (dau G v) p) as [[d q]|] eqn:Es.
      * apply first_cont_Some in Es as (? & ? & ? & ?). apply Step; auto.
      * exists v, p, []. split; [done|]. split; [constructor|]. intros d Hd He. by eapply first_cont_None.
Qed.
Lemma down_bvh_ok h fuel v p path : height G h → locators_ok G → all_locators G → (h v < fuel)%nat →
  ∃ path', down_bvh G fuel None v p (v :: path) = Some path' ∧ located G any v p path path'.
Proof.
  intros Hh Hl Ha. revert v p path. induction fuel as [|f IH]; intros v p path Hf; [lia|]. cbn [down_bvh].
  destruct (dau G v) as [|d0 r0] eqn:Ed.
  - eexists. split; [done|]. by apply located_here, deepest_nil.
  - destruct (Ha v) as [L EL]; [by rewrite Ed|]. rewrite EL. cbn [mbind option_bind]. destruct (Hl v L EL) as (_ & _ & H3 & H4).
    destruct (l_excl L v None p) as [[d q]|] eqn:Es.
    + destruct (H3 _ _ _ _ Es) as (Hd & _ & -> & Hc). destruct (IH d (to_local G d p) (v :: path)) as (path' & E & HL); [specialize (Hh _ _ Hd); lia|].
      exists path'. split; [done|]. eapply (located_step _ _ _ [d] d); [by repeat constructor|done].
    + eexists. split; [done|]. apply located_here. intros d Hd _. by apply (H4 _ _ Es).
Qed.
Lemma down_bvh_first h fuel e v p path : height G h → locators_ok G → all_locators G → (h v < fuel)%nat →
  ∃ path', down_bvh G fuel e v p (v :: path) = Some path' ∧
    ((path' = v :: path ∧ deepest G (not_excl e) v p) ∨
     ∃ d, d ∈ dau G v ∧ Some d ≠ e ∧ cont G d (to_local G d p) = true ∧ located G any d (to_local G d p) (v :: path) path').
Proof.
  intros Hh Hl Ha Hf. destruct fuel as [|f]; [lia|]. cbn [down_bvh]. destruct (dau G v) as [|d0 r0] eqn:Ed.
  - eexists. split; [done|]. left. split; [done|by apply deepest_nil].
  - destruct (Ha v) as [L EL]; [by rewrite Ed|]. rewrite EL. cbn [mbind option_bind]. destruct (Hl v L EL) as (_ & _ & H3 & H4).
    destruct (l_excl L v e p) as [[d q]|] eqn:Es.
    + destruct (H3 _ _ _ _ Es) as (Hd & He & -> & Hc). destruct (down_bvh_ok h f d (to_local G d p) (v :: path) Hh Hl Ha) as (path' & E & HL); [specialize (Hh _ _ Hd); lia|].
      exists path'. split; [done|]. right. exists d. rewrite <- Ed. done.
    + eexists. split; [done|]. left. split; [done|]. by apply H4.
Qed.
Lemma down_bvh_excl_ok h fuel e v p path : height G h → locators_ok G → all_locators G → (h v < fuel)%nat →
  ∃ w q ds, down_bvh_excl G fuel e v p (v :: path) = Some (w, rev ds ++ v :: path) ∧
    chain G (not_excl e) v p ds w q ∧ deepest G (not_excl e) w q.
Proof.
  intros Hh Hl Ha. revert v p path. induction fuel as [|f IH]; intros v p path Hf; [lia|]. cbn [down_bvh_excl].
  destruct (dau G v) as [|d0 r0] eqn:Ed.
  - exists v, p, []. split; [done|]. split; [constructor|by apply deepest_nil].
  - destruct (Ha v) as [L EL]; [by rewrite Ed|]. rewrite EL. cbn [mbind option_bind]. destruct (Hl v L EL) as (_ & _ & H3 & H4).
    destruct (l_excl L v e p) as [[d q]|] eqn:Es.
    + destruct (H3 _ _ _ _ Es) as (Hd & He & -> & Hc). destruct (IH d (to_local G d p) (v :: path)) as (w & q' & ds & E & H1 & H2); [specialize (Hh _ _ Hd); lia|].
      exists w, q', (d :: ds). split; [cbn; by rewrite <- app_assoc|]. split; [by constructor|done].
    + exists v, p, []. split; [done|]. split; [constructor|by apply H4].
Qed.

(** ** Uniqueness and relocation *)
Lemma chain_unique ok v p ds w q ds' w' q' : sane G → chain G ok v p ds w q → deepest G ok w q → chain G ok v p ds' w' q' → deepest G ok w' q' →
  ds = ds' ∧ w = w' ∧ q = q'.
Proof.
  intros Hs H. revert ds'. induction H as [v p|v p d ds w q Hd Hok Hc H IH]; intros ds' Hdeep H' Hdeep'.
  - inversion H' as [|? ? d' ? ? ? Hd' Hok' Hc' H2]; subst; [done|]. rewrite (Hdeep d' Hd' Hok') in Hc'. done.
  - inversion H' as [|? ? d' ds2 ? ? Hd' Hok' Hc' H2]; subst.
    + rewrite (Hdeep' d Hd Hok) in Hc. done.
    + assert (d' = d) as -> by (destruct Hs as (_ & Hs & _); by eapply Hs). destruct (IH _ Hdeep H2 Hdeep') as (-> & -> & ->). done.
Qed.
Lemma local_cons v m r g : local G (v :: m :: r) g = to_local G v (local G (m :: r) g).
Proof. done. Qed.
Lemma nested_suffix world a b : b ≠ [] → nested G world (a ++ b) → nested G world b.
Proof.
  intros Hb. induction a as [|x a IH]; [done|]. cbn [app nested]. destruct (a ++ b) as [|m r] eqn:E; [destruct a; done|]. intros [_ H]. by apply IH.
Qed.
Lemma nested_chain world v r g : sane G → nested G world (v :: r) → cont G v (local G (v :: r) g) = true →
  ∃ ds, chain G any world g ds v (local G (v :: r) g) ∧ v :: r = rev ds ++ [world] ∧ cont G world g = true.
Proof.
  intros Hs. revert v. induction r as [|m r IH]; intros v Hn Hc.
  - cbn in Hn. subst v. exists []. cbn. split; [constructor|]. done.
  - cbn [nested] in Hn. destruct Hn as [Hd Hn]. rewrite local_cons in Hc. pose proof Hs as (_ & _ & Hin).
    destruct (IH m Hn (Hin _ _ _ Hd Hc)) as (ds & H1 & H2 & H3). exists (ds ++ [v]). split.
    + rewrite local_cons. eapply chain_app; [done|]. repeat constructor; done.
    + split; [|done]. rewrite rev_app_distr. cbn. by rewrite <- H2.
Qed.
Lemma up_spec stop world path g : sane G → nested G world path →
  (∃ a v r, path = a ++ v :: r ∧ up G stop path (local G path g) = (v :: r, local G (v :: r) g) ∧ stop v (local G (v :: r) g) = true ∧
     ∀ a1 x a2, a = a1 ++ x :: a2 → stop x (local G (x :: a2 ++ v :: r) g) = false) ∨
  ((∃ q, up G stop path (local G path g) = ([], q)) ∧ ∀ a x r, path = a ++ x :: r → stop x (local G (x :: r) g) = false).
Proof.
  intros Hs. induction path as [|v r IH]; intros Hn; [done|]. cbn [up]. destruct (stop v (local G (v :: r) g)) eqn:E.
  - left. exists [], v, r. split_and!; try done. intros a1 x a2 Ha. by destruct a1.
  - destruct r as [|m r].
    + right. split; [by eexists|]. intros a x r Hp. destruct a as [|? a]; [by injection Hp as <- <-|]. injection Hp as _ Hp. by destruct a.
    + cbn [nested] in Hn. destruct Hn as [Hd Hn]. rewrite local_cons. destruct Hs as (Hrt & _). rewrite Hrt.
      destruct (IH Hn) as [(a & v' & r' & H1 & H2 & H3 & H4)|[H1 H2]].
      * left. exists (v :: a), v', r'. split; [cbn; by rewrite H1|]. split; [done|]. split; [done|].
        intros a1 x a2 Ha. destruct a1 as [|? a1]; [|injection Ha as _ Ha; by eapply H4]. injection Ha as -> ->. rewrite <- H1. done.
      * right. split; [done|]. intros a x r' Hp. destruct a as [|? a]; [by injection Hp as <- <-|]. injection Hp as _ Hp. by eapply H2.
Qed.
(** without any assumption on the geometry *)
Lemma up_general stop path p : ∃ a, (∃ v r q, path = a ++ v :: r ∧ up G stop path p = (v :: r, q) ∧ stop v q = true ∧ q = foldl (λ q x, to_mother G x q) p a) ∨
  (∃ q, path = a ∧ up G stop path p = ([], q)).
Proof.
  revert p. induction path as [|v r IH]; intros p; [exists []; right; by eexists|]. cbn [up]. destruct (stop v p) eqn:E.
  - exists []. left. exists v, r, p. done.
  - destruct (IH (to_mother G v p)) as (a & [(v' & r' & q & -> & H2 & H3 & H4)|(q & -> & H2)]).
    + exists (v :: a). left. exists v', r', q. done.
    + exists (v :: a). right. exists q. done.
Qed.
Lemma last_nested world path : nested G world path → ∃ a, path = a ++ [world].
Proof.
  induction path as [|v r IH]; [done|]. cbn [nested]. destruct r as [|m r]; [intros ->; by exists []|]. intros [_ H]. destruct (IH H) as [a ->]. by exists (v :: a).
Qed.
Lemma nested_height h world path a v r : height G h → nested G world path → path = a ++ v :: r → ∀ x, x ∈ r → (h v < h x)%nat.
Proof.
  intros Hh Hn ->. assert (nested G world (v :: r)) as H by (by eapply nested_suffix). clear Hn. revert v H.
  induction r as [|m r IH]; intros v H x; [by intros ?%elem_of_nil|]. cbn [nested] in H. destruct H as [Hd H].
  specialize (Hh _ _ Hd) as Hlt. intros [->|Hx]%elem_of_cons; [done|]. specialize (IH m H x Hx). lia.
Qed.
Theorem relocate_ok h fuel world path g : height G h → locators_ok G → all_locators G → sane G → asm G world = false →
  nested G world path → (h world < fuel)%nat →
  relocate G fuel (local G path g) path = locate_global G fuel world g [] true.
Proof.
  intros Hh Hl Ha Hs Hw Hn Hf. unfold relocate.
  destruct (up_spec (λ v q, negb (asm G v || negb (cont G v q))) world path g Hs Hn) as [(a & v & r & Hp & Hu & Hstop & _)|[(q & Hu) Hno]].
  - rewrite Hu. rewrite negb_true_iff, orb_false_iff, negb_false_iff in Hstop. destruct Hstop as [_ Hc].
    assert (nested G world (v :: r)) as Hn' by (eapply nested_suffix; [|by rewrite <- Hp]; done).
    destruct (nested_chain world v r g Hs Hn' Hc) as (ds & H1 & H2 & H3).
    unfold locate_global. cbn [andb]. rewrite H3. cbn [negb].
    assert (h v ≤ h world)%nat by (pose proof (chain_height _ h _ _ _ _ _ Hh H1); lia).
    destruct (down_ok h fuel v (local G (v :: r) g) r Hh Hl Ha) as (path1 & -> & ds1 & w1 & q1 & -> & C1 & D1); [lia|].
    destruct (down_ok h fuel world g [] Hh Hl Ha Hf) as (path2 & -> & ds2 & w2 & q2 & -> & C2 & D2). cbn [mbind option_bind].
    assert (ds2 = ds ++ ds1) as ->. { eapply chain_unique; [done|exact C2|done|by eapply chain_app|done]. }
    rewrite H2, rev_app_distr, <- app_assoc. done.
  - rewrite Hu. unfold locate_global. destruct (last_nested world path Hn) as [a Hp]. specialize (Hno a world [] Hp).
    rewrite Hw in Hno. cbn in Hno. rewrite negb_involutive in Hno. rewrite Hno. done.
Qed.
Theorem relocate_different_ok h fuel world path g path2 r2 entry rest : height G h → locators_ok G → all_locators G → sane G → asm G world = false →
  path = entry :: rest → nested G world path → (h world < fuel)%nat →
  locate_global G fuel world g [] true = Some (r2, path2) → entry ∉ path2 →
  relocate_different G fuel (local G path g) path = Some (r2, path2).
Proof.
  intros Hh Hl Ha Hs Hw Hpath Hn Hf Hloc Hent. unfold relocate_different. assert (head path = Some entry) as Hhd by (by rewrite Hpath). rewrite Hhd.
  destruct (up_spec (λ v q, negb (bool_decide (Some v = Some entry) || asm G v || negb (cont G v q))) world path g Hs Hn) as [(a & v & r & Hp & Hu & Hstop & _)|[(q & Hu) Hno]].
  - rewrite Hu. rewrite negb_true_iff, !orb_false_iff, negb_false_iff, bool_decide_eq_false in Hstop. destruct Hstop as [[Hne _] Hc].
    assert (nested G world (v :: r)) as Hn' by (eapply nested_suffix; [|by rewrite <- Hp]; done).
    destruct (nested_chain world v r g Hs Hn' Hc) as (ds & H1 & H2 & H3).
    unfold locate_global in Hloc. cbn [andb] in Hloc. rewrite H3 in Hloc. cbn [negb] in Hloc.
    assert (h v ≤ h world)%nat by (pose proof (chain_height _ h _ _ _ _ _ Hh H1); lia).
    destruct (down_ok h fuel world g [] Hh Hl Ha Hf) as (path3 & E3 & ds2 & w2 & q2 & -> & C2 & D2). rewrite E3 in Hloc. cbn [mbind option_bind] in Hloc.
    injection Hloc as <- <-.
    unfold locate_global_excl. cbn [andb].
    destruct (down_excl_ok h fuel (Some entry) v v (local G (v :: r) g) r Hh Hl) as (w1 & q1 & ds1 & -> & C1 & D1); [lia|by left|]. cbn [mbind option_bind].
    assert (∀ x, x ∈ rev ds2 ++ [world] → x ≠ entry) as Hx by (intros x Hx ->; done).
    assert (∀ x, x ∈ v :: r → x ≠ entry) as Hx'.
    { intros x Hx' ->. apply elem_of_cons in Hx' as [->|Hx']; [done|]. destruct a as [|y a].
      - cbn in Hp. rewrite Hpath in Hp. injection Hp as -> ->. done.
      - rewrite Hpath in Hp. injection Hp as -> Hp. pose proof (nested_height h world path [] y rest Hh Hn Hpath y) as K. rewrite Hp in K.
        assert (h y < h y)%nat by (apply K; apply elem_of_app; right; by right). lia. }
    assert (ds2 = ds ++ ds1 ∧ w2 = w1 ∧ q2 = q1) as (-> & -> & ->).
    { apply (chain_unique (not_excl (Some entry)) world g _ _ _ _ _ _ Hs).
      - eapply chain_weaken; [|exact C2]. intros x Hin [= ->]. apply (Hx entry); [|done]. apply elem_of_app. left. by apply elem_of_rev.
      - intros d Hd _. by apply D2.
      - eapply chain_app; [|exact C1]. eapply chain_weaken; [|exact H1]. intros x Hin [= ->]. apply (Hx' entry); [|done]. rewrite H2. apply elem_of_app. left. by apply elem_of_rev.
      - done. }
    rewrite H2, rev_app_distr, <- app_assoc. rewrite H2 in *. pose proof (chain_last _ _ _ _ _ _ r C1) as HL. rewrite H2 in HL. rewrite HL. done.
  - rewrite Hu. unfold locate_global in Hloc. destruct (last_nested world path Hn) as [a Hp]. specialize (Hno a world [] Hp).
    rewrite Hw, orb_false_r, negb_false_iff, orb_true_iff, bool_decide_eq_true, negb_true_iff in Hno. cbn [local] in Hno.
    destruct Hno as [[= ->]|Hno]; [|rewrite Hno in Hloc; by injection Hloc as <- <-].
    destruct (cont G entry g) eqn:Ec; [|by injection Hloc as <- <-]. cbn [negb andb] in Hloc.
    destruct (down_ok h fuel entry g [] Hh Hl Ha Hf) as (path3 & E3 & ds2 & w2 & q2 & -> & C2 & D2). rewrite E3 in Hloc. cbn in Hloc. injection Hloc as <- <-.
    exfalso. apply Hent. apply elem_of_app. right. by left.
Qed.
Lemma down_sound h fuel v p path : height G h → locators_ok G → (h v < fuel)%nat →
  ∃ ds w q, down G fuel v p (v :: path) = Some (rev ds ++ v :: path) ∧ chain G any v p ds w q.
Proof.
  intros Hh Hl. revert v p path. induction fuel as [|f IH]; intros v p path Hf; [lia|]. cbn [down].
  destruct (dau G v) as [|d0 r0] eqn:Ed; [exists [], v, p; split; [done|constructor]|]. rewrite <- Ed.
  destruct (loc G v) as [L|] eqn:EL.
  - destruct (Hl v L EL) as (H1 & _). destruct (l_state L v p) as [[ds q]|] eqn:Es; [|exists [], v, p; split; [done|constructor]].
    destruct (H1 _ _ _ Es) as (Hne & w & Hc). rewrite (chain_last _ _ _ _ _ _ path Hc). cbn [mbind option_bind].
    pose proof (chain_height _ h _ _ _ _ _ Hh Hc) as Hlt. assert (1 ≤ length ds)%nat by (destruct ds; [done|cbn; lia]).
    destruct (IH w q (tail (rev ds ++ v :: path))) as (ds' & w' & q' & E & HL); [lia|].
    assert (w :: tail (rev ds ++ v :: path) = rev ds ++ v :: path) as Eq.
    { pose proof (chain_last _ _ _ _ _ _ path Hc) as Hla. destruct (rev ds ++ v :: path); [done|]. by injection Hla as ->. }
    rewrite Eq in E. exists (ds ++ ds'), w', q'. split; [|by eapply chain_app]. rewrite E, rev_app_distr, <- app_assoc. done.
  - destruct (first_cont G None (dau G v) p) as [[d q]|] eqn:Es.
    + apply first_cont_Some in Es as (? & ? & -> & ?). exists [d], d, (to_local G d p). split; [done|]. repeat constructor; done.
    + exists [], v, p. split; [done|constructor].
Qed.
Lemma excl_agree h fuel vol e p path top : height G h → locators_ok G → all_locators G → sane G → (h vol < fuel)%nat →
  bvh_locate_global_excl G fuel vol e p path top = locate_global_excl G fuel vol e p path top.
Proof.
  intros Hh Hl Ha Hs Hf. unfold bvh_locate_global_excl, locate_global_excl. destruct (top && _); [done|].
  destruct (down_bvh_excl_ok h fuel e vol p path Hh Hl Ha Hf) as (w & q & ds & -> & H1 & H2).
  destruct (down_excl_ok h fuel e vol vol p path Hh Hl Hf ltac:(by left)) as (w' & q' & ds' & -> & H3 & H4).
  destruct (chain_unique _ _ _ _ _ _ _ _ _ Hs H1 H2 H3 H4) as (-> & -> & ->). done.
Qed.
Lemma nested_le h world path v : height G h → nested G world path → v ∈ path → (h v ≤ h world)%nat.
Proof.
  intros Hh Hn Hv. destruct (last_nested world path Hn) as [a Hp]. apply elem_of_list_split in Hv as (l1 & l2 & E).
  pose proof (nested_height h world path l1 v l2 Hh Hn E world) as K.
  destruct l2 as [|x l2 _] using rev_ind.
  - rewrite Hp in E. apply app_inj_tail in E as [_ ->]. done.
  - rewrite Hp in E. replace (l1 ++ v :: l2 ++ [x]) with ((l1 ++ v :: l2) ++ [x]) in E by (rewrite <- app_assoc; done). apply app_inj_tail in E as [_ <-].
    assert (h v < h world)%nat; [|lia]. apply K. apply elem_of_app. right. by left.
Qed.
Lemma different_agree h fuel world path p : height G h → locators_ok G → all_locators G → sane G → nested G world path → (h world < fuel)%nat →
  bvh_relocate_different G fuel p path = relocate_different G fuel p path.
Proof.
  intros Hh Hl Ha Hs Hn Hf. unfold bvh_relocate_different, relocate_different.
  destruct (up_general (λ v q, negb (bool_decide (Some v = head path) || asm G v || negb (cont G v q))) path p) as (a & [(v & r & q & Hp & -> & _)|(q & _ & ->)]); [|done].
  apply (excl_agree h); try done. assert (h v ≤ h world)%nat; [|lia]. eapply nested_le; [done|done|]. rewrite Hp. apply elem_of_app. right. by left.
Qed.
Lemma different_general h fuel world entry rest p : height G h → locators_ok G → nested G world (entry :: rest) → (h world < fuel)%nat →
  ∃ c path', relocate_different G fuel p (entry :: rest) = Some (c, path') ∧ entry ∉ path' ∧ c = head path' ∧
    (path' = [] ∨ ∃ a v r q, entry :: rest = a ++ v :: r ∧ v ≠ entry ∧ q = foldl (λ q x, to_mother G x q) p a ∧ asm G v = false ∧ cont G v q = true ∧
      located G (not_excl (Some entry)) v q r path').
Proof.
  intros Hh Hl Hn Hf. unfold relocate_different. cbn [head hd_error].
  destruct (up_general (λ v q, negb (bool_decide (Some v = Some entry) || asm G v || negb (cont G v q))) (entry :: rest) p) as (a & [(v & r & q & Hp & -> & Hst & Hq)|(q & _ & ->)]).
  - rewrite negb_true_iff, !orb_false_iff, negb_false_iff, bool_decide_eq_false in Hst. destruct Hst as [[Hne Has] Hc].
    assert (h v ≤ h world)%nat. { eapply nested_le; [done|done|]. rewrite Hp. apply elem_of_app. right. by left. }
    destruct (down_excl_ok h fuel (Some entry) v v q r Hh Hl) as (w & q' & ds & E & H1 & H2); [lia|by left|].
    unfold locate_global_excl. cbn [andb]. rewrite E. cbn [mbind option_bind]. eexists _, _. split; [done|].
    assert (v :: r ≠ [] ∧ entry ∉ v :: r) as [_ Hnot].
    { split; [done|]. intros Hx. destruct a as [|y a]; [cbn in Hp; injection Hp as -> ->; done|]. injection Hp as <- Hp.
      pose proof (nested_height h world _ [] entry rest Hh Hn eq_refl entry) as K. rewrite Hp in K.
      assert (h entry < h entry)%nat; [|lia]. apply K. apply elem_of_app. by right. }
    split; [|split; [symmetry; by eapply chain_last|]].
    + rewrite elem_of_app, elem_of_rev. intros [Hin|Hin]; [|done]. by apply (chain_ok _ _ _ _ _ _ _ H1 Hin).
    + right. exists a, v, r, q. split; [done|]. split; [congruence|]. split; [done|]. split; [done|]. split; [done|]. exists ds, w, q'. done.
  - eexists _, _. split; [done|]. split; [apply not_elem_of_nil|]. split; [done|by left].
Qed.
End Proofs.
