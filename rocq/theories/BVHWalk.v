(** The traversal loop shared by the queries. *)
From stdpp Require Import list list_numbers option.
From Coq Require Import Reals ZArith NArith Lia.
From Verif Require Import Real3 AABBModel AABBSpec AABBProofs BVHModel BVHSpec BVHProofs.
Local Open Scope nat_scope.

Section Walk.
Context {St : Type}.
Variable leaf : St → list nat → option (St * bool).
Variable push : St → nat → option (list nat).
Variable b : bvh.
Variable d : nat.
Hypothesis Hb : bvh_ok b d.
(** [cov s i]: daughter [i] needs no further look in state [s]. *)
Variable Inv : St → Prop.
Variable cov : St → nat → Prop.
Variable Q : St → Prop.
Hypothesis leaf_ok : ∀ s prims, Inv s → (∀ i, i ∈ prims → i < length (b_aabbs b)) →
  ∃ s' stop, leaf s prims = Some (s', stop) ∧
    if stop : bool then Q s' else Inv s' ∧ (∀ i, i ∈ prims → cov s' i) ∧ ∀ i, cov s i → cov s' i.
Hypothesis push_ok : ∀ s id bl br, Inv s → b_nodes b !! (2 * id + 1) = Some bl → b_nodes b !! (2 * id + 2) = Some br →
  ∃ pl pr sw, push s id =
      Some (if sw : bool then (if pr : bool then [2 * id + 2] else []) ++ (if pl : bool then [2 * id + 1] else [])
            else (if pl then [2 * id + 1] else []) ++ (if pr then [2 * id + 2] else [])) ∧
    (pl = false → ∀ i bi, b_aabbs b !! i = Some bi → box_le bi bl → cov s i) ∧
    (pr = false → ∀ i bi, b_aabbs b !! i = Some bi → box_le bi br → cov s i).

Notation entry := (nat * nat * nat * nat)%type.
Definition ok1 (e : entry) : Prop := let '(id, k, f, l) := e in tree_ok b k id f l.
Definition pos1 (e : entry) (j : nat) : Prop := let '(id, k, f, l) := e in f ≤ j < l.
Definition id1 (e : entry) : nat := let '(id, k, f, l) := e in id.
Definition lev1 (e : entry) : nat := let '(id, k, f, l) := e in k.
Fixpoint stack_ok (es : list entry) : Prop :=
  match es with [] => True | e :: r => ok1 e ∧ lev1 e + length r ≤ d ∧ stack_ok r end.
Fixpoint work (es : list entry) : nat :=
  match es with [] => 0 | e :: r => (2 ^ S (lev1 e) - 1) + work r end.
Lemma stack_ok_length es : stack_ok es → length es ≤ S d.
Proof. destruct es; cbn; [lia|]. intros (_ & H & _). lia. Qed.

Lemma mapM_prims f l : f ≤ l ≤ length (b_prim b) →
  mapM (λ i, b_prim b !! (Z.to_nat (Z.of_nat f) + i)%nat) (seq 0 (Z.to_nat (Z.of_nat (l - f)))) = Some (slice f l (b_prim b)).
Proof.
  intros H. rewrite !Nat2Z.id. apply mapM_Some. apply Forall2_same_length_lookup_2.
  - rewrite seq_length, slice_length by lia. done.
  - intros i x y Hx Hy. assert (i < l - f) as Hi by (apply lookup_lt_Some in Hx; rewrite seq_length in Hx; done).
    rewrite lookup_seq_lt in Hx by done. injection Hx as <-. by rewrite slice_lookup in Hy by lia.
Qed.
Lemma prim_lt i : i ∈ b_prim b ↔ i < length (b_aabbs b).
Proof.
  destruct Hb as (-> & _). rewrite elem_of_list_In, in_seq. lia.
Qed.
Lemma tree_range k id f l : tree_ok b k id f l → f ≤ l.
Proof. destruct 1; lia. Qed.
Lemma tree_bounds k id f l : tree_ok b k id f l → bounds b id f l.
Proof. destruct 1; done. Qed.

Lemma walk_ok : ∀ fuel es s, stack_ok es → Inv s → work es < fuel →
  (∀ j i, b_prim b !! j = Some i → cov s i ∨ ∃ e, e ∈ es ∧ pos1 e j) →
  ∃ s' stop, (∀ lim, S d ≤ lim → walk leaf push b lim fuel (id1 <$> es) s = Some (s', stop)) ∧
    if stop : bool then Q s' else Inv s' ∧ ∀ i, i < length (b_aabbs b) → cov s' i.
Proof.
  induction fuel as [|fuel IH]; intros es s Hes Hs Hw Hc; [lia|].
  destruct es as [|[[[id k] f] l] es].
  - exists s, false. split; [done|]. split; [done|]. intros i Hi.
    apply prim_lt, elem_of_list_lookup in Hi as [j Hj]. destruct (Hc j i Hj) as [?|(e & He & _)]; [done|]. by apply elem_of_nil in He.
  - destruct Hes as (He & Hlev & Hes). cbn [ok1 lev1] in *. cbn [fmap list_fmap id1 walk].
    destruct He as [k id f l Hfl Hn Ho _ _|k id f m l Hm H8 Hn _ HL HR].
    + rewrite Hn. cbn [mbind option_bind]. destruct (Z.leb_spec 0 (Z.of_nat (l - f))); [|lia]. rewrite Ho. cbn [mbind option_bind].
      rewrite mapM_prims by done. cbn [mbind option_bind].
      destruct (leaf_ok s (slice f l (b_prim b)) Hs) as (s' & stop & E & HQ).
      { intros i (j & _ & Hj)%elem_of_slice. apply prim_lt. by eapply elem_of_list_lookup_2. }
      rewrite E. cbn [mbind option_bind]. destruct stop.
      * exists s', true. by split.
      * destruct HQ as (Hs' & HQ1 & HQ2). apply IH; [done|done| |].
        { cbn [work lev1] in Hw. pose proof (pow2_pos k). cbn in Hw. lia. }
        intros j i Hj. destruct (Hc j i Hj) as [?|(e & He & Hp)]; [by left; apply HQ2|].
        apply elem_of_cons in He as [-> | He].
        -- left. apply HQ1. apply elem_of_slice. exists j. by split.
        -- right. by exists e.
    + rewrite Hn. cbn [mbind option_bind]. destruct (Z.leb_spec 0 (-1)); [lia|].
      destruct (tree_bounds _ _ _ _ HL) as (bl & El & Bl), (tree_bounds _ _ _ _ HR) as (br & Er & Br).
      destruct (push_ok s id bl br Hs El Er) as (pl & pr & sw & E & Cl & Cr). rewrite E. cbn [mbind option_bind].
      set (eL := (2 * id + 1, k, f, m) : entry). set (eR := (2 * id + 2, k, m, l) : entry).
      set (ch := (if sw then (if pl then [eL] else []) ++ (if pr then [eR] else []) else (if pr then [eR] else []) ++ (if pl then [eL] else [])) : list entry).
      assert (∀ j i, b_prim b !! j = Some i → f ≤ j < m → pl = false → cov s i) as CL.
      { intros j i Hj Hjr Hp. destruct (Bl i) as (bi & ? & ?); [apply elem_of_slice; eauto|]. by eapply Cl. }
      assert (∀ j i, b_prim b !! j = Some i → m ≤ j < l → pr = false → cov s i) as CR.
      { intros j i Hj Hjr Hp. destruct (Br i) as (bi & ? & ?); [apply elem_of_slice; eauto|]. by eapply Cr. }
      assert (∀ x, rev (if sw then (if pr then [2 * id + 2] else []) ++ (if pl then [2 * id + 1] else [])
            else (if pl then [2 * id + 1] else []) ++ (if pr then [2 * id + 2] else [])) ++ (id1 <$> es) = x → x = id1 <$> (ch ++ es)) as Ech.
      { intros x <-. rewrite fmap_app. f_equal. by destruct sw, pl, pr. }
      rewrite (Ech _ eq_refl). clear Ech.
      assert (stack_ok (ch ++ es)) as Hok.
      { unfold ch, eL, eR. destruct sw, pl, pr; cbn [app stack_ok ok1 lev1 length]; repeat split; first [done|assumption|lia]. }
      destruct (IH (ch ++ es) s) as (s' & stop & E' & HQ); [done|done| | |].
      { cbn [work lev1] in Hw. assert (work (ch ++ es) ≤ 2 * (2 ^ S k - 1) + work es).
        { unfold ch, eL, eR. destruct sw, pl, pr; cbn [app work lev1]; lia. }
        assert (2 ^ S (S k) = 2 * 2 ^ S k) by (cbn; lia). pose proof (pow2_pos (S k)). lia. }
      { intros j i Hj. destruct (Hc j i Hj) as [?|(e & He & Hp)]; [by left|]. apply elem_of_cons in He as [-> | He].
        - cbn [pos1] in Hp. destruct (decide (j < m)) as [Hjm|Hjm].
          + destruct pl; [|left; eapply CL; [done|lia|done]]. right. exists eL. split; [|unfold eL; cbn; lia].
            unfold ch. destruct sw, pr; cbn [app]; repeat (apply elem_of_cons; first [left; reflexivity|right]).
          + destruct pr; [|left; eapply CR; [done|lia|done]]. right. exists eR. split; [|unfold eR; cbn; lia].
            unfold ch. destruct sw, pl; cbn [app]; repeat (apply elem_of_cons; first [left; reflexivity|right]).
        - right. exists e. split; [|done]. apply elem_of_app. by right. }
      exists s', stop. split; [|done]. intros lim Hlim. specialize (E' lim Hlim).
      pose proof (stack_ok_length _ Hok) as Hlen. rewrite fmap_length.
      destruct (Nat.leb_spec (length (ch ++ es)) lim); [|lia]. done.
Qed.

Theorem run_ok s : Inv s →
  ∃ s' stop, (∀ lim, S d ≤ lim → run leaf push b lim s = Some (s', stop)) ∧
    if stop : bool then Q s' else Inv s' ∧ ∀ i, i < length (b_aabbs b) → cov s' i.
Proof.
  intros Hs. destruct Hb as (Hp & Hn & Ht). unfold run. rewrite Hn.
  apply (walk_ok _ [(0, d, 0, length (b_prim b))]); [|done| |].
  - cbn. split; [done|]. split; [lia|done].
  - cbn [work lev1]. lia.
  - intros j i Hj. right. eexists. split; [by apply elem_of_list_singleton|]. cbn. apply lookup_lt_Some in Hj. lia.
Qed.
End Walk.
