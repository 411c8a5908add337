(** The crossing parity does not change along a way that avoids the border. *)
From Coq Require Import Reals Lra Lia Bool ZArith Psatz.
From stdpp Require Import base list list_numbers option numbers tactics.
From Verif Require Import Real3 BoxModel AABBModel PlanesModel PlanesProofs PolygonModel PolygonSpec PolygonProofs PolygonProofs2 PolygonProofs3.
Import stdpp.list.
Local Open Scope R_scope.

Definition flag (v p : p2) : bool := rgtb (snd v) (snd p).
Definition meetsb (p : p2) (s : p2 * p2) : bool := xorb (flag s.1 p) (flag s.2 p) && rltb (fst p) (crossx s.1 s.2 (snd p)).
Lemma meetsb_spec p s : meetsb p s = true ↔ meets p s.
Proof.
  destruct s as [a b]. rewrite meets_crossx. unfold meetsb. cbn [fst snd]. rewrite andb_true_iff, rltb_true.
  assert (X : xorb (flag a p) (flag b p) = true ↔ (snd a <= snd p < snd b ∨ snd b <= snd p < snd a)); [|by rewrite X].
  unfold flag. destruct (rgtb_spec (snd a) (snd p)), (rgtb_spec (snd b) (snd p)); cbn; split; intros Hx; try done; try lra; try (destruct Hx; lra).
Qed.
Lemma odd_meetsb p l : parity (meetsb p) l = true ↔ odd_many (meets p) l.
Proof. apply odd_reflect. intros s _. apply meetsb_spec. Qed.
(** Going round adds up to nothing. *)
Lemma parity_chain (t : p2 → bool) : ∀ l a, parity (λ s, xorb (t s.1) (t s.2)) (chain a l) = xorb (t a) (t (List.last l a)).
Proof.
  induction l as [|b l IH]; intros a; [cbn; by rewrite xorb_nilpotent|]. cbn [chain]. rewrite parity_cons, IH. cbn [fst snd].
  replace (List.last (b :: l) a) with (List.last l b); [by destruct (t a), (t b), (t (List.last l b))|]. destruct l as [|c l]; [done|]. 
  change (List.last (b :: c :: l) a) with (List.last (c :: l) a). clear. revert c. induction l as [|d l IH]; intros c; [done|]. apply (IH d).
Qed.
Lemma parity_round (t : p2 → bool) pts : parity (λ s, xorb (t s.1) (t s.2)) (sides pts) = false.
Proof.
  destruct pts as [|a r]; [done|]. unfold sides. rewrite parity_chain. rewrite last_last. apply xorb_nilpotent.
Qed.
Lemma parity_xor {A} (f g : A → bool) l : xorb (parity f l) (parity g l) = parity (λ a, xorb (f a) (g a)) l.
Proof. induction l as [|a l IH]; [done|]. rewrite !parity_cons, <- IH. by destruct (f a), (g a), (parity f l), (parity g l). Qed.

(** One side *)
Definition turned (p q v : p2) : bool := rgtb (fst v) (fst p) && xorb (flag v p) (flag v q).
Definition within (e : R) (p q : p2) : Prop := Rabs (fst q - fst p) < e ∧ Rabs (snd q - snd p) < e.
Lemma within_le e e' p q : e <= e' → within e p q → within e' p q.
Proof. unfold within. lra. Qed.
Lemma flag_same v p : snd v ≠ snd p → ∃ e, 0 < e ∧ ∀ q, within e p q → flag v q = flag v p.
Proof.
  intros H. exists (Rabs (snd v - snd p)). split; [apply Rabs_pos_lt; lra|]. intros q [_ Hq]. unfold flag. apply Rabs_def2 in Hq.
  destruct (rgtb_spec (snd v) (snd q)), (rgtb_spec (snd v) (snd p)); try done; exfalso; unfold Rabs in Hq; destruct (Rcase_abs (snd v - snd p)); lra.
Qed.
Lemma turned_none v p : snd v ≠ snd p → ∃ e, 0 < e ∧ ∀ q, within e p q → xorb (flag v p) (flag v q) = false.
Proof. intros H. destruct (flag_same v p H) as (e & He & E). exists e. split; [done|]. intros q Hq. rewrite (E q Hq). apply xorb_nilpotent. Qed.
Lemma crossx_near a b p c : c < crossx a b (snd p) - fst p → ∃ e, 0 < e ∧ ∀ q, within e p q → c < crossx a b (snd q) - fst q.
Proof.
  intros H. set (m := (fst b - fst a) / (snd b - snd a)). set (g := crossx a b (snd p) - fst p - c). assert (G : 0 < g) by (unfold g; lra).
  assert (M : 0 < 1 + Rabs m) by (pose proof (Rabs_pos m); lra). exists (g / (1 + Rabs m)). split; [apply Rmult_lt_0_compat; [done|by apply Rinv_0_lt_compat]|].
  intros q [H1 H2]. set (e := g / (1 + Rabs m)) in *. assert (E : e * (1 + Rabs m) = g) by (unfold e; field; lra).
  assert (D : crossx a b (snd q) - fst q - c = g + m * (snd q - snd p) - (fst q - fst p)) by (unfold g, crossx, m, Rdiv; ring).
  assert (B : - (Rabs m * e) <= m * (snd q - snd p)).
  { assert (Rabs (m * (snd q - snd p)) <= Rabs m * e) as B by (rewrite Rabs_mult; apply Rmult_le_compat_l; [apply Rabs_pos|lra]). apply abs_le_inv in B. lra. }
  apply Rabs_def2 in H1. lra.
Qed.
Lemma crossx_near_neg a b p : crossx a b (snd p) < fst p → ∃ e, 0 < e ∧ ∀ q, within e p q → crossx a b (snd q) < fst q.
Proof.
  intros H. set (fl := λ v : p2, (- fst v, snd v)). assert (F : ∀ y, crossx (fl a) (fl b) y = - crossx a b y) by (intros y; unfold crossx, fl, Rdiv; cbn; ring).
  destruct (crossx_near (fl a) (fl b) (fl p) 0) as (e & He & E); [rewrite F; unfold fl; cbn; lra|]. exists e. split; [done|]. intros q [H1 H2].
  specialize (E (fl q)). rewrite F in E. unfold fl in E. cbn [fst snd] in E. assert (0 < - crossx a b (snd q) - - fst q); [|lra]. apply E. split; cbn [fst snd]; [|done].
  replace (- fst q - - fst p) with (- (fst q - fst p)) by ring. by rewrite Rabs_Ropp.
Qed.
Lemma crossx_at a b : snd a ≠ snd b → crossx a b (snd a) = fst a ∧ crossx a b (snd b) = fst b.
Proof. intros H. unfold crossx. split; field; lra. Qed.
Lemma within_two (Q1 Q2 : p2 → Prop) p : (∃ e, 0 < e ∧ ∀ q, within e p q → Q1 q) → (∃ e, 0 < e ∧ ∀ q, within e p q → Q2 q) →
  ∃ e, 0 < e ∧ ∀ q, within e p q → Q1 q ∧ Q2 q.
Proof.
  intros (e1 & H1 & E1) (e2 & H2 & E2). exists (Rmin e1 e2). split; [by apply Rmin_glb_lt|]. intros q Hq.
  split; [apply E1|apply E2]; eapply within_le; [apply Rmin_l|done|apply Rmin_r|done].
Qed.
Lemma within_map (Q1 Q2 : p2 → Prop) p : (∀ q, Q1 q → Q2 q) → (∃ e, 0 < e ∧ ∀ q, within e p q → Q1 q) → ∃ e, 0 < e ∧ ∀ q, within e p q → Q2 q.
Proof. intros H (e & He & E). exists e. split; [done|]. intros q Hq. by apply H, E. Qed.
Lemma side_near p a b : ¬ on_side a b p → ∃ e, 0 < e ∧ ∀ q, within e p q →
  xorb (meetsb p (a, b)) (meetsb q (a, b)) = xorb (turned p q a) (turned p q b).
Proof.
  intros Hn. destruct (Req_dec (snd a) (snd b)) as [Eab|Nab].
  - assert (F : ∀ q, meetsb q (a, b) = false). { intros q. unfold meetsb, flag. cbn [fst snd]. rewrite Eab, xorb_nilpotent. done. }
    destruct (Req_dec (snd a) (snd p)) as [Ep|Np].
    + exists 1. split; [lra|]. intros q _. rewrite !F. symmetry. unfold turned, flag. rewrite <- Eab.
      assert (R : rgtb (fst a) (fst p) = rgtb (fst b) (fst p)); [|rewrite R; by destruct (_ && _)].
      assert (On : ∀ x y : p2, snd x = snd p → snd y = snd p → fst x <= fst p < fst y → on_side x y p).
      { intros x y Hx Hy Hxy. exists ((fst p - fst x) / (fst y - fst x)). split.
        - split; [apply Rmult_le_pos; [lra|]; left; apply Rinv_0_lt_compat; lra|]. apply (Rmult_le_reg_r (fst y - fst x)); [lra|]. unfold Rdiv. rewrite Rmult_assoc, Rinv_l by lra. lra.
        - destruct p as [px py]. unfold way. cbn [fst snd] in *. f_equal; [field; lra|rewrite Hx, Hy; ring]. }
      destruct (rgtb_spec (fst a) (fst p)), (rgtb_spec (fst b) (fst p)); try done; exfalso; apply Hn.
      * apply on_side_swap. apply On; lra.
      * apply On; lra.
    + destruct (turned_none a p Np) as (e & He & E). exists e. split; [done|]. intros q Hq. specialize (E q Hq). rewrite !F. unfold turned. 
      assert (E' : xorb (flag b p) (flag b q) = false) by (unfold flag in *; by rewrite <- Eab). by rewrite E, E', !andb_false_r.
  - destruct (crossx_at a b Nab) as [Ca Cb].
    assert (G : ∀ v, v = a ∨ v = b → ∀ r : bool, (snd v = snd p → r = rgtb (fst v) (fst p)) → ∃ e, 0 < e ∧ ∀ q, within e p q → r && xorb (flag v p) (flag v q) = turned p q v).
    { intros v _ r Hr. destruct (Req_dec (snd v) (snd p)) as [E|N].
      - exists 1. split; [lra|]. intros q _. unfold turned. by rewrite Hr.
      - destruct (turned_none v p N) as (e & He & E). exists e. split; [done|]. intros q Hq. unfold turned. by rewrite E, !andb_false_r. }
    assert (Hin : (snd a <= snd p <= snd b ∨ snd b <= snd p <= snd a) ∨ (snd p < snd a ∧ snd p < snd b) ∨ (snd a < snd p ∧ snd b < snd p)) by lra.
    destruct Hin as [Hin|Hout].
    + assert (Hx : crossx a b (snd p) ≠ fst p). { intros E. apply Hn. pose proof (crossx_way a b (snd p) Nab Hin) as H. rewrite E in H. by destruct p. }
      set (r := rltb (fst p) (crossx a b (snd p))).
      assert (Hr : ∃ e, 0 < e ∧ ∀ q, within e p q → rltb (fst q) (crossx a b (snd q)) = r).
      { unfold r. destruct (rltb_spec (fst p) (crossx a b (snd p))) as [H|H].
        - destruct (crossx_near a b p 0 ltac:(lra)) as (e & He & E). exists e. split; [done|]. intros q Hq. apply rltb_true. specialize (E q Hq). lra.
        - destruct (crossx_near_neg a b p ltac:(lra)) as (e & He & E). exists e. split; [done|]. intros q Hq. apply rltb_false. specialize (E q Hq). lra. }
      assert (Ga := G a ltac:(by left) r). assert (Gb := G b ltac:(by right) r). specialize (Ga ltac:(intros E; unfold r; by rewrite <- E, Ca)). specialize (Gb ltac:(intros E; unfold r; by rewrite <- E, Cb)).
      eapply within_map; [|apply (within_two _ _ p (within_two _ _ p Hr Ga) Gb)]. intros q. cbn beta. intros [[H1 H2] H3]. rewrite <- H2, <- H3. unfold meetsb. cbn [fst snd]. rewrite H1. fold r.
      by destruct r, (flag a p), (flag b p), (flag a q), (flag b q).
    + assert (Na : snd a ≠ snd p) by lra. assert (Nb : snd b ≠ snd p) by lra.
      eapply within_map; [|apply (within_two _ _ p (flag_same a p Na) (flag_same b p Nb))]. intros q. cbn beta. intros [H1 H2].
      unfold turned, meetsb. cbn [fst snd]. rewrite H1, H2, !xorb_nilpotent, !andb_false_r.
      assert (E : flag a p = flag b p). { unfold flag. destruct (rgtb_spec (snd a) (snd p)), (rgtb_spec (snd b) (snd p)); try done; exfalso; destruct Hout; lra. }
      by rewrite E, xorb_nilpotent.
Qed.
Lemma sides_near p l : (∀ a b, In (a, b) l → ¬ on_side a b p) → ∃ e, 0 < e ∧ ∀ q, within e p q →
  ∀ a b, In (a, b) l → xorb (meetsb p (a, b)) (meetsb q (a, b)) = xorb (turned p q a) (turned p q b).
Proof.
  induction l as [|[a b] l IH]; intros H; [exists 1; split; [lra|done]|].
  eapply within_map; [|apply (within_two _ _ p (side_near p a b (H a b ltac:(by left))) (IH ltac:(intros; apply H; by right)))].
  intros q. cbn beta. intros [H1 H2] x y [E|Hxy]; [injection E as <- <-; done|by apply H2].
Qed.
Lemma parity_near pts p : ¬ border pts p → ∃ e, 0 < e ∧ ∀ q, within e p q → parity (meetsb q) (sides pts) = parity (meetsb p) (sides pts).
Proof.
  intros Hn. destruct (sides_near p (sides pts)) as (e & He & E); [intros a b Hs Ho; apply Hn; by exists a, b|].
  exists e. split; [done|]. intros q Hq. specialize (E q Hq).
  assert (X : xorb (parity (meetsb p) (sides pts)) (parity (meetsb q) (sides pts)) = false).
  { rewrite parity_xor. rewrite (parity_ext _ (λ s, xorb (turned p q s.1) (turned p q s.2))); [apply parity_round|]. intros [a b] Hs. cbn [fst snd]. by apply E. }
  by apply xorb_eq in X.
Qed.

(** Along a way *)
Lemma constant_way (g : R → bool) : (∀ m, 0 <= m <= 1 → ∃ e, 0 < e ∧ ∀ s, 0 <= s <= 1 → Rabs (s - m) < e → g s = g m) → g 1 = g 0.
Proof.
  intros H. destruct (bool_dec (g 1) (g 0)) as [|Hne]; [done|]. exfalso.
  set (E := λ t, 0 <= t <= 1 ∧ ∀ s, 0 <= s <= t → g s = g 0).
  destruct (completeness E) as [m [Ub Lb]]; [exists 1; intros t [Ht _]; lra|exists 0; split; [lra|]; intros s Hs; f_equal; lra|].
  assert (Hm : 0 <= m <= 1).
  { split; [apply Ub; split; [lra|]; intros s Hs; f_equal; lra|]. apply Lb. intros t [Ht _]. lra. }
  destruct (H m Hm) as (e & He & Hloc). assert (B : is_upper_bound E (m - e / 2)); [|specialize (Lb _ B); lra].
  intros t Ht. apply Rnot_lt_le. intros Htm. pose proof (Ub t Ht) as Htm'. destruct Ht as [Ht Hg].
  assert (All : ∀ s, 0 <= s <= 1 → s < m + e → g s = g 0).
  { intros s Hs Hse. destruct (Rle_dec s t); [apply Hg; lra|]. rewrite (Hloc s Hs) by (apply Rabs_def1; lra). rewrite <- (Hloc t Ht) by (apply Rabs_def1; lra). apply Hg. lra. }
  destruct (Rle_dec 1 (m + e / 2)); [apply Hne, All; lra|]. assert (m + e / 2 <= m); [|lra]. apply Ub. split; [lra|]. intros s Hs. apply All; lra.
Qed.
Lemma parity_way pts p q : (∀ t, 0 <= t <= 1 → ¬ border pts (way p q t)) → parity (meetsb q) (sides pts) = parity (meetsb p) (sides pts).
Proof.
  intros H. set (g := λ t, parity (meetsb (way p q t)) (sides pts)). assert (W0 : way p q 0 = p) by (destruct p; unfold way; cbn; f_equal; ring). assert (W1 : way p q 1 = q) by (destruct p, q; unfold way; cbn; f_equal; ring).
  assert (G : g 1 = g 0); [|unfold g in G; by rewrite W0, W1 in G]. apply constant_way. intros m Hm. destruct (parity_near pts _ (H m Hm)) as (e & He & E).
  set (l := 1 + Rabs (fst q - fst p) + Rabs (snd q - snd p)). pose proof (Rabs_pos (fst q - fst p)) as A1. pose proof (Rabs_pos (snd q - snd p)) as A2. assert (Hl : 0 < l) by (unfold l; lra).
  exists (e / l). split; [apply Rmult_lt_0_compat; [done|by apply Rinv_0_lt_compat]|]. intros s Hs Hd. unfold g. apply E.
  assert (D : e / l * l = e) by (field; lra). set (k := e / l) in *. assert (B : ∀ x, Rabs x <= l → 0 <= Rabs x → Rabs (s - m) * Rabs x < e).
  { intros x Hx Hx0. destruct (Req_dec (Rabs x) 0) as [->|]; [lra|]. pose proof (Rabs_pos (s - m)). assert (Rabs (s - m) * Rabs x < k * Rabs x) by (apply Rmult_lt_compat_r; lra). assert (k * Rabs x <= k * l) by (apply Rmult_le_compat_l; lra). lra. }
  split; unfold way; cbn [fst snd].
  - replace (fst p + s * (fst q - fst p) - (fst p + m * (fst q - fst p))) with ((s - m) * (fst q - fst p)) by ring. rewrite Rabs_mult. apply B; unfold l; lra.
  - replace (snd p + s * (snd q - snd p) - (snd p + m * (snd q - snd p))) with ((s - m) * (snd q - snd p)) by ring. rewrite Rabs_mult. apply B; unfold l; lra.
Qed.
(** Outside of the extent *)
Lemma sides_range pts a b c (f : p2 → R) : (∀ v, In v pts → f v <= c) → In (a, b) (sides pts) → f a <= c ∧ f b <= c.
Proof. intros H Hs. apply sides_ends in Hs as [Ha Hb]. split; by apply H. Qed.
Lemma odd_extent pts p : odd_many (meets p) (sides pts) →
  (∃ v, In v pts ∧ fst v <= fst p) ∧ (∃ v, In v pts ∧ fst p < fst v) ∧ (∃ v, In v pts ∧ snd v <= snd p) ∧ (∃ v, In v pts ∧ snd p < snd v).
Proof.
  intros H. assert (H' := H). apply odd_meetsb in H'. 
  assert (S : ∃ s, In s (sides pts) ∧ meets p s).
  { clear H'. induction (sides pts) as [|s l IH]; [done|]. destruct H as [[H _]|[_ H]]; [exists s; split; [by left|done]|]. destruct (IH H) as (x & Hx & Hm). exists x. split; [by right|done]. }
  destruct S as ([a b] & Hs & Hm). pose proof (sides_ends _ _ _ Hs) as [Ha Hb]. assert (Hm' := Hm). apply meets_crossx in Hm' as [Hy _]. destruct Hm as (_ & t & Ht & _ & Hx).
  split; [|split; [|split]].
  - assert (Dec : ∀ v : p2, Decision (fst v <= fst p)) by (intros v; apply Rle_dec). destruct (decide (Exists (λ v, fst v <= fst p) pts)) as [E|E]; [apply Exists_exists in E as (v & Hv & E); exists v; split; [by apply elem_of_list_In|done]|].
    exfalso. assert (N : ∀ v, In v pts → fst p < fst v). { intros v Hv. apply Rnot_le_lt. intros Hx'. apply E. apply Exists_exists. exists v. split; [by apply elem_of_list_In|done]. }
    rewrite (parity_ext _ (λ s, xorb (flag s.1 p) (flag s.2 p))) in H'; [rewrite (parity_round (λ v, flag v p)) in H'; done|]. intros [x y] Hxy. unfold meetsb. cbn [fst snd].
    destruct (xorb (flag x p) (flag y p)) eqn:Ex; [|done]. cbn [andb]. apply rltb_true. pose proof (sides_ends _ _ _ Hxy) as [Hx' Hy'].
    assert (Hne : snd x ≠ snd y). { intros E'. unfold flag in Ex. by rewrite E', xorb_nilpotent in Ex. }
    assert (Hb' : snd x <= snd p <= snd y ∨ snd y <= snd p <= snd x).
    { unfold flag in Ex. destruct (rgtb_spec (snd x) (snd p)), (rgtb_spec (snd y) (snd p)); try done; lra. }
    destruct (crossx_way x y (snd p) Hne Hb') as (u & Hu & Eu). apply (f_equal fst) in Eu. unfold way in Eu. cbn [fst snd] in Eu. rewrite Eu. pose proof (N x Hx'). pose proof (N y Hy'). destruct Hu. destruct (Rle_dec (fst x) (fst y)); [assert (0 <= u * (fst y - fst x)) by (apply Rmult_le_pos; lra); lra|]. assert (0 <= (1 - u) * (fst x - fst y)) by (apply Rmult_le_pos; lra). lra.
  - unfold way in Hx. cbn in Hx. destruct (Rlt_dec (fst p) (fst a)); [by exists a|]. exists b. split; [done|]. nra.
  - destruct Hy; [exists a|exists b]; (split; [done|lra]).
  - destruct Hy; [exists b|exists a]; (split; [done|lra]).
Qed.
