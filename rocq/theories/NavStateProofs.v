From stdpp Require Import list option gmap fin_maps.
From Coq Require Import NArith ZArith Lia ZifyN ZifyBool ZifyNat.
From Verif Require Import NavTableModel NavTableSpec NavTableProofs.
Local Open Scope N_scope.

Local Arguments N.mul : simpl never.
Local Arguments N.add : simpl never.
Local Arguments N.modulo : simpl never.
Local Arguments N.div : simpl never.
Local Arguments N.of_nat : simpl never.
Local Arguments N.land : simpl never.
Local Arguments N.to_nat : simpl never.
Local Arguments N.ltb : simpl never.
Local Arguments N.eqb : simpl never.
Local Arguments Nat.ltb : simpl never.

(** Decoding the header word. *)
Lemma hdr_level l h n : l < 256 → hdr l h n mod 256 = l.
Proof.
  intros. unfold hdr. rewrite (N.mod_small l) by done.
  replace (l + 256 * h + 65536 * n) with (l + (h + 256 * n) * 256) by lia.
  rewrite N.mod_add by lia. by apply N.mod_small.
Qed.
Lemma hdr_hasm l h n : l < 256 → h < 256 → hdr l h n / 256 mod 256 = h.
Proof.
  intros. unfold hdr. rewrite (N.mod_small l) by done.
  replace (l + 256 * h + 65536 * n) with (l + (h + 256 * n) * 256) by lia.
  rewrite N.div_add by lia. rewrite (N.div_small l) by done.
  replace (0 + (h + 256 * n)) with (h + n * 256) by lia.
  rewrite N.mod_add by lia. by apply N.mod_small.
Qed.
Lemma hdr_nd l h n : l < 256 → h < 256 → n < 65536 → hdr l h n / 65536 mod 65536 = n.
Proof.
  intros. unfold hdr. rewrite (N.mod_small l) by done.
  rewrite (N.mul_comm 65536 n). rewrite N.div_add by lia. rewrite (N.div_small (l + 256 * h)) by lia.
  rewrite N.add_0_l. by apply N.mod_small.
Qed.

Section Proofs.
Context {T : Type} (G : geo T) (TO : tops T) (r limit : N).
Context (Hfew : few_daughters G) (Hch : child_ids G).
Context (world : N) (Hsh : shallow G world).
Context (F : nat).
Context (t : ntab T) (Henc : enc G TO r limit t F world 0 0 1 [world]).

Notation cached := (cached G limit).
Notation is_path := (is_path G world).

(** [c] is the navigation index of path [l]; fuel hidden. *)
Inductive Rep : list N → N → Prop :=
| Rep0 : Rep [] 0
| RepS v l c m f : Rep l m → 0 < c → is_path (v :: l) →
    enc G TO r limit t f v (N.of_nat (length l)) m c (rev (v :: l)) →
    (l = [] ∧ c = 1 ∨ l ≠ [] ∧ nav_ind t (m + 3 + g_child G v) = Some c) →
    Rep (v :: l) c.

Lemma Rep_world : Rep [world] 1.
Proof. apply (RepS world [] 1 0 F); [apply Rep0|lia|constructor|exact Henc|by left]. Qed.

Lemma Rep_path l c : Rep l c → is_path l.
Proof. destruct 1; [constructor|done]. Qed.

Lemma nav_ind_Some a n : t !! a = Some (WN n) → nav_ind t a = Some n.
Proof. intros H. unfold nav_ind. unfold ntab in *. by rewrite H. Qed.

Lemma Rep_push v l c d : Rep (v :: l) c → d ∈ g_dau G v →
  ∃ c', push_impl G t c d = Some c' ∧ Rep (d :: v :: l) c' ∧ 1 < c'.
Proof.
  intros HR Hd. pose proof HR as HR'. inversion HR as [|v' l' c' m f HRl Hc Hp Hen Hpos]; subst.
  apply elem_of_list_lookup in Hd as [k Hk].
  destruct f as [|f]; [done|]. cbn [enc] in Hen. destruct Hen as (_ & _ & _ & _ & H4).
  destruct (H4 k d Hk) as [H5 H6]. cbv zeta in H6.
  unfold push_impl. destruct (N.ltb_spec 0 c); [|lia]. rewrite (Hch _ _ _ Hk).
  rewrite (nav_ind_Some _ _ H5). cbv zeta. eexists. split; [done|].
  set (st := c + nlen _ _ _ _ _ _ + _) in *.
  assert (c < st) as Hlt.
  { pose proof (dind_len_ge (nd_of G v)). subst st. unfold nlen. lia. }
  split; [|lia].
  apply (RepS d (v :: l) st c f); [done|lia| | |].
  - constructor; [done|]. apply elem_of_list_lookup. by eexists.
  - cbn [length]. replace (N.of_nat (S (length l))) with (N.of_nat (length l) + 1) by lia. exact H6.
  - right. split; [done|]. rewrite (Hch _ _ _ Hk). by apply nav_ind_Some.
Qed.

Lemma Rep_exists l : is_path l → ∃ c, Rep l c.
Proof.
  induction 1 as [| |v d l Hp IH Hd]; [eexists; constructor|eexists; apply Rep_world|].
  destruct IH as [c HR]. destruct (Rep_push v l c d HR Hd) as (c' & _ & HR' & _). by eexists.
Qed.

Lemma Rep_pos l c : Rep l c → (c = 0 ↔ l = []).
Proof. destruct 1; split; intros; [done|done|lia|done]. Qed.

Lemma Rep_nil c : Rep [] c → c = 0.
Proof. by inversion 1. Qed.
Lemma Rep_zero l c : Rep l c → c = 0 → l = [].
Proof. intros. by eapply Rep_pos. Qed.

Lemma Rep_fields v l c : Rep (v :: l) c →
  ∃ m h, Rep l m ∧ nav_ind t c = Some m ∧ nav_ind t (c + 1) = Some v ∧
    nav_ind t (c + 2) = Some (hdr (N.of_nat (length l)) h (nd_of G v)) ∧ h < 256 ∧
    h = (if cached v (N.of_nat (length l)) then hasm_of TO (path_matrix G TO (rev (v :: l))) else 0) ∧
    (cached v (N.of_nat (length l)) = true → ∀ k, k < 12 * r →
      t !! (c + dind_len (nd_of G v) + padded r (c + dind_len (nd_of G v)) + k) = Some (WM (path_matrix G TO (rev (v :: l))) k)).
Proof.
  intros HR. inversion HR as [|v' l' c' m f HRl Hc Hp Hen Hpos]; subst.
  destruct f as [|f]; [done|]. cbn [enc] in Hen. destruct Hen as (H0 & H1 & H2 & H3 & _).
  eexists m, _. rewrite (nav_ind_Some _ _ H0), (nav_ind_Some _ _ H1), (nav_ind_Some _ _ H2). split_and!; [done|done|done|done| |done|done].
  destruct (cached _ _); [|lia]. unfold hasm_of. destruct (t_hast _ _), (t_hasr _ _); cbn; lia.
Qed.

Lemma few_nd' v : nd_of G v = N.of_nat (length (g_dau G v)).
Proof. unfold NavTableModel.nd_of. pose proof (Hfew v). apply N.mod_small. lia. Qed.
Lemma nd_lt v : nd_of G v < 65536.
Proof. unfold nd_of. apply N.mod_lt. lia. Qed.

Lemma Rep_level v l c : Rep (v :: l) c → level_impl t c = Some (N.of_nat (length l)).
Proof.
  intros HR. destruct (Rep_fields _ _ _ HR) as (m & h & _ & _ & _ & H & _). unfold level_impl. rewrite H. cbn.
  rewrite hdr_level; [done|]. pose proof (Hsh _ (Rep_path _ _ HR)) as Hl. cbn in Hl. lia.
Qed.
Lemma Rep_hasm v l c : Rep (v :: l) c → hasm_impl t c =
  Some (if cached v (N.of_nat (length l)) then hasm_of TO (path_matrix G TO (rev (v :: l))) else 0).
Proof.
  intros HR. destruct (Rep_fields _ _ _ HR) as (m & h & _ & _ & _ & H & Hh & E & _). unfold hasm_impl. rewrite H. cbn [mbind option_bind].
  rewrite hdr_hasm; [by rewrite E| |done]. pose proof (Hsh _ (Rep_path _ _ HR)) as Hl. cbn in Hl. lia.
Qed.
Lemma Rep_ndaughters v l c : Rep (v :: l) c → ndaughters_impl t c = Some (N.of_nat (length (g_dau G v))).
Proof.
  intros HR. destruct (Rep_fields _ _ _ HR) as (m & h & _ & _ & _ & H & Hh & _). unfold ndaughters_impl. rewrite H. cbn [mbind option_bind].
  rewrite hdr_nd; [by rewrite few_nd'| |done|apply nd_lt].
  pose proof (Hsh _ (Rep_path _ _ HR)) as Hl. cbn in Hl. lia.
Qed.

(** Injective and functional. *)
Lemma Rep_inj l l' c : Rep l c → Rep l' c → l = l'.
Proof.
  revert l' c. induction l as [|v l IH]; intros l' c H1 H2.
  - symmetry. eapply Rep_zero; [exact H2|]. by apply Rep_nil.
  - destruct l' as [|v' l']; [eapply Rep_zero; [exact H1|]; by apply Rep_nil|].
    destruct (Rep_fields _ _ _ H1) as (m1 & h1 & R1 & A1 & B1 & _).
    destruct (Rep_fields _ _ _ H2) as (m2 & h2 & R2 & A2 & B2 & _).
    rewrite A1 in A2. rewrite B1 in B2. simplify_eq. f_equal. by eapply IH.
Qed.
Lemma Rep_fun l c c' : Rep l c → Rep l c' → c = c'.
Proof.
  revert c c'. induction l as [|v l IH]; intros c c' H1 H2.
  - inversion H1; inversion H2; done.
  - inversion H1 as [|? ? ? m f HRl Hc Hp Hen Hpos]; subst.
    inversion H2 as [|? ? ? m' f' HRl' Hc' Hp' Hen' Hpos']; subst.
    assert (m = m') as -> by (by eapply IH).
    destruct Hpos as [[-> ->]|[? E]], Hpos' as [[? ->]|[? E']]; [done|done|done|congruence].
Qed.

Lemma Rep_pop l c : Rep l c → ∃ m, pop_impl t c = Some m ∧ Rep (tail l) m.
Proof.
  intros HR. destruct l as [|v l].
  - assert (c = 0) as -> by (by apply Rep_nil). exists 0. split; [done|constructor].
  - destruct (Rep_fields _ _ _ HR) as (m & h & R1 & A1 & _). exists m. split; [|done].
    unfold pop_impl. destruct (N.ltb_spec 0 c) as [|Hc]; [done|].
    assert (v :: l = []); [|done]. eapply Rep_zero; [done|]. lia.
Qed.
Lemma Rep_top l c : Rep l c → top_impl t c = Some (head l).
Proof.
  intros HR. destruct l as [|v l].
  - assert (c = 0) as -> by (by apply Rep_nil). done.
  - destruct (Rep_fields _ _ _ HR) as (m & h & R1 & _ & B1 & _).
    unfold top_impl. destruct (N.ltb_spec 0 c) as [|Hc]; [by rewrite B1|].
    assert (v :: l = []); [|done]. eapply Rep_zero; [done|]. lia.
Qed.

(** Climbing: [up] steps, or to the outside for a negative count. *)
Lemma climb_spec l c f up : Rep l c → (length l < f)%nat →
  ∃ c', climb f t c up = Some c' ∧ Rep (if (0 <=? up)%Z then drop (Z.to_nat up) l else []) c'.
Proof.
  revert c up l. induction f as [|f IH]; intros c up l HR Hf; [lia|].
  cbn [climb]. destruct (N.eqb_spec c 0) as [->|Hc].
  { exists 0. split; [done|]. assert (l = []) as -> by (by eapply Rep_zero). rewrite drop_nil.
    destruct (0 <=? up)%Z; constructor. }
  destruct l as [|v l]; [destruct Hc; by apply Rep_nil|].
  destruct (Z.eqb_spec up 0) as [->|Hu].
  { exists c. split; [done|]. done. }
  destruct (Rep_fields _ _ _ HR) as (m & h & R1 & A1 & _). rewrite A1. cbn [mbind option_bind].
  destruct (IH m (up - 1)%Z l R1) as (c' & E & R'); [cbn in Hf; lia|].
  exists c'. split; [done|].
  destruct (Z.leb_spec 0 up) as [H0|H0].
  - rewrite (proj2 (Z.leb_le 0 (up - 1))) in R' by lia.
    replace (Z.to_nat up) with (S (Z.to_nat (up - 1))) by lia. done.
  - rewrite (proj2 (Z.leb_gt 0 (up - 1))) in R' by lia. done.
Qed.

Lemma head_drop (l : list N) i : head (drop i l) = l !! i.
Proof. revert i. induction l as [|x l IH]; intros [|i]; cbn; [done|done|done|apply IH]. Qed.

Lemma level_0 : level_impl t 0 = Some (world mod 256).
Proof.
  destruct (Rep_fields _ _ _ Rep_world) as (m & h & R1 & A1 & B1 & _).
  unfold level_impl. change (0 + 2) with (1 + 1). rewrite B1. done.
Qed.

Lemma nav_index_spec l c f lev : Rep l c → (length l < f)%nat →
  ∃ c', nav_index_impl f t c lev = Some c' ∧ Rep (if (lev <? Z.of_nat (length l))%Z then drop (Z.to_nat (Z.of_nat (length l) - 1 - lev)) l else []) c'.
Proof.
  intros HR Hf. unfold nav_index_impl. destruct l as [|v l].
  - assert (c = 0) as -> by (by apply Rep_nil). rewrite level_0. cbn [mbind option_bind].
    destruct f as [|f]; [lia|]. cbn. exists 0. split; [done|]. rewrite drop_nil. destruct (lev <? _)%Z; constructor.
  - rewrite (Rep_level _ _ _ HR). cbn [mbind option_bind].
    destruct (climb_spec _ _ f (Z.of_N (N.of_nat (length l)) - lev)%Z HR Hf) as (c' & E & R).
    exists c'. split; [done|]. cbn [length].
    destruct (Z.leb_spec 0 (Z.of_N (N.of_nat (length l)) - lev)) as [H0|H0];
      destruct (Z.ltb_spec lev (Z.of_nat (S (length l)))) as [H1|H1]; try lia; [|done].
    by replace (Z.to_nat (Z.of_nat (S (length l)) - 1 - lev)) with (Z.to_nat (Z.of_N (N.of_nat (length l)) - lev)) by lia.
Qed.

Lemma vol_at_drop (l : list N) lev :
  head (if (lev <? Z.of_nat (length l))%Z then drop (Z.to_nat (Z.of_nat (length l) - 1 - lev)) l else []) = vol_at l lev.
Proof.
  unfold vol_at. destruct (Z.ltb_spec lev (Z.of_nat (length l))) as [H|H].
  - rewrite head_drop. destruct (Z.leb_spec 0 lev) as [H0|H0].
    + rewrite (rev_alt l). change (rev_append l []) with (reverse l). rewrite (reverse_lookup l (Z.to_nat lev)) by lia. f_equal. lia.
    + apply lookup_ge_None_2. lia.
  - destruct (Z.leb_spec 0 lev) as [H0|H0]; [|done]. cbn. symmetry. apply lookup_ge_None_2. rewrite rev_length. lia.
Qed.

Lemma nsi_at_spec l s f lev : Rep l (n_ind s) → (length l < f)%nat →
  nsi_at f t s lev = Some (vol_at l lev) ∧
  (∀ v, vol_at l lev = Some v → nsi_value_at f t s lev = Some v).
Proof.
  intros HR Hf. unfold nsi_at, nsi_value_at.
  destruct (nav_index_spec l (n_ind s) f lev HR Hf) as (c' & -> & R). cbn [mbind option_bind].
  rewrite <-vol_at_drop. revert R. generalize (if (lev <? Z.of_nat (length l))%Z then drop (Z.to_nat (Z.of_nat (length l) - 1 - lev)) l else []). intros l' R.
  pose proof (Rep_top _ _ R) as Htop. unfold top_impl in Htop.
  destruct (0 <? c'); [|by simplify_eq; rewrite <- Htop].
  destruct (nav_ind t (c' + 1)) as [v|]; cbn in Htop; [|done]. simplify_eq. rewrite <-Htop. cbn. split; [done|].
  by intros v' [= ->].
Qed.

(** * Histories *)
Definition matches (a : absst) (s : nsi) : Prop :=
  Rep (ab_path a) (n_ind s) ∧ Rep (ab_last a) (n_last s) ∧ n_bnd s = ab_bnd a.
Lemma step_matches a s o a' : matches a s → abs_step G world a o = Some a' →
  ∃ s', nsi_step G t s o = Some s' ∧ matches a' s'.
Proof.
  intros (H1 & H2 & H3). destruct o as [v| | | |b]; cbn; intros E.
  - destruct (push_legal G world (ab_path a) v) eqn:El; [|done]. injection E as <-.
    unfold nsi_push. destruct (ab_path a) as [|p l] eqn:Ep.
    + assert (n_ind s = 0) as -> by (by apply Rep_nil). cbn. eexists. split; [done|].
      cbn in El. apply N.eqb_eq in El as ->. split; [apply Rep_world|done].
    + cbn in El. apply bool_decide_eq_true in El.
      destruct (Rep_push _ _ _ _ H1 El) as (c' & -> & R & _). cbn. eexists. split; [done|]. done.
  - injection E as <-. destruct (Rep_pop _ _ H1) as (m & E & R). unfold nsi_pop. rewrite E. cbn. by eexists.
  - injection E as <-. eexists. split; [done|]. split; [constructor|]. split; [constructor|done].
  - injection E as <-. by eexists.
  - injection E as <-. by eexists.
Qed.
Lemma run_matches os : ∀ a s a', matches a s → abs_run G world a os = Some a' →
  ∃ s', nsi_run G t s os = Some s' ∧ matches a' s'.
Proof.
  induction os as [|o os IH]; intros a s a' Hm; cbn.
  - intros [= <-]. by exists s.
  - destruct (abs_step G world a o) as [a1|] eqn:E; cbn; [|done]. intros Hrun.
    destruct (step_matches _ _ _ _ Hm E) as (s1 & -> & Hm1). cbn. by eapply IH.
Qed.
Lemma matches_new : matches abs_new nsi_new.
Proof. split; [constructor|]. split; [constructor|done]. Qed.

(** * Export / import *)
Lemma Rep_gt1 v d l c : Rep (v :: d :: l) c → 1 < c.
Proof.
  intros HR. destruct (N.lt_ge_cases 1 c); [done|]. exfalso.
  assert (0 < c).
  { destruct (decide (c = 0)) as [->|]; [|lia]. apply Rep_pos in HR. destruct HR as [HR _]. by specialize (HR eq_refl). }
  assert (c = 1) as -> by lia. pose proof (Rep_inj _ _ _ HR Rep_world). done.
Qed.
Lemma indices_loop_spec l f : ∀ c acc, Rep l c → l ≠ [] → (length l < f)%nat →
  indices_loop G f t c acc = Some (tail (positions G l) ++ acc).
Proof.
  revert l. induction f as [|f IH]; intros l c acc HR Hl Hf; [lia|].
  destruct l as [|v [|d l]]; [done| |].
  - assert (v = world) as ->.
    { pose proof (Rep_path _ _ HR) as Hp. by inversion Hp. }
    assert (c = 1) as -> by (eapply Rep_fun; [exact HR|apply Rep_world]). done.
  - cbn [indices_loop]. pose proof (Rep_gt1 _ _ _ _ HR) as Hgt.
    destruct (N.ltb_spec 1 c); [|lia].
    destruct (Rep_fields _ _ _ HR) as (m & h & R1 & A1 & B1 & _). rewrite B1. cbn [mbind option_bind].
    unfold pop_impl. destruct (N.ltb_spec 0 c); [|lia]. rewrite A1. cbn [mbind option_bind].
    rewrite (IH (d :: l)); [|done|done|cbn in *; lia].
    change (positions G (v :: d :: l)) with (positions G (d :: l) ++ [g_child G v]).
    f_equal. assert (positions G (d :: l) ≠ []) as Hne.
    { destruct l as [|e l]; [done|]. change (positions G (d :: e :: l)) with (positions G (e :: l) ++ [g_child G d]).
      by destruct (positions G (e :: l)). }
    destruct (positions G (d :: l)); [done|]. cbn. by rewrite <-app_assoc.
Qed.
Lemma positions_head l : is_path l → l ≠ [] → ∃ k, positions G l = 0 :: k.
Proof.
  induction 1 as [| |v d l Hp IH Hd]; intros Hl; [done|by eexists|].
  change (positions G (d :: v :: l)) with (positions G (v :: l) ++ [g_child G d]).
  destruct IH as [k ->]; [done|]. by eexists.
Qed.
Lemma path_indices_spec l s f : Rep l (n_ind s) → (length l < f)%nat → nsi_path_indices G f t s = Some (positions G l).
Proof.
  intros HR Hf. unfold nsi_path_indices, nsi_outside. destruct (N.eqb_spec (n_ind s) 0) as [E|E].
  - assert (l = []) as -> by (by eapply Rep_zero). done.
  - assert (l ≠ []) as Hl by (intros ->; apply E; by apply Rep_nil).
    rewrite (indices_loop_spec l) by done. cbn. rewrite app_nil_r.
    destruct (positions_head l) as [k ->]; [by eapply Rep_path|done|]. done.
Qed.
(* one more index *)
Lemma reset_loop_app ids1 : ∀ s vol counter ids2,
  reset_loop G t s vol counter (ids1 ++ ids2) =
    (s' ← reset_loop G t s vol counter ids1;
     vol' ← foldl (λ ov ci, v ← ov; if (0 <? ci.1)%nat then g_dau G v !! N.to_nat ci.2 else Some v) (Some vol)
              (zip (seq counter (length ids1)) ids1);
     reset_loop G t s' vol' (counter + length ids1) ids2).
Proof.
  induction ids1 as [|id ids1 IH]; intros s vol counter ids2; cbn.
  - by rewrite Nat.add_0_r.
  - destruct (if (0 <? counter)%nat then g_dau G vol !! N.to_nat id else Some vol) as [v'|] eqn:E; cbn.
    + destruct (nsi_push G t s v') as [s'|]; cbn; [|done]. rewrite IH. cbn.
      destruct (reset_loop G t s' v' (S counter) ids1); cbn; [|done].
      replace (counter + S (length ids1))%nat with (S counter + length ids1)%nat by lia. done.
    + done.
Qed.
Lemma reset_spec l : is_path l → ∀ s, ∃ s', nsi_reset_path G t s world (positions G l) = Some s' ∧
  Rep l (n_ind s') ∧ n_last s' = 0 ∧ n_bnd s' = false.
Proof.
  intros Hp s. unfold nsi_reset_path.
  assert (l ≠ [] → ∃ v k s', head l = Some v ∧ positions G l = k ∧ length k = length l ∧
     reset_loop G t (nsi_clear s) world 0 k = Some s' ∧ Rep l (n_ind s') ∧ n_last s' = 0 ∧ n_bnd s' = false ∧
     foldl (λ ov ci, v ← ov; if (0 <? ci.1)%nat then g_dau G v !! N.to_nat ci.2 else Some v) (Some world)
              (zip (seq 0 (length k)) k) = Some v) as H.
  { induction Hp as [| |v d l Hp IH Hd]; intros Hl; [done| |].
    - eexists _, [0], _. split_and!; [done|done|done|reflexivity|apply Rep_world|done|done|done].
    - destruct IH as (v' & k & s' & [= <-] & Ek & Hk & Er & HR & H1 & H2 & Hf); [done|].
      change (positions G (d :: v :: l)) with (positions G (v :: l) ++ [g_child G d]). rewrite Ek.
      apply elem_of_list_lookup in Hd as [i Hi]. pose proof (Hch _ _ _ Hi) as Ei.
      destruct (Rep_push v l (n_ind s') d HR) as (c' & Epush & R' & _); [by eapply elem_of_list_lookup_2|].
      eexists d, _, (Nsi c' (n_last s') (n_bnd s')). split_and!; [done|done|rewrite app_length; cbn in *; lia| |done|done|done|].
      + rewrite reset_loop_app, Er, Hf. cbn [mbind option_bind reset_loop]. destruct (Nat.ltb_spec 0 (0 + length k)) as [|Hz]; [|cbn in *; lia].
        rewrite Ei, Nat2N.id, Hi. cbn. unfold nsi_push. rewrite Epush. done.
      + rewrite app_length. cbn [length]. rewrite seq_app, zip_with_app by (by rewrite seq_length).
        rewrite foldl_app, Hf. cbn. destruct (Nat.ltb_spec 0 (length k)) as [|Hz]; [|cbn in *; lia].
        by rewrite Ei, Nat2N.id. }
  destruct l as [|v l].
  - exists (nsi_clear s). split; [done|]. split; [constructor|done].
  - destruct H as (v' & k & s' & _ & -> & _ & E & R & H1 & H2 & _); [done|]. by exists s'.
Qed.
End Proofs.
