From stdpp Require Import list option gmap fin_maps.
From Coq Require Import NArith ZArith Lia ZifyN ZifyBool ZifyNat.
From Verif Require Import NavTableModel NavTableSpec NavTableProofs NavStateProofs NavPathModel NavPathSpec NavPathProofs.
Local Open Scope N_scope.

Local Arguments N.mul : simpl never.
Local Arguments N.add : simpl never.
Local Arguments N.sub : simpl never.
Local Arguments N.modulo : simpl never.
Local Arguments N.div : simpl never.
Local Arguments N.of_nat : simpl never.
Local Arguments N.land : simpl never.
Local Arguments N.to_nat : simpl never.
Local Arguments N.ltb : simpl never.
Local Arguments N.eqb : simpl never.
Local Arguments Nat.ltb : simpl never.
Local Arguments Nat.sub : simpl never.
Local Arguments Z.add : simpl never.
Local Arguments Z.sub : simpl never.

Section Geo.
Context {T : Type} (G : geo T) (TO : tops T).
Hypothesis Hch : child_ids G.
Context (world : N).
Notation is_path := (is_path G world).

Lemma dau_NoDup p : NoDup (g_dau G p).
Proof.
  apply NoDup_alt. intros i j x Hi Hj. pose proof (Hch _ _ _ Hi). pose proof (Hch _ _ _ Hj). lia.
Qed.
Lemma path_suffix a l : is_path (a ++ l) → is_path l.
Proof.
  induction a as [|x a IH]; cbn; [done|]. intros H. apply IH. inversion H as [| |v d l' H1 H2]; subst; [|done].
  constructor.
Qed.
Lemma path_child v d l : is_path (d :: v :: l) → g_dau G v !! N.to_nat (g_child G d) = Some d ∧ d ∈ g_dau G v.
Proof.
  inversion 1 as [| |v' d' l' H1 H2]; subst. split; [|done].
  apply elem_of_list_lookup in H2 as [k Hk]. by rewrite (Hch _ _ _ Hk), Nat2N.id.
Qed.
Lemma path_bottom_world v : is_path [v] → v = world.
Proof. by inversion 1. Qed.
Lemma positions_cons d v l : positions G (d :: v :: l) = positions G (v :: l) ++ [g_child G d].
Proof. done. Qed.
Lemma positions_app q l : l ≠ [] → positions G (rev q ++ l) = positions G l ++ map (g_child G) q.
Proof.
  intros Hl. induction q as [|d q IH] using rev_ind; [cbn; by rewrite app_nil_r|].
  rewrite rev_app_distr, map_app. cbn [rev app map].
  destruct (rev q ++ l) as [|v r] eqn:E; [by apply app_eq_nil in E as [_ ->]|].
  rewrite positions_cons, IH. by rewrite app_assoc.
Qed.
Lemma positions_length l : length (positions G l) = length l.
Proof.
  induction l as [|d [|v l] IH]; [done|done|]. rewrite positions_cons, app_length, IH. cbn. lia.
Qed.

Lemma path_loop_spec cap l s pre l' acc : PRep cap l s → l = pre ++ l' → is_path l' → l' ≠ [] →
  path_loop G s (length l' - 1) acc = Some (tail (positions G l') ++ acc).
Proof.
  intros HP. revert pre acc. induction l' as [|d l' IH]; intros pre acc El Hp Hl; [done|].
  destruct l' as [|v l']; [done|].
  replace (length (d :: v :: l') - 1)%nat with (S (length l')) by (cbn [length]; lia). cbn [path_loop].
  assert (slot s (N.of_nat (length l')) = Some v) as ->.
  { eapply PRep_slot'; [exact HP|]. rewrite El, rev_app_distr. cbn. rewrite !lookup_app_l by (rewrite !app_length, rev_length; cbn; lia).
    rewrite lookup_app_r by (rewrite rev_length; lia). by rewrite rev_length, Nat.sub_diag. }
  assert (slot s (N.of_nat (S (length l'))) = Some d) as ->.
  { eapply PRep_slot'; [exact HP|]. rewrite El, rev_app_distr. cbn. rewrite lookup_app_l by (rewrite !app_length, rev_length; cbn; lia).
    rewrite lookup_app_r by (rewrite app_length, rev_length; cbn; lia). rewrite app_length, rev_length. cbn [length].
    by replace (S (length l') - (length l' + 1))%nat with O by lia. }
  cbn [mbind option_bind]. destruct (path_child _ _ _ Hp) as [Hk _].
  rewrite (find_index_spec _ _ _ 0 (dau_NoDup v) Hk). cbn [mbind option_bind].
  replace (0 + N.of_nat (N.to_nat (g_child G d))) with (g_child G d) by lia.
  specialize (IH (pre ++ [d]) (g_child G d :: acc)). replace (length (v :: l') - 1)%nat with (length l') in IH by (cbn [length]; lia).
  rewrite IH; [|by rewrite <-app_assoc|by apply (path_suffix [d])|done].
  rewrite positions_cons. destruct (positions G (v :: l')) as [|x k] eqn:E.
  { pose proof (positions_length (v :: l')) as H. by rewrite E in H. }
  cbn. by rewrite <-app_assoc.
Qed.
Lemma nsp_path_indices_spec cap l s : PRep cap l s → is_path l → nsp_path_indices G s = Some (positions G l).
Proof.
  intros HP Hp. unfold nsp_path_indices. rewrite (PRep_outside _ _ _ HP). destruct l as [|v l].
  - by rewrite bool_decide_eq_true_2.
  - rewrite bool_decide_eq_false_2 by done. rewrite (proj1 HP), Nat2N.id.
    rewrite (path_loop_spec cap (v :: l) s [] (v :: l) []) by done. cbn [mbind option_bind].
    rewrite app_nil_r. destruct (positions_head G world (v :: l)) as [k Hk]; [done|done|]. by rewrite Hk.
Qed.

Lemma nsp_reset_loop_spec q : ∀ l s, is_path (rev q ++ l) → l ≠ [] → take (length l) (p_vals s) = rev l →
  (length q + length l ≤ length (p_vals s))%nat →
  ∃ vs, nsp_reset_loop G s (N.of_nat (length l)) (map (g_child G) q) = Some (Nsp vs (p_n s) (p_cur s) (p_cache s) (p_bnd s)) ∧
    take (length q + length l) vs = rev l ++ q ∧ length vs = length (p_vals s).
Proof.
  induction q as [|d q IH]; intros l s Hp Hl Ht Hlen; cbn [map nsp_reset_loop].
  - exists (p_vals s). rewrite app_nil_r. split_and!; [by destruct s|done|done].
  - destruct l as [|v l]; [done|]. cbn [length] in *.
    assert (slot s (N.of_nat (S (length l)) - 1) = Some v) as ->.
    { unfold slot. replace (N.to_nat (N.of_nat (S (length l)) - 1)) with (length l) by lia.
      rewrite <-(lookup_take _ (S (length l))) by lia. rewrite Ht. cbn.
      rewrite lookup_app_r by (rewrite rev_length; lia). by rewrite rev_length, Nat.sub_diag. }
    cbn [mbind option_bind]. cbn [rev] in Hp. rewrite <-app_assoc in Hp. cbn [app] in Hp.
    destruct (path_child v d l) as [Hk _]; [by apply (path_suffix (rev q))|]. rewrite Hk. cbn [mbind option_bind].
    unfold set_slot. rewrite Nat2N.id. destruct (Nat.ltb_spec (S (length l)) (length (p_vals s))); [|lia]. cbn [mbind option_bind].
    replace (N.of_nat (S (length l)) + 1) with (N.of_nat (length (d :: v :: l))) by (cbn [length]; lia).
    destruct (IH (d :: v :: l) (Nsp (<[S (length l) := d]> (p_vals s)) (p_n s) (p_cur s) (p_cache s) (p_bnd s))) as (vs & E & Htk & Hvs).
    + done.
    + done.
    + cbn [p_vals length rev]. rewrite (take_S_r _ _ d) by (apply list_lookup_insert; lia).
      rewrite take_insert by lia. cbn [rev] in Ht. by rewrite Ht.
    + cbn [p_vals length]. rewrite insert_length. lia.
    + cbn [p_vals p_n p_cur p_cache p_bnd] in *. rewrite E. exists vs. split_and!; [done| |by rewrite Hvs, insert_length].
      cbn [length] in Htk. replace (S (length q) + S (length l))%nat with (length q + S (S (length l)))%nat by lia.
      rewrite Htk. cbn [rev]. rewrite <-!app_assoc. done.
Qed.
Lemma nsp_reset_spec cap l0 l s : PRep cap l0 s → is_path l → (length l ≤ cap)%nat → (length l ≤ 255)%nat →
  ∃ s', nsp_reset_path G s world (positions G l) = Some s' ∧ PRep cap l s' ∧ p_bnd s' = p_bnd s.
Proof.
  intros (Hc & H1 & H2 & Ht & Hn & Hl) Hp Hcap H255. unfold nsp_reset_path.
  destruct l as [|v0 l1].
  - eexists. split; [done|]. split; [|done]. unfold PRep. cbn. split_and!; done || lia.
  - destruct (exists_last (l := v0 :: l1)) as (pre & w & E); [done|]. rewrite E in *. clear E v0 l1.
    assert (w = world) as -> by (apply path_bottom_world; by eapply path_suffix).
    assert (∃ q, pre = rev q) as [q ->] by (exists (rev pre); by rewrite rev_involutive).
    rewrite positions_app by done. cbn [positions app length].
    unfold set_slot at 1. cbn [p_vals]. rewrite app_length, rev_length in *. cbn [length] in *.
    destruct (Nat.ltb_spec (N.to_nat 0) (length (p_vals s))); [|lia]. cbn [mbind option_bind p_n p_cur p_cache p_bnd].
    destruct (nsp_reset_loop_spec q [world] (Nsp (<[N.to_nat 0 := world]> (p_vals s)) (p_n s)
      (N.of_nat (S (length (map (g_child G) q))) mod 256) (p_cache s) (p_bnd s))) as (vs & E & Htk & Hvs).
    + done.
    + done.
    + cbn [p_vals length rev app]. destruct (p_vals s); [cbn in *; lia|done].
    + cbn [p_vals length]. rewrite insert_length. lia.
    + cbn [p_vals p_n p_cur p_cache p_bnd length] in *. change (N.of_nat 1) with 1 in E. rewrite E.
      eexists. split; [done|]. split; [|done]. unfold PRep. cbn [p_vals p_n p_cur].
      rewrite app_length, rev_length. cbn [length]. rewrite map_length. split_and!; [|lia|lia| |done|].
      * rewrite N.mod_small by lia. lia.
      * rewrite Htk, rev_app_distr, rev_involutive. done.
      * rewrite Hvs, insert_length. done.
Qed.
End Geo.

Section Cmp.
Context {T : Type} (G : geo T) (TO : tops T) (r limit : N).
Context (world : N) (Hsh : shallow G world).
Context (F : nat) (t : ntab T) (Henc : enc G TO r limit t F world 0 0 1 [world]).
Notation Rep := (Rep G TO r limit world t).
(** * Comparing compact states *)
Lemma nsi_at_nat l s f j : Rep l (n_ind s) → (length l < f)%nat → nsi_at f t s (Z.of_nat j) = Some (rev l !! j).
Proof.
  intros HR Hf. destruct (nsi_at_spec G TO r limit world Hsh F t Henc l s f (Z.of_nat j) HR Hf) as [-> _].
  unfold vol_at. rewrite (proj2 (Z.leb_le _ _)) by lia. by rewrite Nat2Z.id.
Qed.
Lemma nsi_value_nat l s f j x : Rep l (n_ind s) → (length l < f)%nat → rev l !! j = Some x → nsi_value_at f t s (Z.of_nat j) = Some x.
Proof.
  intros HR Hf Hx. destruct (nsi_at_spec G TO r limit world Hsh F t Henc l s f (Z.of_nat j) HR Hf) as [_ H]. apply H.
  unfold vol_at. rewrite (proj2 (Z.leb_le _ _)) by lia. by rewrite Nat2Z.id.
Qed.
Lemma nsi_level_spec l s : Rep l (n_ind s) → l ≠ [] → nsi_level t s = Some (N.of_nat (length l) - 1).
Proof.
  intros HR Hl. destruct l as [|v l]; [done|]. unfold nsi_level. rewrite (Rep_level G TO r limit world Hsh t _ _ _ HR).
  f_equal. cbn [length]. lia.
Qed.
Lemma nsi_common l1 l2 a b f : Rep l1 (n_ind a) → Rep l2 (n_ind b) → l1 ≠ [] → l2 ≠ [] →
  (length l1 < f)%nat → (length l2 < f)%nat →
  common_loop (nsi_at f t a) (nsi_at f t b) 0
    (N.to_nat (N.min (N.of_nat (length l1) - 1) (N.of_nat (length l2) - 1)) + 1) (-1)
  = Some (Z.of_nat (common (rev l1) (rev l2)) - 1)%Z.
Proof.
  intros H1 H2 Hl1 Hl2 Hf1 Hf2. apply common_loop_0.
  - rewrite !rev_length. destruct l1, l2; try done. cbn [length]. lia.
  - intros j _. by apply nsi_at_nat.
  - intros j _. by apply nsi_at_nat.
Qed.
Lemma nsi_distance_spec l1 l2 a b f : Rep l1 (n_ind a) → Rep l2 (n_ind b) → l1 ≠ [] → l2 ≠ [] →
  (length l1 < f)%nat → (length l2 < f)%nat →
  nsi_distance f t a b = Some (Z.of_nat (length l1) + Z.of_nat (length l2) - 2 * Z.of_nat (common (rev l1) (rev l2)))%Z.
Proof.
  intros H1 H2 Hl1 Hl2 Hf1 Hf2. unfold nsi_distance.
  rewrite (nsi_level_spec l1 a), (nsi_level_spec l2 b) by done. cbn [mbind option_bind].
  rewrite (nsi_common l1 l2) by done. cbn [mbind option_bind]. f_equal. destruct l1, l2; try done. cbn [length]. lia.
Qed.
Lemma nsi_relative_spec l1 l2 a b f : Rep l1 (n_ind a) → Rep l2 (n_ind b) → l1 ≠ [] → l2 ≠ [] →
  (length l1 < f)%nat → (length l2 < f)%nat →
  ∃ ms, nsi_relative f t a b = Some ms ∧ foldl do_move l1 ms = l2.
Proof.
  intros H1 H2 Hl1 Hl2 Hf1 Hf2. unfold nsi_relative.
  rewrite (nsi_level_spec l1 a), (nsi_level_spec l2 b) by done. cbn [mbind option_bind].
  rewrite (nsi_common l1 l2) by done. cbn [mbind option_bind].
  destruct (relative_spec (rev l1) (rev l2) (nsi_value_at f t a) (nsi_value_at f t b)) as (ms & E & Hms).
  - intros j x. by apply nsi_value_nat.
  - intros j x. by apply nsi_value_nat.
  - rewrite !rev_length in E. exists ms. rewrite !rev_involutive in Hms. split; [|done]. rewrite <-E. f_equal.
    + destruct l1; [done|]. cbn [length]. lia.
    + destruct l2; [done|]. cbn [length]. lia.
Qed.

End Cmp.

(** * Matrices *)
Section Pm.
Context {T : Type} (G : geo T) (TO : tops T).
Context {P : Type} (act : T → P → P) (ok : T → Prop) (Hok : tops_ok TO act ok) (Hgok : ∀ v, ok (g_tr G v)).
Lemma local_point_cons v w l p : local_point G act (v :: w :: l) p = act (g_tr G v) (local_point G act (w :: l) p).
Proof.
  clear Hok Hgok. unfold local_point. cbn [length]. replace (S (S (length l)) - 1)%nat with (S (S (length l) - 1)) by lia. done.
Qed.
Lemma path_matrix_cons v w l : path_matrix G TO (rev (v :: w :: l)) = t_mul TO (path_matrix G TO (rev (w :: l))) (g_tr G v).
Proof.
  clear Hok Hgok. unfold path_matrix. change (rev (v :: w :: l)) with (rev (w :: l) ++ [v]).
  rewrite drop_app_le by (rewrite rev_length; cbn [length]; lia). by rewrite foldl_app.
Qed.
Lemma path_matrix_spec l : ok (path_matrix G TO (rev l)) ∧ ∀ p, act (path_matrix G TO (rev l)) p = local_point G act l p.
Proof.
  destruct l as [|v l]; [split; [apply (ok_one _ _ _ Hok)|apply (act_one _ _ _ Hok)]|].
  revert v. induction l as [|w l IH]; intros v.
  - split; [apply (ok_one _ _ _ Hok)|apply (act_one _ _ _ Hok)].
  - rewrite path_matrix_cons. destruct (IH w) as [IH1 IH2]. split; [by apply (ok_mul _ _ _ Hok)|].
    intros p. rewrite (act_mul _ _ _ Hok) by done. by rewrite IH2, local_point_cons.
Qed.

End Pm.

Section Mat.
Context {T : Type} (G : geo T) (TO : tops T) (r limit : N).
Context (Hr : 0 < r).
Context (Hch : child_ids G) (Hfew : few_daughters G).
Context (world : N) (Hsh : shallow G world).
Context (F : nat) (t : ntab T) (Henc : enc G TO r limit t F world 0 0 1 [world]).
Context {P : Type} (act : T → P → P) (ok : T → Prop) (Hok : tops_ok TO act ok) (Hgok : ∀ v, ok (g_tr G v)).
Notation Rep := (Rep G TO r limit world t).

Lemma land_hasm m : N.land (hasm_of TO m) 4 = 4 ∧ N.land (hasm_of TO m) 3 = 2 * N.b2n (t_hast TO m) + N.b2n (t_hasr TO m) ∧
  (0 <? N.land (hasm_of TO m) 2) = t_hast TO m ∧ (0 <? N.land (hasm_of TO m) 1) = t_hasr TO m.
Proof. unfold hasm_of. by destruct (t_hast TO m), (t_hasr TO m). Qed.

Lemma read_mat_spec a m : (∀ k, k < 12 * r → t !! (a + k) = Some (WM m k)) → read_mat r t a = Some m.
Proof.
  intros H. unfold read_mat. pose proof (H 0 ltac:(lia)) as H0. rewrite N.add_0_r in H0.
  unfold ntab in *. rewrite H0.
  assert (forallb (λ k, match t !! (a + N.of_nat k) with Some (WM _ k') => k' =? N.of_nat k | _ => false end)
    (seq 0 (N.to_nat (12 * r))) = true) as ->; [|done].
  apply forallb_forall. intros k Hk. apply in_seq in Hk. rewrite H by lia. apply N.eqb_refl.
Qed.

Lemma cached_zero v : cached G limit v 0 = true.
Proof. unfold cached. destruct (N.ltb_spec limit 0); [lia|]. by rewrite andb_false_r. Qed.

Lemma top_matrix_spec l f : ∀ c tr, Rep l c → (length l < f)%nat → ok tr →
  ∃ m, top_matrix_impl G TO r f t c tr = Some m ∧ ok m ∧ ∀ p, act m p = act tr (local_point G act l p).
Proof.
  revert f. induction l as [|v l IH]; intros f c tr HR Hf Htr; (destruct f as [|f]; [cbn in Hf; lia|]).
  - apply Rep_nil in HR as ->. exists tr. done.
  - assert (0 < c) as Hc.
    { destruct (decide (c = 0)) as [->|]; [|lia]. pose proof (Rep_zero _ _ _ _ _ _ _ _ HR eq_refl). done. }
    pose proof (Rep_hasm G TO r limit world Hsh t _ _ _ HR) as Hh.
    destruct (Rep_fields G TO r limit world t _ _ _ HR) as (m & h & HRl & Hm & Hv & _ & _ & _ & Hmat).
    pose proof (Rep_ndaughters G TO r limit Hfew world Hsh t _ _ _ HR) as Hnd.
    unfold top_matrix_impl. cbn [climb_uncached].
    destruct (N.eqb_spec c 0); [lia|]. rewrite Hh. cbn [mbind option_bind].
    destruct (cached G limit v (N.of_nat (length l))) eqn:Ec.
    + pose proof (path_matrix_spec G TO act ok Hok Hgok (v :: l)) as [Hpok Hpact]. set (pm := path_matrix G TO (rev (v :: l))) in *.
      destruct (land_hasm pm) as (E4 & E3 & E2 & E1). rewrite E4. cbn [N.ltb N.compare]. cbv beta iota.
      change (0 <? 4) with true. cbv beta iota. cbn [mbind option_bind].
      destruct (N.eqb_spec c 0); [lia|]. rewrite E3.
      destruct (N.eqb_spec (2 * N.b2n (t_hast TO pm) + N.b2n (t_hasr TO pm)) 0) as [E|E].
      * exists tr. split; [done|]. split; [done|]. intros p. rewrite <-Hpact. f_equal. symmetry.
        apply (act_no_flags _ _ _ Hok); [done|..]; by destruct (t_hast TO pm), (t_hasr TO pm).
      * rewrite Hnd. cbn [mbind option_bind]. rewrite <-(few_nd' G Hfew v).
        rewrite (read_mat_spec _ pm) by (by apply Hmat). cbn [mbind option_bind]. rewrite E2, E1.
        pose proof (ok_set _ _ _ Hok pm Hpok). eexists. split; [done|]. split; [by apply (ok_mul _ _ _ Hok)|].
        intros p. rewrite (act_mul _ _ _ Hok) by done. by rewrite (act_set _ _ _ Hok), Hpact by done.
    + change (0 <? N.land 0 4) with false. cbv beta iota. rewrite Hv, Hm. cbn [mbind option_bind].
      destruct l as [|w l]; [by rewrite cached_zero in Ec|].
      destruct (IH f m (t_mul TO (g_tr G v) tr) HRl) as (mm & E & Hmok & Hmact); [cbn in *; lia|by apply (ok_mul _ _ _ Hok)|].
      unfold top_matrix_impl in E. exists mm. split; [done|]. split; [done|]. intros p.
      rewrite Hmact, (act_mul _ _ _ Hok) by done. by rewrite (local_point_cons G act).
Qed.

(** * ValidateState *)
Lemma validate_loop_spec cap l s n : PRep cap l s → is_path G world l → ∀ pre l' c, l = pre ++ l' → l' ≠ [] → length pre = n →
  Rep l' c → ∃ c', validate_loop G t s (N.of_nat (length l')) n c = Some c' ∧ Rep l c'.
Proof.
  intros HP Hp. induction n as [|n IH]; intros pre l' c El Hl Hn HR; cbn [validate_loop].
  - apply nil_length_inv in Hn as ->. subst l. by exists c.
  - destruct (exists_last (l := pre)) as (pre' & d & ->); [by destruct pre|].
    rewrite <-app_assoc in El. cbn in El. rewrite app_length in Hn. cbn in Hn.
    assert (slot s (N.of_nat (length l')) = Some d) as ->.
    { eapply PRep_slot'; [exact HP|]. rewrite El, rev_app_distr. cbn [rev].
      rewrite lookup_app_l by (rewrite app_length, rev_length; cbn; lia).
      rewrite lookup_app_r by (rewrite rev_length; lia). by rewrite rev_length, Nat.sub_diag. }
    cbn [mbind option_bind]. destruct l' as [|v l']; [done|].
    assert (is_path G world (d :: v :: l')) as Hp' by (apply (path_suffix G world pre'); by rewrite <-El).
    destruct (path_child G Hch world v d l' Hp') as [_ Hd].
    destruct (Rep_push G TO r limit Hch world t v l' c d HR Hd) as (c' & -> & HR' & _). cbn [mbind option_bind].
    replace (N.of_nat (length (v :: l')) + 1) with (N.of_nat (length (d :: v :: l'))) by (cbn [length]; lia).
    apply (IH pre'); [done|done|lia|done].
Qed.
Lemma validate_spec teq cap l s f c : PRep cap l s → is_path G world l → l ≠ [] → Rep l c → (length l < f)%nat →
  (∀ m1 m2, ok m1 → ok m2 → (∀ p, act m1 p = act m2 p) → teq m1 m2 = true) →
  validate G TO r teq f t s = Some (true, c).
Proof.
  intros HP Hp Hl HR Hf Hteq. unfold validate. rewrite (PRep_level _ _ _ HP Hl), (PRep_top _ _ _ HP).
  destruct (exists_last (l := l)) as (pre & w & El); [done|].
  assert (w = world) as ->.
  { apply (path_bottom_world G), (path_suffix G world pre). by rewrite <-El. }
  destruct (validate_loop_spec cap l s (length pre) HP Hp pre [world] 1 El) as (c' & E & HR'); [done|done|by eapply Rep_world|].
  assert (c' = c) as -> by (by eapply Rep_fun).
  change (N.of_nat (length [world])) with 1 in E.
  replace (N.to_nat (N.of_nat (length l) - 1)) with (length pre) by (rewrite El, app_length; cbn [length]; lia).
  rewrite E. cbn [mbind option_bind]. rewrite (Rep_top _ _ _ _ _ _ _ _ HR). cbn [mbind option_bind].
  destruct l as [|v l]; [done|]. cbn [head]. rewrite (Rep_level G TO r limit world Hsh t _ _ _ HR). cbn [mbind option_bind].
  replace (N.of_nat (length (v :: l)) - 1) with (N.of_nat (length l)) by (cbn [length]; lia).
  assert ((if 0 <? N.of_nat (length l) then
          m ← pop_impl t c; v ← slot s (N.of_nat (length l)); c' ← push_impl G t m v; Some (c' =? c)
        else Some true) = Some true) as ->.
  { destruct (N.ltb_spec 0 (N.of_nat (length l))) as [H0|H0]; [|done].
    destruct (Rep_pop _ _ _ _ _ _ _ _ HR) as (m & -> & HRm). cbn [mbind option_bind tail] in *.
    assert (slot s (N.of_nat (length l)) = Some v) as ->.
    { eapply PRep_slot'; [exact HP|]. cbn. rewrite lookup_app_r by (rewrite rev_length; lia). by rewrite rev_length, Nat.sub_diag. }
    cbn [mbind option_bind]. destruct l as [|u l]; [cbn in H0; lia|].
    destruct (path_child G Hch world u v l Hp) as [_ Hd].
    destruct (Rep_push G TO r limit Hch world t u l m v HRm Hd) as (c' & -> & HR'' & _). cbn [mbind option_bind].
    assert (c' = c) as -> by (by eapply Rep_fun). by rewrite N.eqb_refl. }
  cbn [mbind option_bind]. rewrite (Rep_ndaughters G TO r limit Hfew world Hsh t _ _ _ HR). cbn [mbind option_bind].
  rewrite (nsp_top_matrix_spec G TO _ _ _ HP). cbn [mbind option_bind].
  destruct (top_matrix_spec (v :: l) f c (t_one TO) HR Hf (ok_one _ _ _ Hok)) as (m & -> & Hmok & Hact). cbn [mbind option_bind].
  destruct (path_matrix_spec G TO act ok Hok Hgok (v :: l)) as [Hpok Hpact].
  rewrite Hteq; [|done|done|].
  - cbn [eq_opt]. by rewrite !N.eqb_refl.
  - intros p. by rewrite Hpact, Hact, (act_one _ _ _ Hok).
Qed.
End Mat.
