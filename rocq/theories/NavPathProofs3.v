From stdpp Require Import list option gmap fin_maps.
From Coq Require Import NArith ZArith Lia ZifyN ZifyBool ZifyNat.
From Verif Require Import NavTableModel NavTableSpec NavTableProofs NavStateProofs NavPathModel NavPathSpec NavPathProofs NavPathProofs2.
Local Open Scope N_scope.

Local Arguments N.mul : simpl never.
Local Arguments N.add : simpl never.
Local Arguments N.sub : simpl never.
Local Arguments N.modulo : simpl never.
Local Arguments N.div : simpl never.
Local Arguments N.of_nat : simpl never.
Local Arguments N.land : simpl never.
Local Arguments N.to_nat : simpl never.
Local Arguments N.ltb : simpl never.
Local Arguments N.eqb : simpl never.
Local Arguments Nat.ltb : simpl never.
Local Arguments Nat.sub : simpl never.
Local Arguments Z.add : simpl never.
Local Arguments Z.sub : simpl never.

Lemma final_size {T} (G : geo T) TO r limit rank world fuel :
  r = 1 ∨ r = 2 → acyclic G rank → few_daughters G → (rank world < fuel)%nat →
  ∃ bytes st, table_size G r limit fuel world = Some bytes ∧
    create_table G TO r limit fuel world = Some st ∧ 4 * cur st = bytes.
Proof.
  intros Hr Hac Hfew Hf. destruct (create_table_spec G TO r limit Hr rank Hac Hfew fuel world Hf) as (m & E & _).
  eexists _, _. split_and!; [by eapply table_size_spec|exact E|done].
Qed.

Section Final.
Context {T : Type} (G : geo T) (TO : tops T) (r limit : N) (rank : N → nat) (world : N) (fuel : nat) (st : vst T).
Context (Hr : r = 1 ∨ r = 2) (H : hierarchy G world rank fuel) (Hst : create_table G TO r limit fuel world = Some st).
Notation t := (tab st).
Notation Rep := (Rep G TO r limit world t).

Lemma t_enc : enc G TO r limit t fuel world 0 0 1 [world].
Proof.
  destruct H as [Hac Hch Hfew Hsh Hf].
  destruct (create_table_spec G TO r limit Hr rank Hac Hfew fuel world Hf) as (m & E & He & _).
  rewrite Hst in E. injection E as ->. done.
Qed.
Let He := t_enc.
Let Hch : child_ids G := h_child _ _ _ _ H.
Let Hfew : few_daughters G := h_few _ _ _ _ H.
Let Hsh : shallow G world := h_shallow _ _ _ _ H.

Lemma path_index_Rep l : is_path G world l → ∃ c, path_index G t l = Some c ∧ Rep l c.
Proof.
  induction 1 as [| |v d l Hp IH Hd].
  - exists 0. split; [done|constructor].
  - exists 1. split; [done|]. eapply Rep_world, He.
  - destruct IH as (c & E & HR). destruct (Rep_push G TO r limit Hch world t v l c d HR Hd) as (c' & E' & HR' & _).
    exists c'. split; [|done]. cbn [path_index] in *. rewrite E. cbn [mbind option_bind]. done.
Qed.
Lemma path_index_is l c : is_path G world l → path_index G t l = Some c → Rep l c.
Proof. intros Hp E. destruct (path_index_Rep l Hp) as (c' & E' & HR). congruence. Qed.
Lemma len_fuel l f : is_path G world l → (256 ≤ f)%nat → (length l < f)%nat.
Proof. intros Hp Hf. pose proof (Hsh _ Hp). lia. Qed.

Lemma final_index l : is_path G world l →
  ∃ c, path_index G t l = Some c ∧ (c = 0 ↔ l = []) ∧
    (∀ l', is_path G world l' → path_index G t l' = Some c → l' = l) ∧
    ∀ v up, l = v :: up →
      ∃ m, path_index G t up = Some m ∧ pop_impl t c = Some m ∧ top_impl t c = Some (Some v) ∧
        level_impl t c = Some (N.of_nat (length up)) ∧
        ndaughters_impl t c = Some (N.of_nat (length (g_dau G v))) ∧
        ∀ k d, g_dau G v !! k = Some d → nav_ind t (c + 3 + N.of_nat k) = path_index G t (d :: v :: up).
Proof.
  intros Hp. destruct (path_index_Rep l Hp) as (c & E & HR). exists c. split; [done|]. split; [by eapply Rep_pos|]. split.
  - intros l' Hp' E'. apply path_index_is in E'; [|done]. by eapply Rep_inj.
  - intros v up ->. destruct (Rep_pop _ _ _ _ _ _ _ _ HR) as (m & Em & HRm). cbn [tail] in HRm.
    assert (is_path G world up) as Hup by (by apply (path_suffix G world [v])).
    destruct (path_index_Rep up Hup) as (m' & Em' & HRm').
    assert (m' = m) as -> by (by eapply Rep_fun). exists m. split_and!; [done|done|..].
    + by rewrite (Rep_top _ _ _ _ _ _ _ _ HR).
    + by apply (Rep_level G TO r limit world Hsh t v).
    + by apply (Rep_ndaughters G TO r limit Hfew world Hsh t v up).
    + intros k d Hk. assert (d ∈ g_dau G v) as Hd by (by eapply elem_of_list_lookup_2).
      change (path_index G t (d :: v :: up)) with (c ← path_index G t (v :: up); push_impl G t c d).
      rewrite E. cbn [mbind option_bind]. unfold push_impl. rewrite (Hch _ _ _ Hk).
      destruct (N.ltb_spec 0 c) as [|Hc]; [done|]. assert (c = 0) as E0 by lia. exfalso.
      pose proof (Rep_zero _ _ _ _ _ _ _ _ HR E0). done.
Qed.

(** * Histories on the compact state *)
Lemma final_history os a : abs_run G world abs_new os = Some a →
  ∃ s, nsi_run G t nsi_new os = Some s ∧ matches G TO r limit world t a s ∧ is_path G world (ab_path a) ∧ is_path G world (ab_last a).
Proof.
  intros E. destruct (run_matches G TO r limit Hch world fuel t He os abs_new nsi_new a) as (s & Es & Hm); [apply matches_new|done|].
  exists s. split; [done|]. split; [done|]. destruct Hm as (H1 & H2 & _). split; by eapply Rep_path.
Qed.
Lemma final_stack os a f : abs_run G world abs_new os = Some a → (256 ≤ f)%nat →
  ∃ s, nsi_run G t nsi_new os = Some s ∧
    nsi_outside s = bool_decide (ab_path a = []) ∧
    nsi_top t s = Some (head (ab_path a)) ∧
    (ab_path a ≠ [] → nsi_level t s = Some (N.of_nat (length (ab_path a) - 1))) ∧
    (∀ v up, ab_path a = v :: up → nsi_ndaughters t s = Some (N.of_nat (length (g_dau G v)))) ∧
    (∀ i, nsi_at f t s i = Some (vol_at (ab_path a) i)) ∧
    (∀ i v, vol_at (ab_path a) i = Some v → nsi_value_at f t s i = Some v) ∧
    nsi_last_exited t s = Some (head (ab_last a)) ∧ n_bnd s = ab_bnd a.
Proof.
  intros E Hf. destruct (final_history os a E) as (s & Es & (HR & HL & Hb) & Hp & Hpl). exists s. split; [done|].
  pose proof (nsi_at_spec G TO r limit world Hsh fuel t He (ab_path a) s f) as Hat. split_and!.
  - unfold nsi_outside. destruct (N.eqb_spec (n_ind s) 0) as [E0|E0]; symmetry.
    + apply bool_decide_eq_true_2. by eapply Rep_zero.
    + apply bool_decide_eq_false_2. intros E1. apply E0. rewrite E1 in HR. by eapply Rep_nil.
  - by eapply Rep_top.
  - intros Hne. rewrite (nsi_level_spec G TO r limit world Hsh t _ _ HR Hne). f_equal. lia.
  - intros v up Ev. rewrite Ev in HR. by apply (Rep_ndaughters G TO r limit Hfew world Hsh t v up).
  - intros i. apply Hat; [done|by apply len_fuel].
  - intros i. apply Hat; [done|by apply len_fuel].
  - by eapply Rep_top.
  - done.
Qed.
Lemma final_same os1 os2 a1 a2 s1 s2 : abs_run G world abs_new os1 = Some a1 → abs_run G world abs_new os2 = Some a2 →
  nsi_run G t nsi_new os1 = Some s1 → nsi_run G t nsi_new os2 = Some s2 →
  nsi_same s1 s2 = bool_decide (ab_path a1 = ab_path a2).
Proof.
  intros E1 E2 R1 R2. destruct (final_history _ _ E1) as (s1' & ? & (HR1 & _) & _). destruct (final_history _ _ E2) as (s2' & ? & (HR2 & _) & _).
  simplify_eq. unfold nsi_same. destruct (N.eqb_spec (n_ind s1) (n_ind s2)) as [E|E]; symmetry.
  - apply bool_decide_eq_true_2. rewrite E in HR1. by eapply Rep_inj.
  - apply bool_decide_eq_false_2. intros Ep. apply E. rewrite Ep in HR1. by eapply Rep_fun.
Qed.
Lemma final_outside s : n_ind s = 0 →
  nsi_level t s = Some (world mod 256) ∧ ∀ v, nsi_push G t s v = Some (Nsi 1 (n_last s) (n_bnd s)).
Proof.
  intros E. unfold nsi_level, nsi_push. rewrite E. split; [by eapply level_0|done].
Qed.

(** The same history on both kinds of state. *)
Lemma abs_list os : ∀ a a', abs_run G world a os = Some a' → ab_path a' = foldl list_step (ab_path a) os ∧ ab_bnd a' = foldl bnd_step (ab_bnd a) os.
Proof.
  induction os as [|o os IH]; intros a a'; cbn; [by intros [= <-]|].
  destruct (abs_step G world a o) as [a1|] eqn:E; cbn; [|done]. intros Hrun. destruct (IH _ _ Hrun) as [-> ->].
  destruct o as [v| | | |b]; cbn in E; try (injection E as <-; done).
  destruct (push_legal G world (ab_path a) v); [|done]. by injection E as <-.
Qed.
Lemma final_both os a f m : abs_run G world abs_new os = Some a → (256 ≤ f)%nat → depth_ok (Nat.min (m + 1) 255) [] os →
  ∃ s p, nsi_run G t nsi_new os = Some s ∧ nsp_run (nsp_make m) os = Some p ∧
    nsi_outside s = nsp_outside p ∧ nsi_top t s = nsp_top p ∧ n_bnd s = p_bnd p ∧
    nsi_path_indices G f t s = nsp_path_indices G p ∧
    (nsi_outside s = false → nsi_level t s = Some (nsp_level p)) ∧
    (∀ i, (i < length (ab_path a))%nat → nsi_at f t s (Z.of_nat i) = nsp_at p (Z.of_nat i)).
Proof.
  intros E Hf Hd. destruct (final_stack os a f E Hf) as (s & Es & Ho & Ht & Hl & _ & Hat & _ & _ & Hb).
  destruct (PRep_run (m + 1) os [] (nsp_make m) (PRep_make m) Hd) as (p & Ep & HP & Hpb).
  destruct (abs_list _ _ _ E) as [El Eb]. cbn [ab_path ab_bnd abs_new] in El, Eb. rewrite <-El in HP.
  destruct (final_history os a E) as (s' & Es' & (HR & _) & Hp & _). rewrite Es in Es'. injection Es' as <-.
  exists s, p. split_and!; [done|done|..].
  - rewrite Ho. symmetry. by eapply PRep_outside.
  - rewrite Ht. symmetry. by eapply PRep_top.
  - by rewrite Hb, Eb, Hpb.
  - rewrite (nsp_path_indices_spec G Hch world _ _ _ HP Hp).
    eapply path_indices_spec; [exact He|exact HR|by apply len_fuel].
  - rewrite Ho. intros Hne. apply bool_decide_eq_false in Hne. rewrite Hl by done. rewrite (PRep_level _ _ _ HP Hne). f_equal. lia.
  - intros i Hi. rewrite (PRep_at _ _ _ _ HP Hi), Hat. unfold vol_at. rewrite (proj2 (Z.leb_le _ _)) by lia. by rewrite Nat2Z.id.
Qed.

(** Round trips. *)
Lemma final_roundtrip os a f s s0 : abs_run G world abs_new os = Some a → (256 ≤ f)%nat →
  nsi_run G t nsi_new os = Some s →
  ∃ ids s', nsi_path_indices G f t s = Some ids ∧ ids = positions G (ab_path a) ∧
    nsi_reset_path G t s0 world ids = Some s' ∧ nsi_same s s' = true ∧ n_bnd s' = false ∧ nsi_last_exited t s' = Some None.
Proof.
  intros E Hf Es. destruct (final_history os a E) as (s1 & Es1 & (HR & _) & Hp & _). rewrite Es in Es1. injection Es1 as <-.
  destruct (reset_spec G TO r limit Hch world fuel t He (ab_path a) Hp s0) as (s' & E' & HR' & Hl & Hb).
  exists (positions G (ab_path a)), s'. split_and!; [|done|done| |done|].
  - eapply path_indices_spec; [exact He|exact HR|by apply len_fuel].
  - unfold nsi_same. apply N.eqb_eq. by eapply Rep_fun.
  - unfold nsi_last_exited. by rewrite Hl.
Qed.

(** Matrices. *)
Context {P : Type} (act : T → P → P) (ok : T → Prop) (Hok : tops_ok TO act ok) (Hgok : ∀ v, ok (g_tr G v)).
Lemma r_pos : 0 < r.
Proof. clear -Hr. lia. Qed.
Lemma final_matrix os a f s : abs_run G world abs_new os = Some a → (256 ≤ f)%nat → nsi_run G t nsi_new os = Some s →
  ∃ m, nsi_top_matrix G TO r f t s = Some m ∧ ∀ p, act m p = local_point G act (ab_path a) p.
Proof.
  intros E Hf Es. destruct (final_history os a E) as (s1 & Es1 & (HR & _) & Hp & _). rewrite Es in Es1. injection Es1 as <-.
  destruct (top_matrix_spec G TO r limit r_pos Hfew world Hsh fuel t act ok Hok Hgok (ab_path a) f (n_ind s) (t_one TO) HR) as (m & Em & _ & Hm);
    [by apply len_fuel|apply (ok_one _ _ _ Hok)|]. exists m. split; [done|]. intros p. by rewrite Hm, (act_one _ _ _ Hok).
Qed.
Lemma final_matrix_to os a f s lev : abs_run G world abs_new os = Some a → (256 ≤ f)%nat → nsi_run G t nsi_new os = Some s →
  (lev < length (ab_path a))%nat →
  ∃ m, nsi_top_matrix_to G TO r f t s (Z.of_nat lev) = Some m ∧
    ∀ p, act m p = local_point G act (drop (length (ab_path a) - 1 - lev) (ab_path a)) p.
Proof.
  intros E Hf Es Hlev. destruct (final_history os a E) as (s1 & Es1 & (HR & _) & Hp & _). rewrite Es in Es1. injection Es1 as <-.
  pose proof (len_fuel _ _ Hp Hf) as Hlf.
  destruct (nav_index_spec G TO r limit world Hsh fuel t He (ab_path a) (n_ind s) f (Z.of_nat lev) HR Hlf) as (c & Ec & HRc).
  rewrite (proj2 (Z.ltb_lt _ _)) in HRc by lia.
  replace (Z.to_nat (Z.of_nat (length (ab_path a)) - 1 - Z.of_nat lev)) with (length (ab_path a) - 1 - lev)%nat in HRc by lia.
  unfold nsi_top_matrix_to. rewrite Ec. cbn [mbind option_bind].
  destruct (top_matrix_spec G TO r limit r_pos Hfew world Hsh fuel t act ok Hok Hgok _ f c (t_one TO) HRc) as (m & Em & _ & Hm);
    [rewrite drop_length; lia|apply (ok_one _ _ _ Hok)|]. exists m. split; [done|]. intros p. by rewrite Hm, (act_one _ _ _ Hok).
Qed.
Lemma final_validate teq os a f m p : abs_run G world abs_new os = Some a → (256 ≤ f)%nat →
  depth_ok (Nat.min (m + 1) 255) [] os → nsp_run (nsp_make m) os = Some p → ab_path a ≠ [] →
  (∀ m1 m2, ok m1 → ok m2 → (∀ p, act m1 p = act m2 p) → teq m1 m2 = true) →
  ∃ c, path_index G t (ab_path a) = Some c ∧ validate G TO r teq f t p = Some (true, c).
Proof.
  intros E Hf Hd Ep Hne Hteq.
  destruct (PRep_run (m + 1) os [] (nsp_make m) (PRep_make m) Hd) as (p' & Ep' & HP & _). rewrite Ep in Ep'. injection Ep' as <-.
  destruct (abs_list _ _ _ E) as [El _]. cbn [ab_path abs_new] in El. rewrite <-El in HP.
  destruct (final_history os a E) as (s & _ & _ & Hp & _). destruct (path_index_Rep _ Hp) as (c & Ec & HR).
  exists c. split; [done|]. apply (validate_spec G TO r limit r_pos Hch Hfew world Hsh fuel t He act ok Hok Hgok teq (m + 1) (ab_path a)); try done.
  by apply len_fuel.
Qed.
(** Comparisons. *)
Lemma final_compare os1 os2 a1 a2 s1 s2 f : abs_run G world abs_new os1 = Some a1 → abs_run G world abs_new os2 = Some a2 →
  nsi_run G t nsi_new os1 = Some s1 → nsi_run G t nsi_new os2 = Some s2 → ab_path a1 ≠ [] → ab_path a2 ≠ [] → (256 ≤ f)%nat →
  nsi_distance f t s1 s2 = Some (Z.of_nat (length (ab_path a1)) + Z.of_nat (length (ab_path a2))
     - 2 * Z.of_nat (common (rev (ab_path a1)) (rev (ab_path a2))))%Z ∧
  ∃ ms, nsi_relative f t s1 s2 = Some ms ∧ foldl do_move (ab_path a1) ms = ab_path a2.
Proof.
  intros E1 E2 R1 R2 Hn1 Hn2 Hf.
  destruct (final_history _ _ E1) as (s1' & ? & (HR1 & _) & Hp1 & _). destruct (final_history _ _ E2) as (s2' & ? & (HR2 & _) & Hp2 & _). simplify_eq.
  pose proof (len_fuel _ _ Hp1 Hf). pose proof (len_fuel _ _ Hp2 Hf). split.
  - by eapply (nsi_distance_spec G TO r limit world Hsh fuel t He).
  - by eapply (nsi_relative_spec G TO r limit world Hsh fuel t He).
Qed.
End Final.

(** * NavStatePath alone *)
Lemma final_path os m : depth_ok (Nat.min (m + 1) 255) [] os →
  let l := foldl list_step [] os in
  ∃ s, nsp_run (nsp_make m) os = Some s ∧
    nsp_outside s = bool_decide (l = []) ∧ nsp_top s = Some (head l) ∧
    nsp_current_level s = N.of_nat (length l) ∧ (l ≠ [] → nsp_level s = N.of_nat (length l - 1)) ∧
    (∀ i, (i < length l)%nat → nsp_at s (Z.of_nat i) = Some (rev l !! i)) ∧ p_bnd s = foldl bnd_step false os.
Proof.
  intros Hd l. destruct (PRep_run (m + 1) os [] (nsp_make m) (PRep_make m) Hd) as (s & Es & HP & Hb). fold l in HP.
  exists s. split_and!; [done|by eapply PRep_outside|by eapply PRep_top|apply HP| |intros; by eapply PRep_at|done].
  intros Hl. rewrite (PRep_level _ _ _ HP Hl). lia.
Qed.
Lemma final_path_pair os1 os2 m1 m2 s1 s2 :
  depth_ok (Nat.min (m1 + 1) 255) [] os1 → depth_ok (Nat.min (m2 + 1) 255) [] os2 →
  nsp_run (nsp_make m1) os1 = Some s1 → nsp_run (nsp_make m2) os2 = Some s2 →
  let l1 := foldl list_step [] os1 in let l2 := foldl list_step [] os2 in
  nsp_same s1 s2 = Some (bool_decide (l1 = l2)) ∧
  nsp_distance s1 s2 = Some (Z.of_nat (length l1) + Z.of_nat (length l2) - 2 * Z.of_nat (common (rev l1) (rev l2)))%Z ∧
  (∃ ms, nsp_relative s1 s2 = Some ms ∧ foldl do_move l1 ms = l2) ∧
  ((length l2 ≤ m1 + 1)%nat → ∃ s, nsp_assign s1 s2 = Some s ∧ nsp_same s s2 = Some true ∧ p_bnd s = p_bnd s2) ∧
  (m1 = m2 → (length l2 < m2 + 1)%nat → ∃ s, nsp_copy_to s2 s1 = Some s ∧ nsp_same s s2 = Some true ∧ p_bnd s = p_bnd s2 ∧ p_n s = p_n s1).
Proof.
  intros H1 H2 R1 R2 l1 l2.
  destruct (PRep_run (m1 + 1) os1 [] (nsp_make m1) (PRep_make m1) H1) as (s1' & ? & P1 & _).
  destruct (PRep_run (m2 + 1) os2 [] (nsp_make m2) (PRep_make m2) H2) as (s2' & ? & P2 & _). simplify_eq. fold l1 in P1. fold l2 in P2.
  split_and!.
  - by eapply nsp_same_spec.
  - by eapply nsp_distance_spec.
  - by eapply nsp_relative_spec.
  - intros Hle. destruct (nsp_assign_spec _ _ _ _ _ _ P1 P2 Hle) as (s & E & HP & Hb). exists s. split_and!; [done| |done].
    rewrite (nsp_same_spec _ _ _ _ _ _ HP P2). by rewrite bool_decide_eq_true_2.
  - intros -> Hlt. destruct (nsp_copy_spec _ _ _ s1 P2) as (s & E & HP & Hb); [by apply P1|done|]. exists s. split_and!; [done| |done|].
    + rewrite (nsp_same_spec _ _ _ _ _ _ HP P2). by rewrite bool_decide_eq_true_2.
    + transitivity (m2 + 1)%nat; [apply HP|symmetry; apply P1].
Qed.
Lemma final_path_roundtrip {T} (G : geo T) world os a m os' s0 p : child_ids G →
  abs_run G world abs_new os = Some a → depth_ok (Nat.min (m + 1) 255) [] os → nsp_run (nsp_make m) os = Some p →
  depth_ok (Nat.min (m + 1) 255) [] os' → nsp_run (nsp_make m) os' = Some s0 → is_path G world (ab_path a) →
  ∃ ids s', nsp_path_indices G p = Some ids ∧ nsp_reset_path G s0 world ids = Some s' ∧
    nsp_same p s' = Some true ∧ p_bnd s' = p_bnd s0.
Proof.
  intros Hch E H1 R1 H2 R2 Hp.
  destruct (PRep_run (m + 1) os [] (nsp_make m) (PRep_make m) H1) as (s1' & ? & P1 & _).
  destruct (PRep_run (m + 1) os' [] (nsp_make m) (PRep_make m) H2) as (s2' & ? & P2 & _). simplify_eq.
  destruct (abs_list _ _ _ _ _ E) as [El _]. cbn [ab_path abs_new] in El. rewrite <-El in P1.
  destruct (nsp_reset_spec G Hch world (m + 1) _ (ab_path a) s0 P2 Hp) as (s' & E' & HP & Hb); [apply P1|apply P1|].
  exists (positions G (ab_path a)), s'. split_and!; [by eapply nsp_path_indices_spec|done| |done].
  rewrite (nsp_same_spec _ _ _ _ _ _ P1 HP). by rewrite bool_decide_eq_true_2.
Qed.
Lemma abs_path_legal {T} (G : geo T) world os : ∀ a a', is_path G world (ab_path a) → abs_run G world a os = Some a' → is_path G world (ab_path a').
Proof.
  induction os as [|o os IH]; intros a a' Hp; cbn; [by intros [= <-]|].
  destruct (abs_step G world a o) as [a1|] eqn:E; cbn; [|done]. apply IH.
  destruct o as [v| | | |b]; cbn in E.
  - destruct (push_legal G world (ab_path a) v) eqn:El; [|done]. injection E as <-. cbn. unfold push_legal in El.
    destruct (ab_path a) as [|u l]; [apply N.eqb_eq in El as ->; constructor|]. apply bool_decide_eq_true in El. by constructor.
  - injection E as <-. cbn. destruct (ab_path a) as [|u l]; [done|]. by apply (path_suffix G world [u]).
  - injection E as <-. constructor.
  - by injection E as <-.
  - by injection E as <-.
Qed.
Lemma final_path_matrix {T} (G : geo T) TO {P} (act : T → P → P) ok os m s p :
  tops_ok TO act ok → (∀ v, ok (g_tr G v)) → depth_ok (Nat.min (m + 1) 255) [] os → nsp_run (nsp_make m) os = Some s →
  (∃ mat, nsp_top_matrix G TO s = Some mat ∧ act mat p = local_point G act (foldl list_step [] os) p) ∧
  nsp_global_to_local G act s p = Some (foldr (λ d q, act (g_tr G d) q) p (foldl list_step [] os)).
Proof.
  intros Hok Hg Hd R. destruct (PRep_run (m + 1) os [] (nsp_make m) (PRep_make m) Hd) as (s' & ? & HP & _). simplify_eq. split.
  - eexists. split; [exact (nsp_top_matrix_spec G TO _ _ _ HP)|]. destruct (path_matrix_spec G TO act ok Hok Hg (foldl list_step [] os)) as [_ E]. apply E.
  - by eapply nsp_g2l_spec.
Qed.
Lemma final_path_roundtrip' {T} (G : geo T) world os a m os' s0 p : child_ids G →
  abs_run G world abs_new os = Some a → depth_ok (Nat.min (m + 1) 255) [] os → nsp_run (nsp_make m) os = Some p →
  depth_ok (Nat.min (m + 1) 255) [] os' → nsp_run (nsp_make m) os' = Some s0 →
  ∃ ids s', nsp_path_indices G p = Some ids ∧ nsp_reset_path G s0 world ids = Some s' ∧
    nsp_same p s' = Some true ∧ p_bnd s' = p_bnd s0.
Proof.
  intros. eapply final_path_roundtrip; try done. eapply abs_path_legal; [|done]. constructor.
Qed.
Lemma final_copy_full os m s other : depth_ok (Nat.min (m + 1) 255) [] os → nsp_run (nsp_make m) os = Some s →
  length (foldl list_step [] os) = (m + 1)%nat → nsp_copy_to s other = None.
Proof.
  intros Hd R Hl. destruct (PRep_run (m + 1) os [] (nsp_make m) (PRep_make m) Hd) as (s' & ? & (Hc & _ & _ & _ & _ & Hlen) & _). simplify_eq.
  unfold nsp_copy_to. rewrite Hc, Nat2N.id, Hlen, Hl. by rewrite (proj2 (Nat.leb_gt (m + 1 + 1) (m + 1))) by lia.
Qed.
Lemma push_depth d vs : ∀ l, (length l + length vs ≤ d)%nat → depth_ok d l (map NPush vs).
Proof. induction vs as [|v vs IH]; intros l Hl; cbn in *; [done|]. split; [lia|]. apply IH. cbn. lia. Qed.
Lemma push_length vs : ∀ l, length (foldl list_step l (map NPush vs)) = (length l + length vs)%nat.
Proof. induction vs as [|v vs IH]; intros l; cbn; [lia|]. rewrite IH. cbn. lia. Qed.
Lemma nsp_run_app os1 : ∀ os2 s, nsp_run s (os1 ++ os2) = (s' ← nsp_run s os1; nsp_run s' os2).
Proof. induction os1 as [|o os1 IH]; intros os2 s; cbn; [done|]. destruct (nsp_step s o); cbn; [apply IH|done]. Qed.
Lemma final_wrap vs : length vs = 256%nat → ∃ s, nsp_run (nsp_make 255) (map NPush vs) = Some s ∧ nsp_outside s = true.
Proof.
  intros Hl. destruct (exists_last (l := vs)) as (vs' & v & ->); [by destruct vs|]. rewrite app_length in Hl. cbn in Hl.
  destruct (PRep_run (255 + 1) (map NPush vs') [] (nsp_make 255) (PRep_make 255)) as (s & E & (Hc & _ & _ & _ & _ & Hlen) & _).
  { apply push_depth. cbn. lia. }
  rewrite map_app, nsp_run_app, E. cbn [mbind option_bind map nsp_run nsp_step].
  rewrite push_length in Hc. cbn [length] in Hc. replace (0 + length vs')%nat with 255%nat in Hc by lia.
  unfold nsp_push, set_slot. rewrite Hc, Hlen. change (N.to_nat (N.of_nat 255)) with 255%nat.
  destruct (Nat.ltb_spec 255 (255 + 1)); [|lia]. cbn [mbind option_bind]. by eexists.
Qed.

Lemma final_assign_slots a b s : nsp_assign a b = Some s → (p_n b ≤ length (p_vals b))%nat → length (p_vals a) = p_n a →
  ∀ i, (i < p_n a)%nat → p_vals s !! i = Some (if (i <? p_n b)%nat then default 0 (p_vals b !! i) else 0).
Proof.
  unfold nsp_assign. intros E Hb Ha i Hi. rewrite Ha in E. set (k := if (p_n b <=? p_n a)%nat then p_n b else p_n a) in *.
  assert (k = Nat.min (p_n a) (p_n b)) as Hk by (unfold k; destruct (Nat.leb_spec (p_n b) (p_n a)); lia).
  destruct (_ && _); [|done]. injection E as <-. cbn [p_vals].
  destruct (Nat.ltb_spec i (p_n b)) as [Hlt|Hge].
  - rewrite lookup_app_l by (rewrite take_length; lia). rewrite lookup_take by lia.
    destruct (lookup_lt_is_Some_2 (p_vals b) i) as [x ->]; [lia|done].
  - rewrite lookup_app_r by (rewrite take_length; lia). rewrite take_length. rewrite lookup_app_l by (rewrite replicate_length; lia).
    rewrite lookup_replicate. split; [done|lia].
Qed.
