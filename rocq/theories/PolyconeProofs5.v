(** Convexity, Reset and the maker. *)
From Coq Require Import Reals Lra Lia Bool.
From stdpp Require Import base list option numbers tactics.
From Verif Require Import Real3 BoxModel ConeModel ConeSpec ConeProofs PolyconeModel PolyconeSpec PolyconeProofs PolyconeProofs2 PolyconeProofs3.
Import stdpp.list.
Local Open Scope R_scope.

(** * The reduced list of a strictly increasing list *)
Definition pairs (l : list plane) : list (plane * plane) := zip l (tail l).
Lemma strict_tail c l : ascending (c :: l) → ascending l.
Proof. intros H a b Hab. apply H. by apply adjacent_cons. Qed.
Lemma doubled_even a b rest : ascending (a :: b :: rest) → Nat.odd (length (a :: doubled_rest (b :: rest))) = false.
Proof.
  revert a b. induction rest as [|c rest IH]; intros a b Hs; [done|].
  pose proof (Hs b c (adjacent_cons _ _ _ _ (adjacent_head _ _ _))) as Hbc.
  cbn [doubled_rest]. destruct (reqb_spec (pl_z b) (pl_z c)); [lra|]. cbn [negb orb app].
  change (length (a :: b :: b :: doubled_rest (c :: rest))) with (S (S (length (b :: doubled_rest (c :: rest))))).
  apply (IH b c). by apply strict_tail in Hs.
Qed.
Lemma paired_strict a b rest : ascending (a :: b :: rest) → paired (a :: doubled_rest (b :: rest)) = pairs (a :: b :: rest).
Proof.
  revert a b. induction rest as [|c rest IH]; intros a b Hs.
  - pose proof (Hs a b (adjacent_head _ _ _)). cbn. destruct (reqb_spec (pl_z a) (pl_z b)); [lra|done].
  - pose proof (Hs b c (adjacent_cons _ _ _ _ (adjacent_head _ _ _))) as Hbc. pose proof (Hs a b (adjacent_head _ _ _)) as Hab.
    cbn [doubled_rest]. destruct (reqb_spec (pl_z b) (pl_z c)); [lra|]. cbn [negb orb app paired].
    destruct (reqb_spec (pl_z a) (pl_z b)); [lra|]. cbn [negb]. change (pairs (a :: b :: c :: rest)) with ((a, b) :: pairs (b :: c :: rest)).
    f_equal. apply (IH b c). by apply strict_tail in Hs.
Qed.
Lemma reduced_strict a b rest : ascending (a :: b :: rest) → reduced (a :: b :: rest) = pairs (a :: b :: rest).
Proof.
  intros Hs. unfold reduced, evened. change (doubled (a :: b :: rest)) with (a :: doubled_rest (b :: rest)).
  rewrite (doubled_even a b rest Hs). by apply paired_strict.
Qed.
Lemma pairs_lookup l k a b : pairs l !! k = Some (a, b) ↔ l !! k = Some a ∧ l !! S k = Some b.
Proof.
  unfold pairs. assert (Et : tail l !! k = l !! S k) by (by destruct l). rewrite lookup_zip_with_Some, Et. split.
  - intros (x & y & [= <- <-] & H1 & H2). done.
  - intros [H1 H2]. eauto 6.
Qed.
Lemma adjacent_lookup l a b : adjacent l a b ↔ ∃ k, l !! k = Some a ∧ l !! S k = Some b.
Proof.
  split.
  - intros (l1 & l2 & ->). exists (length l1). split; [by rewrite list_lookup_middle|].
    rewrite lookup_app_r by lia. by replace (S (length l1) - length l1)%nat with 1%nat by lia.
  - intros (k & Ha & Hb). exists (take k l), (drop (S (S k)) l). rewrite <- (take_drop k l) at 1. f_equal.
    rewrite (drop_S l a k Ha). f_equal. by rewrite (drop_S l b (S k) Hb).
Qed.

(** * Concave profiles *)
Definition profile (a b : plane) (z : R) : R := line (pl_z a) (pl_rmax a) (pl_z b) (pl_rmax b) z.
Lemma profile_slope a b z : pl_z a < pl_z b → profile a b z = pl_rmax a + slope (a, b) * (z - pl_z a).
Proof. intros H. unfold profile, line, slope. cbn. field. lra. Qed.
Lemma profile_slope' a b z : pl_z a < pl_z b → profile a b z = pl_rmax b + slope (a, b) * (z - pl_z b).
Proof. intros H. unfold profile, line, slope. cbn. field. lra. Qed.
Definition falling (l : list plane) : Prop :=
  ∀ k a b c, l !! k = Some a → l !! S k = Some b → l !! S (S k) = Some c → slope (b, c) <= slope (a, b).

Section concave.
Variable l : list plane.
Hypothesis Hst : ascending l.
Hypothesis Hfall : falling l.
Lemma strict_at k a b : l !! k = Some a → l !! S k = Some b → pl_z a < pl_z b.
Proof. intros H1 H2. apply Hst, adjacent_lookup. by exists k. Qed.
Lemma strict_le i j a b : (i <= j)%nat → l !! i = Some a → l !! j = Some b → pl_z a <= pl_z b.
Proof.
  revert b. induction j as [|j IH]; intros b Hij Ha Hb; [assert (i = 0)%nat as -> by lia; rewrite Ha in Hb; injection Hb as ->; lra|].
  destruct (decide (i = S j)) as [->|]; [rewrite Ha in Hb; injection Hb as ->; lra|].
  destruct (l !! j) as [c|] eqn:E; [|apply lookup_ge_None in E; apply lookup_lt_Some in Hb; lia].
  pose proof (IH c ltac:(lia) Ha eq_refl). pose proof (strict_at j c b E Hb). lra.
Qed.
Lemma profile_up i j a b c e z : (i <= j)%nat → l !! i = Some a → l !! S i = Some b → l !! j = Some c → l !! S j = Some e →
  pl_z c <= z → profile c e z <= profile a b z.
Proof.
  intros Hij Ha Hb. revert c e. induction j as [|j IH]; intros c e Hc He Hz.
  { assert (i = 0)%nat as -> by lia. rewrite Ha in Hc. injection Hc as <-. rewrite Hb in He. injection He as <-. lra. }
  destruct (decide (i = S j)) as [->|]; [rewrite Ha in Hc; injection Hc as <-; rewrite Hb in He; injection He as <-; lra|].
  destruct (l !! j) as [x|] eqn:E; [|apply lookup_ge_None in E; apply lookup_lt_Some in Hc; lia].
  pose proof (strict_at j x c E Hc) as Hxc. pose proof (strict_at (S j) c e Hc He) as Hce.
  pose proof (IH ltac:(lia) x c eq_refl Hc ltac:(lra)) as HIH. pose proof (Hfall j x c e E Hc He) as Hsl.
  rewrite (profile_slope' x c) in HIH by done. rewrite (profile_slope c e) by done. nra.
Qed.
Lemma profile_down i j a b c e z : (j <= i)%nat → l !! i = Some a → l !! S i = Some b → l !! j = Some c → l !! S j = Some e →
  z <= pl_z e → profile c e z <= profile a b z.
Proof.
  intros Hij Ha Hb Hc He Hz. revert a b Ha Hb. induction i as [|i IH]; intros a b Ha Hb.
  { assert (j = 0)%nat as -> by lia. rewrite Ha in Hc. injection Hc as <-. rewrite Hb in He. injection He as <-. lra. }
  destruct (decide (j = S i)) as [->|]; [rewrite Ha in Hc; injection Hc as <-; rewrite Hb in He; injection He as <-; lra|].
  destruct (l !! i) as [x|] eqn:E; [|apply lookup_ge_None in E; apply lookup_lt_Some in Ha; lia].
  pose proof (strict_at i x a E Ha) as Hxa. pose proof (strict_at (S i) a b Ha Hb) as Hab.
  pose proof (IH ltac:(lia) x a eq_refl Ha) as HIH. pose proof (Hfall i x a b E Ha Hb) as Hsl.
  rewrite (profile_slope' x a) in HIH by done. rewrite (profile_slope a b) by done.
  pose proof (strict_le (S j) (S i) e a ltac:(lia) He Ha). nra.
Qed.
Lemma profile_least i j a b c e z : l !! i = Some a → l !! S i = Some b → l !! j = Some c → l !! S j = Some e →
  pl_z c <= z <= pl_z e → profile c e z <= profile a b z.
Proof.
  intros Ha Hb Hc He Hz. destruct (decide (i <= j)%nat); [apply (profile_up i j); auto; lra|apply (profile_down i j); auto; [lia|lra]].
Qed.
Lemma cover i j a b z : (i < j)%nat → l !! i = Some a → l !! j = Some b → pl_z a <= z <= pl_z b →
  ∃ k c e, l !! k = Some c ∧ l !! S k = Some e ∧ pl_z c <= z <= pl_z e.
Proof.
  intros Hij Ha. revert b. induction j as [|j IH]; intros b Hb Hz; [lia|].
  destruct (l !! j) as [x|] eqn:E; [|apply lookup_ge_None in E; apply lookup_lt_Some in Hb; lia].
  destruct (Rle_dec (pl_z x) z) as [Hx|Hx]; [exists j, x, b; split; [done|]; split; [done|lra]|].
  destruct (decide (i = j)) as [->|]; [rewrite Ha in E; injection E as ->; lra|]. apply (IH ltac:(lia) x eq_refl). lra.
Qed.
End concave.

Lemma rho_mix p q u : 0 <= u <= 1 → rho (vadd (vscale (1 - u) p) (vscale u q)) <= (1 - u) * rho p + u * rho q.
Proof.
  intros Hu. pose proof (rho_nonneg p) as Hp. pose proof (rho_nonneg q) as Hq.
  pose proof (rho_sqr p) as Ep. pose proof (rho_sqr q) as Eq.
  apply sqr_le_le; [nra|]. rewrite rho_sqr. unfold perp2 in *. cbn.
  assert (Hcs : vx p * vx q + vy p * vy q <= rho p * rho q).
  { destruct (Rle_dec (vx p * vx q + vy p * vy q) 0) as [|Hpos]; [nra|]. apply sqr_le_le; [nra|].
    replace (rho p * rho q * (rho p * rho q)) with ((rho p * rho p) * (rho q * rho q)) by ring. rewrite Ep, Eq.
    pose proof (Rle_0_sqr (vx p * vy q - vy p * vx q)) as Hz. unfold Rsqr in Hz. nra. }
  assert (H1 : 0 <= (1 - u) * u) by nra.
  pose proof (Rmult_le_compat_l _ _ _ H1 Hcs) as H2.
  replace (((1 - u) * rho p + u * rho q) * ((1 - u) * rho p + u * rho q)) with
    ((1 - u) * (1 - u) * (rho p * rho p) + u * u * (rho q * rho q) + 2 * ((1 - u) * u * (rho p * rho q))) by ring.
  rewrite Ep, Eq. nra.
Qed.
Lemma line_mix z1 r1 z2 r2 z z' u : z1 < z2 → line z1 r1 z2 r2 ((1 - u) * z + u * z') = (1 - u) * line z1 r1 z2 r2 z + u * line z1 r1 z2 r2 z'.
Proof. intros H. unfold line. field. lra. Qed.

Lemma body_convex l : ascending l → falling l → (∀ a, a ∈ l → pl_rmin a = 0) → convex (body l).
Proof.
  intros Hst Hfall H0 p q u (a & b & Hab & Hlt & (Hpz & Hpo & _)) (c & e & Hce & Hlt' & (Hqz & Hqo & _)) Hu.
  apply adjacent_lookup in Hab as (i & Ha & Hb), Hce as (j & Hc & He).
  set (m := vadd (vscale (1 - u) p) (vscale u q)).
  assert (Hzm : vz m = (1 - u) * vz p + u * vz q) by (unfold m; cbn; ring).
  assert (Hcov : ∃ k x y, l !! k = Some x ∧ l !! S k = Some y ∧ pl_z x <= vz m <= pl_z y).
  { destruct (decide (i <= j)%nat) as [Hij|Hij].
    - pose proof (strict_le l Hst i j a c Hij Ha Hc). pose proof (strict_le l Hst (S i) (S j) b e ltac:(lia) Hb He).
      apply (cover l i (S j) a e); [lia|done|done|]. rewrite Hzm. split; nra.
    - pose proof (strict_le l Hst j i c a ltac:(lia) Hc Ha). pose proof (strict_le l Hst (S j) (S i) e b ltac:(lia) He Hb).
      apply (cover l j (S i) c b); [lia|done|done|]. rewrite Hzm. split; nra. }
  destruct Hcov as (k & x & y & Hx & Hy & Hz). exists x, y. split; [apply adjacent_lookup; by exists k|].
  pose proof (strict_at l Hst k x y Hx Hy) as Hxy. split; [done|]. split; [done|]. split.
  - pose proof (profile_least l Hst Hfall k i x y a b (vz p) Hx Hy Ha Hb Hpz) as H1.
    pose proof (profile_least l Hst Hfall k j x y c e (vz q) Hx Hy Hc He Hqz) as H2. unfold profile in H1, H2.
    rewrite Hzm, line_mix by done. pose proof (rho_mix p q u Hu) as H3. fold m in H3.
    assert ((1 - u) * rho p <= (1 - u) * line (pl_z x) (pl_rmax x) (pl_z y) (pl_rmax y) (vz p)) by (apply Rmult_le_compat_l; lra).
    assert (u * rho q <= u * line (pl_z x) (pl_rmax x) (pl_z y) (pl_rmax y) (vz q)) by (apply Rmult_le_compat_l; lra). lra.
  - rewrite (H0 x), (H0 y) by (by eapply elem_of_list_lookup_2). lra.
Qed.

(** * What the flags say *)
Lemma continuous_slope_falling start l : continuous_slope start l = true →
  ∀ k ab cd, l !! k = Some ab → l !! S k = Some cd → slope cd <= slope ab.
Proof.
  revert start. induction l as [|x l IH]; intros start H k ab cd Ha Hc; [done|]. cbn in H. apply andb_true_iff in H as [H1 H2].
  destruct k as [|k]; [|by apply (IH _ H2 k)]. injection Ha as ->. destruct l as [|y l]; [done|]. injection Hc as ->.
  cbn in H2. apply andb_true_iff in H2 as [H2 _]. by apply rleb_true in H2.
Qed.
Lemma equal_rmax_all r l : equal_rmax r l = true → ∀ a, a ∈ l → pl_rmax a = r.
Proof.
  revert r. induction l as [|x l IH]; intros r H a Ha; [by apply not_elem_of_nil in Ha|]. cbn in H. apply andb_true_iff in H as [H1 H2].
  apply reqb_true in H1. subst r. apply elem_of_cons in Ha as [->|Ha]; [done|]. by apply (IH _ H2).
Qed.
Lemma flat_elem l ab : ab ∈ l → ab.1 ∈ flat l ∧ ab.2 ∈ flat l.
Proof. intros H. unfold flat. split; apply elem_of_list_bind; exists ab; (split; [|done]); rewrite !elem_of_cons; auto. Qed.

Theorem detect_convexity_sound inf w W dphi pls pc :
  0 < dphi → ¬ (2 * PI - kTolerance < dphi < 2 * PI - 5 / 10 * / 1000000000) → (dphi <= PI → convex2 W) →
  ascending (oriented pls) → construct inf w dphi pls = Some pc → detect_convexity pc = true →
  convex (solid dphi W (oriented pls)).
Proof.
  intros Hd Hwin HW Hst Hc Hdet. unfold construct, init in Hc.
  destruct (oriented pls) as [|a0 [|a1 rest]] eqn:E; [done|done|]. rewrite (reduced_strict a0 a1 rest Hst) in Hc.
  set (l := a0 :: a1 :: rest) in *. change (pairs l) with ((a0, a1) :: pairs (a1 :: rest)) in Hc.
  destruct (init_loop _ _ _ _ _ _ _ _) as [[zs secs]|]; [|done]. cbn [mbind option_bind] in Hc.
  change ((a0, a1) :: pairs (a1 :: rest)) with (pairs l) in Hc.
  match type of Hc with Some ?x = Some _ => assert (Epc : pc = x) by congruence; clear Hc; subst pc end.
  unfold detect_convexity in Hdet. cbn [pc_convexity pc_equal_rmax pc_dphi pc_continuity blank] in Hdet.
  rewrite !andb_true_l in Hdet.
  destruct (no_hole (flat (pairs l))) eqn:Eh; [|done].
  assert (Hpl : ∀ a, a ∈ l → a ∈ flat (pairs l)).
  { intros a Ha. apply elem_of_list_lookup in Ha as [k Hk]. destruct k as [|k].
    - injection Hk as ->. apply (flat_elem (pairs l) (a, a1)). by apply elem_of_list_lookup_2 with 0%nat.
    - destruct (l !! k) as [b|] eqn:Eb; [|apply lookup_ge_None in Eb; apply lookup_lt_Some in Hk; lia].
      apply (flat_elem (pairs l) (b, a)). apply elem_of_list_lookup_2 with k. by apply pairs_lookup. }
  assert (H0 : ∀ a, a ∈ l → pl_rmin a = 0).
  { intros a Ha. unfold no_hole in Eh. rewrite forallb_forall in Eh. apply reqb_true, Eh, elem_of_list_In, Hpl, Ha. }
  assert (Hphi : rleb (checked_delta dphi) PI || reqb (checked_delta dphi) (2 * PI) = true).
  { destruct (rleb (checked_delta dphi) PI || reqb (checked_delta dphi) (2 * PI)); [done|]. by rewrite andb_false_r in Hdet. }
  assert (Hfall : falling l).
  { rewrite Hphi, andb_true_r in Hdet.
    destruct (equal_rmax (pl_rmax a0) (tail (flat (pairs l)))) eqn:Ee.
    - assert (Hr : ∀ a, a ∈ l → pl_rmax a = pl_rmax a0).
      { intros a Ha. apply Hpl in Ha. change (flat (pairs l)) with (a0 :: a1 :: flat (pairs (a1 :: rest))) in Ha, Ee.
        apply elem_of_cons in Ha as [->|Ha]; [done|]. by apply (equal_rmax_all _ _ Ee). }
      intros k a b c Ha Hb Hc'. unfold slope. cbn. rewrite (Hr a), (Hr b), (Hr c) by (by eapply elem_of_list_lookup_2).
      unfold Rdiv. rewrite !Rminus_diag_eq by done. lra.
    - unfold check_continuity in Hdet. apply andb_true_iff in Hdet as [_ Hsl].
      intros k a b c Ha Hb Hc'. apply (continuous_slope_falling _ _ Hsl k); by apply pairs_lookup. }
  pose proof (body_convex l Hst Hfall H0) as Hcv. pose proof PI2_1 as HPI. pose proof kTolerance_pos as Htol.
  intros p q u [Hp1 Hp2] [Hq1 Hq2] Hu. split; [by apply Hcv|].
  intros Hlt. specialize (Hp2 Hlt). specialize (Hq2 Hlt).
  assert (Hpi : dphi <= PI).
  { apply orb_true_iff in Hphi as [Hx|Hx]; [apply rleb_true in Hx|apply reqb_true in Hx]; unfold checked_delta in Hx;
      destruct (rleb_spec dphi 0); try lra; destruct (rgtb_spec dphi (2 * PI - kTolerance)); cbn [orb] in Hx; try lra;
      destruct (rgeb_spec dphi (2 * PI - 5 / 10 * / 1000000000)); lra. }
  cbn. apply (HW Hpi (vx p) (vy p) (vx q) (vy q) u); done.
Qed.

(** * Reset *)
Lemma foldl_add (f : section → R) s l : foldl (λ s sec, s + f sec) s l = s + foldl (λ s sec, s + f sec) 0 l.
Proof. revert s. induction l as [|x l IH]; intros s; cbn; [lra|]. rewrite (IH (s + f x)), (IH (0 + f x)). lra. Qed.
Lemma oriented_idem pls : oriented (oriented pls) = oriented pls.
Proof.
  destruct pls as [|x l]; [done|]. assert (Hl : ∃ y, last (x :: l) = Some y).
  { clear. revert x. induction l as [|z l IH]; intros x; [by exists x|]. destruct (IH z) as [y Hy]. exists y. done. }
  destruct Hl as [y Hl]. unfold oriented at 2 3. rewrite Hl. cbn [head]. destruct (rgtb_spec (pl_z x) (pl_z y)) as [Hg|Hg].
  - unfold oriented. rewrite head_reverse, last_reverse, Hl. cbn [head]. destruct (rgtb_spec (pl_z y) (pl_z x)); [lra|done].
  - unfold oriented. rewrite Hl. cbn [head]. destruct (rgtb_spec (pl_z x) (pl_z y)); [lra|done].
Qed.
Theorem reset_doubles inf w dphi pls pc :
  stacked kTolerance (oriented pls) → construct inf w dphi pls = Some pc →
  ∃ pc', reset inf w pc = Some pc' ∧ pc_zs pc' = pc_zs pc ++ pc_zs pc ∧ pc_sections pc' = pc_sections pc ++ pc_sections pc ∧
    capacity pc' = 2 * capacity pc.
Proof.
  intros Hs Hc. pose proof kTolerance_pos as Ht. unfold construct, init in Hc. unfold reset, init.
  destruct (oriented pls) as [|a0 [|a1 rest]] eqn:E; [done|done|].
  destruct (reduced (a0 :: a1 :: rest)) as [|[b0 b1] red] eqn:Er; [done|].
  assert (Hp : negb (rltb (pl_z a1) (pl_z a0)) = true).
  { destruct (rltb_spec (pl_z a1) (pl_z a0)); [|done]. destruct (Hs a0 a1 (adjacent_head _ _ _)); lra. }
  rewrite Hp in Hc. cbn [blank pc_zs pc_sections app] in Hc.
  rewrite (init_loop_frusta kTolerance) in Hc; [|lra|done|done]. cbn [mbind option_bind app] in Hc. injection Hc as <-.
  cbn [pc_orig pc_orig_dphi pc_zs pc_sections].
  assert (Eo : oriented (a0 :: a1 :: rest) = a0 :: a1 :: rest).
  { rewrite <- E. apply oriented_idem. }
  rewrite Eo, Er, Hp. rewrite (init_loop_frusta kTolerance); [|lra|done|by rewrite last_snoc]. cbn [mbind option_bind].
  eexists; split; [reflexivity|]. cbn [pc_zs pc_sections]. rewrite <- (assoc_L (++)). split; [done|]. split; [done|].
  unfold capacity. cbn [pc_sections]. rewrite foldl_app.
  match goal with |- foldl _ ?x _ = _ => pose proof (foldl_add (λ sec, cone_capacity (sec_solid sec)) x) as Hf; cbn in Hf end.
  rewrite Hf. match goal with |- ?x + ?y = 2 * _ => change (x + x = 2 * x) end. lra.
Qed.

(** * Two planes *)
Theorem maker_two inf w W dphi a b p :
  wedge_decides w W → 0 <= pl_rmin a < pl_rmax a → 0 <= pl_rmin b < pl_rmax b → pl_z a < pl_z b → pl_z a = - pl_z b →
  ∃ c, maker inf w dphi [a; b] = Some (MadeCone c) ∧ (cone_contains UniversalCone c p = true ↔ solid dphi W [a; b] p).
Proof.
  intros Hw Ha Hb Hz Hc. eexists; split; [reflexivity|].
  rewrite cone_contains_section with (W := W); [|rewrite Rabs_pos_eq by lra; lra|done|done|done|done].
  replace (Rabs (pl_z b - pl_z a) / 2) with (pl_z b) by (rewrite Rabs_pos_eq by lra; lra). rewrite <- Hc.
  unfold solid, body. split.
  - intros [H1 H2]. split; [|done]. exists a, b. split; [apply adjacent_head|]. by split.
  - intros [(x & y & Hxy & Hlt & H1) H2]. apply adjacent_cons_inv in Hxy as [[-> ->]|Hxy]; [done|by apply adjacent_one in Hxy].
Qed.
