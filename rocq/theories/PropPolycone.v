(** Polycones: lookup, points, classes, safeties, rays, convexity, Reset, the maker (C50, C71-C77). *)
From Coq Require Import Reals Lra Lia Bool.
From stdpp Require Import base list option numbers tactics.
From Verif Require Import Real3 AABBModel BoxModel ConeModel ConeSpec ConeProofs PolyconeModel PolyconeSpec PolyconeProofs PolyconeProofs2 PolyconeProofs3 PolyconeProofs4 PolyconeProofs5 PolyconeProofs6 PolyconeProofs7 PropCone.
Import stdpp.list.
Local Open Scope R_scope.

(** * C50: the section of a height *)
Theorem C50_lookup pc z : length (pc_zs pc) = S (length (pc_sections pc)) → increasing (pc_zs pc) → pc_sections pc ≠ [] →
  ∃ i, section_index pc z = Some i ∧
    (i = (-1)%Z ↔ ∀ a, a ∈ pc_zs pc → z < a) ∧ (i = (-2)%Z ↔ ∀ a, a ∈ pc_zs pc → a < z) ∧
    (i = (-1)%Z ∨ i = (-2)%Z ∨ ∃ k a b, i = Z.of_nat k ∧ (k < length (pc_sections pc))%nat ∧ pc_zs pc !! k = Some a ∧ pc_zs pc !! S k = Some b ∧ a <= z <= b).
Proof.
  intros Hl Hi Hn. destruct (section_index_located pc z Hl Hi) as (i & E & L). exists i. split; [done|].
  assert (Hpos : (0 < length (pc_sections pc))%nat) by (destruct (pc_sections pc); [done|cbn; lia]).
  assert (Hhd : ∃ a, pc_zs pc !! 0%nat = Some a) by (apply lookup_lt_is_Some; lia). destruct Hhd as [a0 Ha0].
  destruct L as [a Ha Hz|a b Ha Hz Hb Hlt|k a b Hk Ha Hb Hz Hs].
  - split; [|split; [|by left]].
    + split; [intros _|done]. intros x (j & Hj)%elem_of_list_lookup. pose proof (increasing_le _ 0 j a x Hi ltac:(lia) Ha Hj). lra.
    + split; [done|]. intros H. specialize (H a (elem_of_list_lookup_2 _ _ _ Ha)). lra.
  - specialize (Hlt Hn). split; [|split; [|by right; left]].
    + split; [done|]. intros H. specialize (H a (elem_of_list_lookup_2 _ _ _ Ha)). lra.
    + split; [intros _|done]. intros x (j & Hj)%elem_of_list_lookup. pose proof (lookup_lt_Some _ _ _ Hj).
      pose proof (increasing_le _ j (length (pc_sections pc)) x b Hi ltac:(lia) Hj Hb). lra.
  - split; [|split].
    + split; [lia|]. intros H. specialize (H a (elem_of_list_lookup_2 _ _ _ Ha)). lra.
    + split; [lia|]. intros H. specialize (H b (elem_of_list_lookup_2 _ _ _ Hb)). lra.
    + right; right. exists k, a, b. done.
Qed.
(** Every polycone the constructor makes meets these conditions; the heights are those of the planes. *)
Theorem C50_constructed inf w dphi pls pc : stacked kTolerance (oriented pls) → construct inf w dphi pls = Some pc →
  length (pc_zs pc) = S (length (pc_sections pc)) ∧ increasing (pc_zs pc) ∧ ∀ z, z ∈ pc_zs pc → ∃ a, a ∈ pls ∧ pl_z a = z.
Proof.
  intros Hs Hc. pose proof kTolerance_pos. destruct (construct_built kTolerance _ _ _ _ _ (Rle_refl _) Hs Hc) as (prev & rest & E & Hb).
  rewrite E in Hs. pose proof (built_spans kTolerance _ _ _ _ _ ltac:(lra) Hs Hb) as [Hl _].
  split; [done|]. split; [apply (apart_increasing kTolerance); [lra|]; apply (built_apart kTolerance _ _ _ _ _ ltac:(lra) Hs Hb)|].
  intros z. rewrite (b_zs _ _ _ _ _ _ Hb). unfold heights. intros [->|Hz]%elem_of_cons.
  - exists prev. split; [|done]. apply oriented_elem. rewrite E. left.
  - apply elem_of_list_fmap in Hz as ([a b] & -> & Hab).
    apply (frusta_adjacent kTolerance) in Hab as [(l1 & l2 & El) _]; [|lra|done]. exists b. split; [|done]. apply oriented_elem. rewrite E, El. apply elem_of_app; right; right; left.
Qed.
(** When the heights go strictly up, every plane can be read back. *)
Lemma frusta_all prev rest k : ascending (prev :: rest) → frusta prev rest !! k =
  match (prev :: rest) !! k, (prev :: rest) !! S k with Some a, Some b => Some (a, b) | _, _ => None end.
Proof.
  revert prev k. induction rest as [|c rest IH]; intros prev k Ha; [by destruct k|]. cbn [frusta].
  pose proof (Ha prev c (adjacent_head _ _ _)). destruct (rltb_spec (pl_z prev) (pl_z c)); [|lra].
  destruct k as [|k]; [done|]. cbn [lookup list_lookup] in *. rewrite IH; [done|]. intros a b Hab. apply Ha. by apply adjacent_cons.
Qed.
Theorem C50_planes inf w dphi pls pc i a : stacked kTolerance (oriented pls) → ascending (oriented pls) → radii_ok (oriented pls) →
  construct inf w dphi pls = Some pc → oriented pls !! i = Some a →
  z_at_plane pc i = Some (pl_z a) ∧ rmin_at_plane pc (Z.of_nat i) = Some (pl_rmin a) ∧ rmax_at_plane pc (Z.of_nat i) = Some (pl_rmax a).
Proof.
  intros Hs Hasc Hr Hc Hi. pose proof kTolerance_pos. destruct (construct_built kTolerance _ _ _ _ _ (Rle_refl _) Hs Hc) as (prev & rest & E & Hb).
  assert (Ha : 0 <= pl_rmin a < pl_rmax a) by (apply Hr, (elem_of_list_lookup_2 _ _ _ Hi)).
  rewrite E in *. destruct (b_secs _ _ _ _ _ _ Hb) as [rext Es]. pose proof (b_zs _ _ _ _ _ _ Hb) as Ez.
  assert (Hlen : length (frusta prev rest) = length rest).
  { clear -Hasc. revert prev Hasc. induction rest as [|c rest IH]; intros prev Ha; [done|]. cbn [frusta]. pose proof (Ha prev c (adjacent_head _ _ _)).
    destruct (rltb_spec (pl_z prev) (pl_z c)); [|lra]. cbn. f_equal. apply IH. intros x y Hxy. apply Ha. by apply adjacent_cons. }
  assert (Hn : nsections pc = Z.of_nat (length rest)) by (unfold nsections; rewrite Es, fmap_length, Hlen; done).
  assert (Hl : (i <= length rest)%nat) by (pose proof (lookup_lt_Some _ _ _ Hi) as K; cbn in K; lia).
  assert (Hne : ∀ x, x < pl_rmax a → reqb x (pl_rmax a) = false) by (intros x Hx; destruct (reqb_spec x (pl_rmax a)); [lra|done]).
  assert (H0 : rltb (pl_rmin a) 0 = false) by (destruct (rltb_spec (pl_rmin a) 0); [lra|done]).
  assert (Hz : z_at_plane pc i = Some (pl_z a)).
  { unfold z_at_plane. rewrite Ez. unfold heights. destruct i as [|i]; [by injection Hi as ->|]. rewrite lookup_cons.
    rewrite list_lookup_fmap, frusta_all by done. rewrite Hi.
    destruct (lookup_lt_is_Some_2 (prev :: rest) i) as [b Hb']; [cbn; lia|]. by rewrite Hb'. }
  split; [done|]. unfold rmin_at_plane, rmax_at_plane, get_section. rewrite Hn.
  destruct (Z.eqb_spec (Z.of_nat i) (Z.of_nat (length rest))) as [Hq|Hq].
  - assert (i ≠ 0%nat). { intros ->. destruct rest; [|cbn in Hq; lia]. unfold construct, init in Hc. rewrite E in Hc. done. }
    destruct (Z.ltb_spec (Z.of_nat i - 1) 0); [lia|]. replace (Z.to_nat (Z.of_nat i - 1)) with (i - 1)%nat by lia. rewrite Es, list_lookup_fmap, frusta_all by done.
    destruct (lookup_lt_is_Some_2 (prev :: rest) (i - 1)) as [b Hb']; [cbn; lia|]. rewrite Hb'. replace (S (i - 1)) with i by lia. rewrite Hi. cbn. rewrite H0, Hne by lra. done.
  - destruct (Z.ltb_spec (Z.of_nat i) 0); [lia|]. rewrite Nat2Z.id, Es, list_lookup_fmap, frusta_all by done. rewrite Hi.
    destruct (lookup_lt_is_Some_2 (prev :: rest) (S i)) as [b Hb']; [cbn; lia|]. rewrite Hb'. cbn. rewrite H0, Hne by lra. done.
Qed.
(** * C71: Contains is the union of the sections *)
Theorem C71_contains_partial inf t w W dphi pls pc p : wedge_decides w W → stacked (2 * kTolerance) (oriented pls) → radii_ok (oriented pls) →
  (∀ a b, adjacent (oriented pls) a b → fits t (pl_rmin a) (pl_rmin b) dphi) → construct inf w dphi pls = Some pc →
  ∃ b, poly_contains t pc p = Some b ∧ (b = true ↔ solid dphi W (oriented pls) p).
Proof. apply construct_contains. Qed.
(** A section thinner than twice the tolerance: every point at a height inside of it is contained. *)
Theorem C71_thin_refuted inf : ∃ pc, construct inf no_wedge (2 * PI) thin_planes = Some pc ∧
  poly_contains UniversalCone pc (V3 1000 0 (7 / 10000000000)) = Some true ∧ ¬ solid (2 * PI) (λ _ _, True) (oriented thin_planes) (V3 1000 0 (7 / 10000000000)).
Proof.
  destruct (construct_three_some inf no_wedge (2 * PI) (Plane 0 0 1) (Plane (15 / 10000000000) 0 1) (Plane 1 0 1)) as [pc Hc]; [unfold kTolerance; cbn; lra|unfold kTolerance; cbn; lra|].
  exists pc. split; [exact Hc|]. split; [by apply (thin_contains inf)|]. unfold thin_planes. rewrite oriented_three by (cbn; lra).
  intros [(a & b & Hab & _ & (_ & Hr & _)) _]. assert (Hrho : rho (V3 1000 0 (7 / 10000000000)) = 1000) by (unfold rho; cbn; rewrite Rmult_0_l, Rplus_0_r; apply sqrt_square; lra).
  rewrite Hrho in Hr. apply adjacent_cons_inv in Hab as [[-> ->]|Hab]; [|apply adjacent_cons_inv in Hab as [[-> ->]|Hab]; [|by apply adjacent_one in Hab]];
    cbn [pl_z pl_rmax] in Hr; rewrite line_const in Hr; lra.
Qed.
(** * C72: Inside *)
Section C72.
Variables (inf : R) (t : cone_type) (w : wedge_ops) (W : R → R → Prop) (dphi : R) (pls : list plane) (pc : polycone).
Hypothesis Hs : stacked (2 * kTolerance) (oriented pls).
Hypothesis Hr : radii_ok (oriented pls).
Hypothesis Hf : ∀ a b, adjacent (oriented pls) a b → fits t (pl_rmin a) (pl_rmin b) dphi.
Hypothesis Hc : construct inf w dphi pls = Some pc.
Theorem C72_outside_partial p : wedge_tolerant w W →
  (∀ a b, adjacent (oriented pls) a b → 0 < pl_rmin a ∨ 0 < pl_rmin b → pl_z a < pl_z b → pl_z a <= vz p <= pl_z b →
    tilted (pl_z a) (pl_rmin a) (pl_z b) (pl_rmin b) <= line (pl_z a) (pl_rmin a) (pl_z b) (pl_rmin b) (vz p)) →
  poly_inside t pc p = Some kOutside → ¬ solid dphi W (oriented pls) p.
Proof using Hs Hr Hf Hc. by apply (polycone_outside inf). Qed.
Theorem C72_inside_partial p : wedge_tolerant w W →
  (∀ a b, adjacent (oriented pls) a b → pl_z a < pl_z b → pl_z a <= vz p <= pl_z b →
    tilted (pl_z a) (pl_rmax a) (pl_z b) (pl_rmax b) <= line (pl_z a) (pl_rmax a) (pl_z b) (pl_rmax b) (vz p)) →
  poly_inside t pc p = Some kInside → solid dphi W (oriented pls) p ∨ ∃ a, a ∈ oriented pls ∧ Rabs (vz p - pl_z a) <= kTolerance.
Proof using Hs Hr Hf Hc. by apply (polycone_inside inf). Qed.
(** * C73: safeties *)
Theorem C73_safety_out p q r : wedge_safe w W → poly_safety_out inf t pc p = Some r →
  solid dphi W (oriented pls) p → ¬ solid dphi W (oriented pls) q → r <= vdist p q.
Proof using Hs Hr Hf Hc. by apply (polycone_safety_out inf). Qed.
(** For a height in the range, when no section below is thicker than the one below the section of the point. *)
Theorem C73_safety_in_partial p q r : wedge_safe w W → (∃ a b, a ∈ pc_zs pc ∧ b ∈ pc_zs pc ∧ a <= vz p <= b) →
  (∀ i, section_index pc (vz p) = Some (Z.of_nat i) →
    ∀ j a b c d, (j < i)%nat → pc_zs pc !! j = Some a → pc_zs pc !! S j = Some b → pc_zs pc !! (i - 1)%nat = Some c → pc_zs pc !! i = Some d → b - a <= d - c) →
  poly_safety_in t pc p = Some r → solid dphi W (oriented pls) q → r <= vdist p q.
Proof using Hs Hr Hf Hc. by apply (polycone_safety_in inf). Qed.
(** Beyond the ends: against the points of the first or last section. *)
Theorem C73_beyond_partial p q r a b : wedge_safe w W → poly_safety_in t pc p = Some r →
  adjacent (oriented pls) a b → joins a b q → in_phi dphi W q →
  (vz p < pl_z a ∧ ∀ x, x ∈ oriented pls → pl_z a <= pl_z x) ∨ (pl_z b < vz p ∧ ∀ x, x ∈ oriented pls → pl_z x <= pl_z b) → r <= vdist p q.
Proof using Hs Hr Hf Hc. by apply (safety_beyond inf). Qed.
End C72.
(** Of a point called outside the safety to the outside is the marker. *)
Theorem C73_marker inf t pc p : poly_inside t pc p = Some kOutside → poly_safety_out inf t pc p = Some (-1).
Proof. apply outside_marker. Qed.
(** On a seam: outside, by half the cone tolerance, but kInside; and well inside, but kSurface. *)
Theorem C72_seam_refuted inf : ∃ pc, construct inf no_wedge (2 * PI) two_cylinders = Some pc ∧
  poly_inside UniversalCone pc (V3 (1 + / 20000000) 0 0) = Some kInside ∧ ¬ solid (2 * PI) (λ _ _, True) (oriented two_cylinders) (V3 (1 + / 20000000) 0 0) ∧
  poly_inside UniversalCone pc (V3 0 0 (/ 20000000)) = Some kSurface ∧ ∀ q, vdist (V3 0 0 (/ 20000000)) q <= 1 / 2 → solid (2 * PI) (λ _ _, True) (oriented two_cylinders) q.
Proof.
  destruct (two_cylinders_some inf) as [pc Hc]. exists pc. split; [done|]. split; [by apply (seam_inside inf)|]. unfold two_cylinders. rewrite oriented_three by (cbn; lra). split.
  { intros [(a & b & Hab & _ & (_ & Hr & _)) _]. assert (Hrho : rho (V3 (1 + / 20000000) 0 0) = 1 + / 20000000) by (unfold rho; cbn; rewrite Rmult_0_l, Rplus_0_r; apply sqrt_square; lra).
    rewrite Hrho in Hr. apply adjacent_cons_inv in Hab as [[-> ->]|Hab]; [|apply adjacent_cons_inv in Hab as [[-> ->]|Hab]; [|by apply adjacent_one in Hab]];
      cbn [pl_z pl_rmax] in Hr; rewrite line_const in Hr; lra. }
  split; [by apply (seam_surface inf)|]. intros q Hq.
  assert (Hv : (vx q) * (vx q) + vy q * vy q + (/ 20000000 - vz q) * (/ 20000000 - vz q) <= / 4).
  { assert (0 <= vdist (V3 0 0 (/ 20000000)) q) by apply sqrt_pos. unfold vdist, vmag, vdot, vsub in *. cbn [vx vy vz] in *.
    set (e := (0 - vx q) * (0 - vx q) + (0 - vy q) * (0 - vy q) + (/ 20000000 - vz q) * (/ 20000000 - vz q)) in *.
    assert (He : 0 <= e) by (unfold e; pose proof (Rle_0_sqr (0 - vx q)); pose proof (Rle_0_sqr (0 - vy q)); pose proof (Rle_0_sqr (/ 20000000 - vz q)); unfold Rsqr in *; lra).
    pose proof (sqrt_sqrt e He) as Hss. assert (e <= / 4) by nra. unfold e in *. nra. }
  pose proof (Rle_0_sqr (vx q)) as X. pose proof (Rle_0_sqr (vy q)) as Y. unfold Rsqr in X, Y.
  assert (Hz : -1 <= vz q <= 1) by (split; nra).
  assert (Hrho : rho q <= 1). { unfold rho. rewrite <- sqrt_1. apply sqrt_le_1_alt. nra. }
  split; [|intros _; done]. destruct (Rle_dec (vz q) 0).
  - exists (Plane (-1) 0 1), (Plane 0 0 1). split; [apply adjacent_head|]. split; [cbn; lra|]. split; [cbn; lra|]. split; [cbn [pl_z pl_rmax]; by rewrite line_const|cbn; lra].
  - exists (Plane 0 0 1), (Plane 1 0 1). split; [apply adjacent_cons, adjacent_head|]. split; [cbn; lra|]. split; [cbn; lra|]. split; [cbn [pl_z pl_rmax]; by rewrite line_const|cbn; lra].
Qed.
(** The search to the left measures from the plane below the section, and stops too early. *)
Theorem C73_left_refuted inf : ∃ pc r q, construct inf no_wedge (2 * PI) disc_and_pipes = Some pc ∧
  poly_safety_in UniversalCone pc (V3 0 0 (2015 / 10)) = Some r ∧ solid (2 * PI) (λ _ _, True) (oriented disc_and_pipes) q ∧ vdist (V3 0 0 (2015 / 10)) q = 3 / 2 ∧ 50 <= r.
Proof.
  destruct (disc_some inf) as [pc Hc]. destruct (disc_safety inf pc Hc) as (r & Er & Hr). exists pc, r, (V3 0 0 200). split; [done|]. split; [done|]. rewrite disc_oriented. split; [|split; [|done]].
  - split; [|intros _; done]. exists (Plane 0 0 50), (Plane 200 0 50). split; [apply adjacent_head|]. split; [cbn; lra|]. split; [cbn; lra|]. split; [|cbn; lra].
    cbn [pl_z pl_rmax]. rewrite line_const. unfold rho. cbn. rewrite Rmult_0_l, Rplus_0_r, sqrt_0. lra.
  - unfold vdist, vmag, vdot, vsub. cbn [vx vy vz]. replace ((0 - 0) * (0 - 0) + (0 - 0) * (0 - 0) + (2015 / 10 - 200) * (2015 / 10 - 200)) with ((3 / 2) * (3 / 2)) by field. apply sqrt_square. lra.
Qed.
(** Below or above the range only the first or last section is asked. *)
Theorem C73_below_refuted inf : ∃ pc r q, construct inf no_wedge (2 * PI) pipe_and_disc = Some pc ∧
  poly_safety_in UniversalCone pc (V3 0 0 (-1)) = Some r ∧ solid (2 * PI) (λ _ _, True) (oriented pipe_and_disc) q ∧ vdist (V3 0 0 (-1)) q = 2 ∧ 50 <= r.
Proof.
  destruct (pipe_some inf) as [pc Hc]. destruct (pipe_below inf pc Hc) as (r & Er & Hr). exists pc, r, (V3 0 0 1). split; [done|]. split; [done|]. rewrite pipe_oriented. split; [|split; [|done]].
  - split; [|intros _; done]. exists (Plane 1 0 50), (Plane 2 0 50). split; [apply adjacent_cons, adjacent_cons, adjacent_head|]. split; [cbn; lra|]. split; [cbn; lra|]. split; [|cbn; lra].
    cbn [pl_z pl_rmax]. rewrite line_const. unfold rho. cbn. rewrite Rmult_0_l, Rplus_0_r, sqrt_0. lra.
  - unfold vdist, vmag, vdot, vsub. cbn [vx vy vz]. replace ((0 - 0) * (0 - 0) + (0 - 0) * (0 - 0) + (-1 - 1) * (-1 - 1)) with (2 * 2) by ring. apply sqrt_square. lra.
Qed.
(** * C74: rays, for any ray distances of the sections that are right about the open bodies [S k] of the sections *)
Theorem C74_to_in_partial inf cone_to_in t pc (S : nat → v3 → Prop) p d smax : spans pc → increasing (pc_zs pc) → confined (pc_zs pc) S →
  (∀ k s, pc_sections pc !! k = Some s → let D := cone_to_in t (sec_solid s) (shifted s p) d smax in (D < inf ∧ enters (S k) p d D) ∨ (D = inf ∧ avoids (S k) p d)) →
  pc_sections pc ≠ [] → kTolerance <= Rabs (vz d) ∨ vz d = 0 →
  ∃ D, poly_to_in inf cone_to_in t pc p d smax = Some D ∧ first_in inf S p d D.
Proof.
  intros. destruct (poly_to_in_nearest inf cone_to_in t pc S p d smax) as (D & E & HD); try done; [destruct (pc_sections pc); [done|cbn; lia]|]. by exists D.
Qed.
Theorem C74_to_out_partial inf cone_to_out t pc (S : nat → v3 → Prop) p d smax i s a b : spans pc → apart kConeTolerance (pc_zs pc) → confined (pc_zs pc) S →
  (∀ k s T, pc_sections pc !! k = Some s → 0 <= T → section_outside t s (along p d T) = false → stays (S k) p d T (cone_to_out t (sec_solid s) (shifted s (along p d T)) d smax)) →
  (∀ k s T, pc_sections pc !! k = Some s → 0 <= T → section_outside t s (along p d T) = true → gone (S k) p d T) →
  kTolerance <= Rabs (vz d) ∨ vz d = 0 →
  pc_sections pc !! i = Some s → pc_zs pc !! i = Some a → pc_zs pc !! Datatypes.S i = Some b → a + kTolerance < vz p < b - kTolerance → section_outside t s p = false →
  ∃ r, poly_to_out inf cone_to_out t pc p d smax = Some r ∧ 0 <= r ∧ last_out (pc_zs pc) S p d r.
Proof.
  intros H1 H2 H3 H4 H5 H6 H7 H8 H9 H10 H11. rewrite <- Nat.add_1_r in H9.
  destruct (poly_to_out_exit inf cone_to_out t pc S p d smax i s a b H1 H2 H3 H4 H5 H6 H7 H8 H9 H10 H11) as (r & E & Hr & HE). exists r. split; [done|]. split; [done|]. exact HE.
Qed.
(** Within the tolerance of a seam the walk starts in the lower section, if the point is not outside of it, else in the upper one. *)
Theorem C74_start t pc p low high slow shigh : section_index pc (vz p - kTolerance) = Some low → section_index pc (vz p + kTolerance) = Some high →
  (0 <= low)%Z → (0 <= high)%Z → get_section pc low = Some slow → get_section pc high = Some shigh →
  start_section t pc p = Some (if section_outside t slow p then if section_outside t shigh p then inl (-1) else inr high else inr low).
Proof. apply start_section_spec. Qed.
(** * C75: convexity *)
Theorem C75_convex_partial inf w W dphi pls pc : 0 < dphi → ¬ (2 * PI - kTolerance < dphi < 2 * PI - 5 / 10 * / 1000000000) → (dphi <= PI → convex2 W) →
  ascending (oriented pls) → construct inf w dphi pls = Some pc → detect_convexity pc = true → convex (solid dphi W (oriented pls)).
Proof. apply detect_convexity_sound. Qed.
(** With a height given twice: declared convex but not convex. *)
Theorem C75_convex_refuted inf : 0 <= inf → ∃ pc, construct inf no_wedge (2 * PI) waisted = Some pc ∧ detect_convexity pc = true ∧ ¬ convex (solid (2 * PI) (λ _ _, True) (oriented waisted)).
Proof.
  intros Hinf. destruct (waisted_detect inf Hinf) as (pc & H1 & H2). exists pc. split; [done|]. split; [done|].
  assert (Eo : oriented waisted = waisted) by (unfold oriented; cbn; destruct (rgtb_spec 0 2); [lra|done]). rewrite Eo. apply waisted_not_convex.
Qed.
(** With one step of the outer radius: not declared convex. *)
Theorem C75_step inf w dphi z0 z1 z2 r s pc : z0 < z1 → z1 < z2 → r <> s →
  construct inf w dphi [Plane z0 0 r; Plane z1 0 r; Plane z1 0 s; Plane z2 0 s] = Some pc → detect_convexity pc = false.
Proof. apply step_detected. Qed.
(** With a height given three times: CheckContinuity reads an empty list. *)
Theorem C75_triple_refuted inf : construct inf no_wedge (2 * PI) [Plane 0 0 1; Plane 0 0 1; Plane 0 0 1; Plane 1 0 1] = None.
Proof. apply triple_undefined. Qed.
(** * C76: Reset *)
Theorem C76_reset_refuted inf w dphi pls pc : stacked kTolerance (oriented pls) → construct inf w dphi pls = Some pc →
  ∃ pc', reset inf w pc = Some pc' ∧ pc_zs pc' = pc_zs pc ++ pc_zs pc ∧ pc_sections pc' = pc_sections pc ++ pc_sections pc ∧ capacity pc' = 2 * capacity pc.
Proof. apply reset_doubles. Qed.
(** The capacity after construction is the sum of the volumes between the planes, each the integral of the cross section. *)
Theorem C76_capacity inf w dphi pls pc : stacked kTolerance (oriented pls) → radii_ok (oriented pls) → construct inf w dphi pls = Some pc →
  capacity pc = stacked_volume (checked_dphi dphi) (oriented pls).
Proof. apply capacity_volume. Qed.
Theorem C76_frustum m1 M1 m2 M2 z1 z2 phi : z1 < z2 →
  ∃ F : R → R, (∀ z, derivable_pt_lim F z (phi / 2 * (line z1 M1 z2 M2 z * line z1 M1 z2 M2 z - line z1 m1 z2 m2 z * line z1 m1 z2 m2 z))) ∧
  stacked_volume phi [Plane z1 m1 M1; Plane z2 m2 M2] = F z2 - F z1.
Proof. intros H. destruct (frustum_integral m1 M1 m2 M2 z1 z2 phi H) as (F & HF & E). exists F. split; [done|]. rewrite E. cbn. ring. Qed.
(** * C77: the maker *)
Theorem C77_maker_partial inf w W dphi pls t pc p : wedge_decides w W → stacked (2 * kTolerance) (oriented pls) → radii_ok pls →
  maker inf w dphi pls = Some (MadePolycone t pc) → ∃ b, poly_contains t pc p = Some b ∧ (b = true ↔ solid dphi W (oriented pls) p).
Proof. apply maker_contains. Qed.
Theorem C77_two_partial inf w W dphi a b p : wedge_decides w W → 0 <= pl_rmin a < pl_rmax a → 0 <= pl_rmin b < pl_rmax b → pl_z a < pl_z b → pl_z a = - pl_z b →
  ∃ c, maker inf w dphi [a; b] = Some (MadeCone c) ∧ (cone_contains UniversalCone c p = true ↔ solid dphi W [a; b] p).
Proof. apply maker_two. Qed.
(** Two planes that are not symmetric: the cone is not where the planes are. *)
Theorem C77_two_refuted inf : ∃ c, maker inf no_wedge (2 * PI) [Plane 10 0 1; Plane 12 0 1] = Some (MadeCone c) ∧
  cone_contains UniversalCone c (V3 0 0 11) = false ∧ solid (2 * PI) (λ _ _, True) [Plane 10 0 1; Plane 12 0 1] (V3 0 0 11).
Proof. apply two_planes_off. Qed.

(** * Examples *)
(** A polycone that meets the conditions of C50, C71, C72, C73 and C77. *)
Example two_cylinders_hyps inf : ∃ pc, construct inf no_wedge (2 * PI) two_cylinders = Some pc ∧ stacked (2 * kTolerance) (oriented two_cylinders) ∧
  radii_ok (oriented two_cylinders) ∧ wedge_decides no_wedge (λ _ _, True) ∧ wedge_tolerant no_wedge (λ _ _, True) ∧ wedge_safe no_wedge (λ _ _, True) ∧
  pc_zs pc = [-1; 0; 1] ∧ poly_contains UniversalCone pc (V3 0 0 (1 / 2)) = Some true ∧ poly_contains UniversalCone pc (V3 2 0 (1 / 2)) = Some false.
Proof.
  destruct (two_cylinders_some inf) as [pc Hc]. exists pc. destruct (two_cylinders_sections inf pc Hc) as (Ez & _).
  assert (Hs : stacked (2 * kTolerance) (oriented two_cylinders)) by (unfold two_cylinders; rewrite oriented_three by (cbn; lra); apply stacked_three; unfold kTolerance; cbn; lra).
  assert (Hr : radii_ok (oriented two_cylinders)).
  { unfold two_cylinders. rewrite oriented_three by (cbn; lra). intros a Ha. repeat (apply elem_of_cons in Ha as [->|Ha]; [cbn; lra|]). by apply elem_of_nil in Ha. }
  assert (Hw : wedge_decides no_wedge (λ _ _, True)) by (intros x y; cbn; done).
  assert (Hst : wedge_safe no_wedge (λ _ _, True)) by (split; [|done]; intros x y x' y' _; cbn; apply sqrt_pos).
  split; [done|]. split; [done|]. split; [done|]. split; [done|]. split; [split; [done|]; intros x y; cbn; done|]. split; [done|]. split; [done|].
  pose proof (λ p, C71_contains_partial inf UniversalCone no_wedge (λ _ _, True) (2 * PI) two_cylinders pc p Hw Hs Hr (λ _ _ _, I) Hc) as K.
  unfold two_cylinders in K. rewrite oriented_three in K by (cbn; lra). fold two_cylinders in K. split.
  - destruct (K (V3 0 0 (1 / 2))) as (b & -> & Hb). f_equal. apply Hb. split; [|intros _; done]. exists (Plane 0 0 1), (Plane 1 0 1). split; [apply adjacent_cons, adjacent_head|].
    split; [cbn; lra|]. split; [cbn; lra|]. split; [|cbn; lra]. cbn [pl_z pl_rmax]. rewrite line_const. unfold rho. cbn. rewrite Rmult_0_l, Rplus_0_r, sqrt_0. lra.
  - destruct (K (V3 2 0 (1 / 2))) as (b & -> & Hb). f_equal. apply not_true_is_false. rewrite Hb.
    intros [(a & b' & Hab & _ & (_ & Hrr & _)) _]. assert (Hrho : rho (V3 2 0 (1 / 2)) = 2) by (unfold rho; cbn; rewrite Rmult_0_l, Rplus_0_r; apply sqrt_square; lra).
    rewrite Hrho in Hrr. apply adjacent_cons_inv in Hab as [[-> ->]|Hab]; [|apply adjacent_cons_inv in Hab as [[-> ->]|Hab]; [|by apply adjacent_one in Hab]];
      cbn [pl_z pl_rmax] in Hrr; rewrite line_const in Hrr; lra.
Qed.
(** The tilt conditions of C72 hold for it. *)
Example two_cylinders_tilt a b z : adjacent two_cylinders a b →
  tilted (pl_z a) (pl_rmax a) (pl_z b) (pl_rmax b) <= line (pl_z a) (pl_rmax a) (pl_z b) (pl_rmax b) z ∧ ¬ (0 < pl_rmin a ∨ 0 < pl_rmin b).
Proof.
  intros Hab. apply adjacent_cons_inv in Hab as [[-> ->]|Hab]; [|apply adjacent_cons_inv in Hab as [[-> ->]|Hab]; [|by apply adjacent_one in Hab]];
    cbn [pl_z pl_rmax pl_rmin]; rewrite tilted_const, line_const; split; try (intros [?|?]; lra); lra.
Qed.
(** A ray along the axis of two slabs of C74. *)
Definition slab_in (t : cone_type) (c : cone) (p d : v3) (smax : R) : R := - vz p - k_dz c.
Definition slabs (zs : list R) (k : nat) (p : v3) : Prop := ∃ a b, zs !! k = Some a ∧ zs !! (k + 1)%nat = Some b ∧ a < vz p < b.
Example slabs_ray inf pc : 10 < inf → construct inf no_wedge (2 * PI) two_cylinders = Some pc →
  ∃ D, poly_to_in inf slab_in UniversalCone pc (V3 0 0 (-3)) (V3 0 0 1) inf = Some D ∧ first_in inf (slabs (pc_zs pc)) (V3 0 0 (-3)) (V3 0 0 1) D.
Proof.
  intros Hinf Hc. pose proof kTolerance_pos. destruct (two_cylinders_sections inf pc Hc) as (Ez & c1 & c2 & Es).
  assert (Hs : stacked kTolerance (oriented two_cylinders)) by (unfold two_cylinders; rewrite oriented_three by (cbn; lra); apply stacked_three; unfold kTolerance; cbn; lra).
  destruct (C50_constructed inf no_wedge (2 * PI) two_cylinders pc Hs Hc) as (_ & Hi & _).
  destruct (construct_built kTolerance _ _ _ _ _ (Rle_refl _) Hs Hc) as (prev & rest & E & Hb). rewrite E in Hs.
  apply C74_to_in_partial; [apply (built_spans kTolerance _ _ _ _ _ ltac:(lra) Hs Hb)|done| | |by rewrite Es|left; unfold kTolerance; cbn; rewrite Rabs_pos_eq; lra].
  - intros k p Hk. exact Hk.
  - intros k s Hk. rewrite Es in Hk. rewrite Ez. left. destruct k as [|[|k]]; [| |done]; injection Hk as <-; unfold slab_in, shifted, mk_cone; cbn;
      (split; [lra|]; split; [lra|]; split; [intros u Hu (a & b & Ha & Hb' & Hab); injection Ha as <-; injection Hb' as <-; cbn in Hab; lra|];
       exists 1; split; [lra|]; intros u Hu; eexists _, _; split; [reflexivity|]; split; [reflexivity|]; cbn; lra).
Qed.
Definition slab_out (t : cone_type) (c : cone) (p d : v3) (smax : R) : R := if rltb (vz p) (- k_dz c) then 0 else Rmax 0 (k_dz c - vz p).
Lemma axis_outside sh c1 z : section_outside UniversalCone (Section_ sh (mk_cone 0 1 0 1 (/ 2) (2 * PI) no_wedge) c1) (V3 0 0 z) = true ↔ / 2 + / 10000000 < Rabs (z - sh).
Proof.
  unfold section_outside, cone_inside, shifted, vsub. cbn [sec_solid sec_shift vx vy vz]. rewrite cylinder_kernel by lra. cbn [vz]. unfold perp2, plus_tol_sq. cbn [vx vy].
  destruct (rgtb_spec (Rabs (z - sh)) (/ 2 + / 10000000)).
  - destruct (rltb_spec (Rabs (z - sh)) (/ 2 - / 10000000)); [lra|]. cbn. split; intros; [lra|done].
  - replace (rgtb ((0 - 0) * (0 - 0) + (0 - 0) * (0 - 0)) (1 * (1 + 2 * / 10000000))) with false.
    + destruct (_ && _); cbn; split; intros; [done|lra|done|lra].
    + destruct (rgtb_spec ((0 - 0) * (0 - 0) + (0 - 0) * (0 - 0)) (1 * (1 + 2 * / 10000000))); [lra|done].
Qed.
Example slabs_out inf pc : construct inf no_wedge (2 * PI) two_cylinders = Some pc →
  ∃ r, poly_to_out inf slab_out UniversalCone pc (V3 0 0 (- / 2)) (V3 0 0 1) inf = Some r ∧ 0 <= r ∧ last_out (pc_zs pc) (slabs (pc_zs pc)) (V3 0 0 (- / 2)) (V3 0 0 1) r.
Proof.
  intros Hc. pose proof kTolerance_pos. destruct (two_cylinders_sections inf pc Hc) as (Ez & c1 & c2 & Es).
  assert (Hs : stacked kTolerance (oriented two_cylinders)) by (unfold two_cylinders; rewrite oriented_three by (cbn; lra); apply stacked_three; unfold kTolerance; cbn; lra).
  destruct (construct_built kTolerance _ _ _ _ _ (Rle_refl _) Hs Hc) as (prev & rest & E & Hb). rewrite E in Hs.
  assert (Hal : ∀ u, along (V3 0 0 (- / 2)) (V3 0 0 1) u = V3 0 0 (- / 2 + u)) by (intros u; unfold along, vadd, vscale; cbn [vx vy vz]; f_equal; ring).
  assert (Hmem : ∀ k s, pc_sections pc !! k = Some s → ∃ a c, (k = 0%nat ∨ k = 1%nat) ∧ s = Section_ (a + / 2) (mk_cone 0 1 0 1 (/ 2) (2 * PI) no_wedge) c ∧
    ∀ p, slabs (pc_zs pc) k p ↔ a < vz p < a + 1).
  { intros k s Hk. rewrite Es in Hk. rewrite Ez. destruct k as [|[|k]]; [| |done]; injection Hk as <-.
    - exists (-1), c1. split; [by left|]. split; [f_equal; lra|]. intros p. split; [intros (a & b & Ha & Hb' & Hab); injection Ha as <-; injection Hb' as <-; lra|].
      intros Hp. exists (-1), 0. split; [done|]. split; [done|]. lra.
    - exists 0, c2. split; [by right|]. split; [f_equal; lra|]. intros p. split; [intros (a & b & Ha & Hb' & Hab); injection Ha as <-; injection Hb' as <-; lra|].
      intros Hp. exists 0, 1. split; [done|]. split; [done|]. lra. }
  eapply (C74_to_out_partial inf slab_out UniversalCone pc _ _ _ inf 0%nat).
  - apply (built_spans kTolerance _ _ _ _ _ ltac:(lra) Hs Hb).
  - rewrite Ez. unfold kConeTolerance. intros [|[|[|i]]] a b Ha Hb'; try done; injection Ha as <-; injection Hb' as <-; lra.
  - intros k p Hk. exact Hk.
  - intros k s T Hk HT. rewrite Hal. destruct (Hmem k s Hk) as (a & c & _ & -> & Hin). intros Ho. apply not_true_iff_false in Ho. rewrite axis_outside in Ho.
    assert (Ho' : Rabs (- / 2 + T - (a + / 2)) <= / 2 + / 10000000) by lra. apply abs_le_inv in Ho'.
    unfold slab_out, shifted, vsub, mk_cone. cbn [sec_solid sec_shift k_dz vx vy vz]. unfold stays, gone. setoid_rewrite Hal. setoid_rewrite Hin. cbn [vz].
    destruct (rltb_spec (- / 2 + T - (a + / 2)) (- / 2)) as [Hz|Hz].
    + split; [lra|]. split; [intros u Hu; lra|]. exists (a - (- / 2 + T)). split; [lra|]. intros u Hu. lra.
    + destruct (Rle_dec (/ 2) (- / 2 + T - (a + / 2))) as [Hge|Hlt].
      * rewrite Rmax_left by lra. split; [lra|]. split; [intros u Hu; lra|]. exists 1. split; [lra|]. intros u Hu. lra.
      * rewrite Rmax_right by lra. split; [lra|]. split; [intros u Hu; lra|]. exists 1. split; [lra|]. intros u Hu. lra.
  - intros k s T Hk HT. rewrite Hal. destruct (Hmem k s Hk) as (a & c & _ & -> & Hin). rewrite axis_outside. intros Ho. unfold gone. setoid_rewrite Hal. setoid_rewrite Hin. cbn [vz].
    destruct (Rle_dec (- / 2 + T) a) as [Hle|Hgt].
    + rewrite Rabs_left in Ho by lra. exists (a - (- / 2 + T)). split; [lra|]. intros u Hu. lra.
    + destruct (Rle_dec (a + 1) (- / 2 + T)); [exists 1; split; [lra|]; intros u Hu; lra|]. exfalso. revert Ho. apply Rle_not_lt, Rabs_le. lra.
  - left. unfold kTolerance. cbn. rewrite Rabs_pos_eq; lra.
  - by rewrite Es.
  - by rewrite Ez.
  - by rewrite Ez.
  - unfold kTolerance. cbn. lra.
  - apply not_true_iff_false. rewrite axis_outside. rewrite Rabs_pos_eq; lra.
Qed.
(** A convex polycone of C75: two cylinders of one radius, all of phi. *)
Example two_cylinders_ascending : ascending (oriented two_cylinders).
Proof.
  unfold two_cylinders. rewrite oriented_three by (cbn; lra). intros a b Hab.
  apply adjacent_cons_inv in Hab as [[-> ->]|Hab]; [|apply adjacent_cons_inv in Hab as [[-> ->]|Hab]; [|by apply adjacent_one in Hab]]; cbn; lra.
Qed.
Example two_cylinders_convex inf : 0 <= inf → ∃ pc, construct inf no_wedge (2 * PI) two_cylinders = Some pc ∧ detect_convexity pc = true ∧
  ¬ (2 * PI - kTolerance < 2 * PI < 2 * PI - 5 / 10 * / 1000000000) ∧ (2 * PI <= PI → convex2 (λ _ _, True)).
Proof.
  intros Hinf. pose proof kTolerance_pos. pose proof PI2_1 as HPI. unfold construct, init.
  assert (Eo : oriented two_cylinders = two_cylinders) by (unfold two_cylinders; rewrite oriented_three by (cbn; lra); done). rewrite Eo.
  assert (Hst : stacked kTolerance two_cylinders) by (apply stacked_three; unfold kTolerance; cbn; lra).
  assert (Hr : reduced two_cylinders = [(Plane (-1) 0 1, Plane 0 0 1); (Plane 0 0 1, Plane 1 0 1)]).
  { unfold reduced, doubled, two_cylinders. cbn [doubled_rest pl_z pl_rmax]. destruct (reqb_spec 0 1); [lra|]. cbn [negb orb app].
    unfold evened. cbn [length Nat.odd Nat.even negb last app paired pl_z]. destruct (reqb_spec (-1) 0); [lra|]. destruct (reqb_spec 0 1); [lra|]. done. }
  unfold two_cylinders at 1. fold two_cylinders. rewrite Hr.
  assert (Hp : negb (rltb (pl_z (Plane 0 0 1)) (pl_z (Plane (-1) 0 1))) = true) by (cbn; destruct (rltb_spec 0 (-1)); [lra|done]).
  rewrite Hp. cbn [blank pc_zs pc_sections app]. rewrite (init_loop_frusta kTolerance); [|lra|exact Hst|done]. cbn [mbind option_bind].
  eexists; split; [reflexivity|]. split; [|split; [lra|intros; lra]].
  unfold detect_convexity. cbn [pc_convexity pc_equal_rmax pc_dphi pc_continuity andb flat no_hole forallb mbind list_bind app fst snd pl_rmin pl_rmax tail equal_rmax].
  destruct (reqb_spec 0 0); [|lra]. destruct (reqb_spec 1 1); [|lra]. cbn [andb].
  unfold checked_delta. destruct (rleb_spec (2 * PI) 0); [lra|]. destruct (rgtb_spec (2 * PI) (2 * PI - kTolerance)); [|lra]. cbn [orb].
  destruct (rleb_spec (2 * PI) PI); [lra|]. destruct (reqb_spec (2 * PI) (2 * PI)); [done|lra].
Qed.
Print Assumptions C50_lookup.
Print Assumptions C50_constructed.
Print Assumptions C50_planes.
Print Assumptions C71_contains_partial.
Print Assumptions C71_thin_refuted.
Print Assumptions C72_outside_partial.
Print Assumptions C72_inside_partial.
Print Assumptions C72_seam_refuted.
Print Assumptions C73_safety_out.
Print Assumptions C73_safety_in_partial.
Print Assumptions C73_left_refuted.
Print Assumptions C73_below_refuted.
Print Assumptions C74_to_in_partial.
Print Assumptions C74_to_out_partial.
Print Assumptions C75_convex_partial.
Print Assumptions C75_convex_refuted.
Print Assumptions C75_triple_refuted.
Print Assumptions C76_reset_refuted.
Print Assumptions C77_maker_partial.
Print Assumptions C77_two_partial.
Print Assumptions C77_two_refuted.
Print Assumptions C73_beyond_partial.
Print Assumptions C73_marker.
Print Assumptions C74_start.
Print Assumptions C75_step.
Print Assumptions C76_capacity.
Print Assumptions C76_frustum.
