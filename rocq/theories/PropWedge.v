(** The phi wedge (C47), and cones and polycones with their own wedge (C71, C72, C73, C75, C77, C78). *)
From Coq Require Import Reals Lra Lia Bool.
From stdpp Require Import base list option numbers tactics.
From Verif Require Import Real3 AABBModel BoxModel ConeModel ConeSpec PolyconeModel PolyconeSpec PropCone PropPolycone WedgeModel WedgeSpec WedgeProofs WedgeProofs2.
Import stdpp.list.
Local Open Scope R_scope.

(** * C47 *)
Section C47.
Variables (d s : R).
Hypothesis Hd : 0 < d <= 2 * PI.
Let w := mk_wedge d s.
(** Contains is the interval of angles. *)
Theorem C47_contains x y : wedge_contains w x y = true ↔ sector s d x y.
Proof using Hd. by apply wedge_contains_sector. Qed.
(** kSurface is said of the points less than kTolerance from one of the two half lines and not behind the origin, the rest is
    told apart exactly. *)
Theorem C47_inside x y :
  (wedge_inside w x y = kSurface ↔ near_line kTolerance s x y ∨ near_line kTolerance (s + d) x y) ∧
  (wedge_inside w x y = kInside ↔ sector s d x y ∧ ¬ (near_line kTolerance s x y ∨ near_line kTolerance (s + d) x y)) ∧
  (wedge_inside w x y = kOutside ↔ ¬ sector s d x y ∧ ¬ (near_line kTolerance s x y ∨ near_line kTolerance (s + d) x y)).
Proof using Hd.
  pose proof (inside_cases d s x y Hd) as H. fold w in H. fold (on_side d s x y). destruct (wedge_inside w x y); intuition discriminate.
Qed.
Theorem C47_boundary x y :
  (contains_with_boundary w x y = true ↔ sector s d x y ∨ near_line kTolerance s x y ∨ near_line kTolerance (s + d) x y) ∧
  (contains_without_boundary w x y = true ↔ sector s d x y ∧ ¬ (near_line kTolerance s x y ∨ near_line kTolerance (s + d) x y)).
Proof using Hd. split; [by apply with_boundary|by apply without_boundary]. Qed.
(** The safeties do not exceed the distance to the other side. *)
Theorem C47_safety_in x y x' y' : sector s d x' y' → wedge_safety_in w x y <= dist2 x y x' y'.
Proof using Hd. by apply safety_in_le. Qed.
Theorem C47_safety_out x y x' y' : ¬ sector s d x' y' → wedge_safety_out w x y <= dist2 x y x' y'.
Proof using Hd. by apply safety_out_le. Qed.
(** Up to half a turn the outward safety is the distance. *)
Theorem C47_safety_tight x y e : d <= PI → sector s d x y → 0 < e →
  ∃ x' y', ¬ sector s d x' y' ∧ dist2 x y x' y' < wedge_safety_out w x y + e.
Proof using Hd. intros Hp. apply safety_out_tight. lra. Qed.
(** The two distances of a ray are where it crosses the lines of the sides in the right sense, kInfLength when it does not. *)
Theorem C47_to_in inf x y dx dy :
  is_crossing inf (crosses_left s x y dx dy) (wedge_to_in inf w x y dx dy).1 ∧
  is_crossing inf (crosses_right (s + d) x y dx dy) (wedge_to_in inf w x y dx dy).2.
Proof using. apply to_in_spec. Qed.
Theorem C47_to_out inf x y dx dy :
  is_crossing inf (crosses_right s x y dx dy) (wedge_to_out inf w x y dx dy).1 ∧
  is_crossing inf (crosses_left (s + d) x y dx dy) (wedge_to_out inf w x y dx dy).2.
Proof using. apply to_out_spec. Qed.
(** A ray that enters between u and v does so at one of the two. *)
Theorem C47_enter inf x y dx dy u v : 0 < u → u < v → ¬ sector s d (x + u * dx) (y + u * dy) → sector s d (x + v * dx) (y + v * dy) →
  u <= (wedge_to_in inf w x y dx dy).1 <= v ∨ u <= (wedge_to_in inf w x y dx dy).2 <= v.
Proof using Hd. by apply enter_between. Qed.
Theorem C47_leave inf x y dx dy u v : 0 < u → u < v → sector s d (x + u * dx) (y + u * dy) → ¬ sector s d (x + v * dx) (y + v * dy) →
  u <= (wedge_to_out inf w x y dx dy).1 <= v ∨ u <= (wedge_to_out inf w x y dx dy).2 <= v.
Proof using Hd. by apply leave_between. Qed.
(** Below half a turn a ray that has passed a way out stays out; above, one that has passed a way in stays in. *)
Theorem C47_gone inf x y dx dy D u : d < PI → D < inf → D < u →
  D = (wedge_to_out inf w x y dx dy).1 ∨ D = (wedge_to_out inf w x y dx dy).2 → ¬ sector s d (x + u * dx) (y + u * dy).
Proof using Hd.
  intros Hp Hi Hu HD. destruct (to_out_spec inf d s x y dx dy) as [A B]. fold w in A, B. apply (out_for_good d s x y dx dy D u); [lra| |done].
  destruct HD as [E|E]; [left|right]; rewrite E in *; [destruct A as [A|[A _]]|destruct B as [B|[B _]]]; try done; lra.
Qed.
Theorem C47_arrived inf x y dx dy D u : PI < d → D < inf → D < u →
  D = (wedge_to_in inf w x y dx dy).1 ∨ D = (wedge_to_in inf w x y dx dy).2 → sector s d (x + u * dx) (y + u * dy).
Proof using Hd.
  intros Hp Hi Hu HD. destruct (to_in_spec inf d s x y dx dy) as [A B]. fold w in A, B. apply (in_for_good d s x y dx dy D u); [lra| |done].
  destruct HD as [E|E]; [left|right]; rewrite E in *; [destruct A as [A|[A _]]|destruct B as [B|[B _]]]; try done; lra.
Qed.
(** Moving in or out at a side: near its half line, with the speed across it above or below 0.0025 tolerances. *)
Theorem C47_moving first x y dx dy : let v := if first : bool then - side s dx dy else side (s + d) dx dy in
  (moving_out w first x y dx dy = true ↔ near_line kTolerance (if first then s else s + d) x y ∧ 5 / 1000 * kHalfTolerance < v) ∧
  (moving_in w first x y dx dy = true ↔ near_line kTolerance (if first then s else s + d) x y ∧ v < 5 / 1000 * kHalfTolerance).
Proof using. split; [apply moving_out_spec|apply moving_in_spec]. Qed.
(** The sector test of cones and tubes, strict and generous by the tolerance. *)
Theorem C47_sector_test tol x y : 0 <= tol →
  (cyclical_sector tol false s d x y = true → sector s d x y ∧ ∀ x' y', ¬ sector s d x' y' → tol <= dist2 x y x' y') ∧
  (cyclical_sector tol true s d x y = false → ¬ sector s d x y ∧ ∀ x' y', sector s d x' y' → tol < dist2 x y x' y').
Proof using Hd.
  intros Ht. split; intros H; (split; [|intros x' y'; by (apply cyclical_inside || apply cyclical_outside)]).
  - by eapply cyclical_strict.
  - intros K. apply (cyclical_generous tol) in K; [|done|done]. by rewrite K in H.
Qed.
(** The normalised start angle names the same sector; the sector ends within the turn. *)
Theorem C47_start_angle x y : (sector (checked_sphi d s) d x y ↔ sector s d x y) ∧ - d < checked_sphi d s ∧ checked_sphi d s + d <= 2 * PI.
Proof using Hd. split; [apply checked_sector|by apply checked_sphi_range]. Qed.
(** The strict sector test that cones use: only points at least the tolerance inside the sector pass. *)
Theorem C47_cone_sector x y : d < 2 * PI - 5 / 10 * / 1000000000 → w_sector (cone_wedge s d) x y = true →
  sector s d x y ∧ ∀ x' y', ¬ sector s d x' y' → kConeTolerance <= dist2 x y x' y'.
Proof using Hd.
  intros Hd' H. unfold cone_wedge in H. cbn [w_sector] in H.
  assert (E : checked_dphi d = d). { unfold checked_dphi. destruct (rgeb_spec d (2 * PI - 5 / 10 * / 1000000000)); [exfalso; lra|done]. }
  rewrite E in H. split.
  - apply checked_sector. apply (cyclical_strict kConeTolerance); [unfold kConeTolerance; lra|done|done].
  - intros x' y' Hn. apply (cyclical_inside kConeTolerance (checked_sphi d s) d); [done|done|]. by rewrite checked_sector.
Qed.
End C47.
(** The setters leave the vectors as they were: a quarter turn moved to start at pi still contains (1, 1), not (-1, -1); a quarter
    turn opened to three quarters still excludes (-1, 1). *)
Theorem C47_setter_refuted :
  (sector PI (PI / 2) (-1) (-1) ∧ wedge_contains (set_start (mk_wedge (PI / 2) 0) PI) (-1) (-1) = false ∧
   ¬ sector PI (PI / 2) 1 1 ∧ wedge_contains (set_start (mk_wedge (PI / 2) 0) PI) 1 1 = true) ∧
  (¬ sector 0 (3 * (PI / 2)) 1 (-1) ∧ wedge_contains (set_delta (mk_wedge (PI / 2) 0) (3 * (PI / 2))) 1 (-1) = true).
Proof.
  pose proof PI_RGT_0 as HP. assert (E1 : PI + PI / 2 = 3 * (PI / 2)) by field.
  assert (S0 : ∀ x y, side 0 x y = y) by (intros; unfold side; rewrite cos_0, sin_0; ring).
  assert (S1 : ∀ x y, side (0 + PI / 2) x y = - x) by (intros; unfold side; rewrite Rplus_0_l, cos_PI2, sin_PI2; ring).
  assert (S2 : ∀ x y, side PI x y = - y) by (intros; unfold side; rewrite cos_PI, sin_PI; ring).
  assert (S3 : ∀ x y, side (0 + 3 * (PI / 2)) x y = x) by (intros; unfold side; rewrite Rplus_0_l, cos_3PI2, sin_3PI2; ring).
  assert (S4 : ∀ x y, side (PI + PI / 2) x y = x) by (intros; unfold side; rewrite E1, cos_3PI2, sin_3PI2; ring).
  rewrite !sector_sides by lra. unfold by_sides. rewrite !S0, !S2, !S3, !S4.
  assert (K : ∀ d x y, wedge_contains (set_delta (mk_wedge (PI / 2) 0) d) x y = negb (if rltb d PI then rltb y 0 || rltb x 0 else rltb y 0 && rltb x 0)).
  { intros d x y. unfold wedge_contains, wedge_kernel. cbn zeta. cbn [snd set_delta wd_dphi wd_a1x wd_a1y wd_a2x wd_a2y].
    rewrite start_side, end_side, S0, S1, Ropp_involutive. done. }
  assert (K' : ∀ x y, wedge_contains (set_start (mk_wedge (PI / 2) 0) PI) x y = wedge_contains (set_delta (mk_wedge (PI / 2) 0) (PI / 2)) x y) by reflexivity.
  rewrite !K', !K. destruct (rltb_spec (PI / 2) PI); [|lra]. destruct (rltb_spec (3 * (PI / 2)) PI); [lra|].
  destruct (rltb_spec (-1) 0); [|lra]. destruct (rltb_spec 1 0); [lra|]. cbn. repeat split; try intros; try lra.
Qed.
(** A wedge of no opening contains the opposite half line as well. *)
Theorem C47_zero_refuted : wedge_contains (mk_wedge 0 0) (-1) 0 = true ∧ ¬ sector 0 0 (-1) 0.
Proof.
  split.
  - unfold wedge_contains. rewrite negb_true_iff. apply kernel_out. unfold by_sides, side. rewrite Rplus_0_r, cos_0, sin_0. split; intros; lra.
  - intros (phi & Hp & r & Hr & E & _). assert (phi = 0) by lra. subst. rewrite cos_0 in E. lra.
Qed.
(** The generous sector test takes points a whole unit behind the apex of a narrow sector. *)
Theorem C47_behind_refuted : cyclical_sector kConeTolerance true 0 kConeTolerance (-1) 0 = true ∧
  ∀ x' y', sector 0 kConeTolerance x' y' → 1 <= dist2 (-1) 0 x' y'.
Proof.
  assert (Hk : 0 < kConeTolerance < / 2) by (unfold kConeTolerance; lra). assert (HP : 2 < PI) by (pose proof PI2_3_2; lra). split.
  - apply (cyclical_sides kConeTolerance true). unfold side. rewrite cos_0, sin_0, Rplus_0_l. split; [|intros; lra]. intros _.
    assert (sin kConeTolerance < kConeTolerance) by (apply sin_lt_x; lra). lra.
  - intros x' y' (phi & Hp & r & Hr & -> & ->). assert (0 <= cos phi) by (apply cos_ge_0; lra). unfold dist2. rewrite <- sqrt_1 at 1. apply sqrt_le_1_alt.
    assert (0 <= r * cos phi) by (by apply Rmult_le_pos). pose proof (Rle_0_sqr (0 - r * sin phi)) as Q. unfold Rsqr in Q. nra.
Qed.

(** * Cones and polycones with their own wedge *)
Section C78.
Variables (t : cone_type) (m1 M1 m2 M2 dz sphi dphi : R).
Hypothesis Hdz : 0 < dz.
Hypothesis H1 : 0 <= m1 < M1.
Hypothesis H2 : 0 <= m2 < M2.
Hypothesis Hphi : 0 < dphi <= 2 * PI.
Hypothesis Hfits : fits t m1 m2 dphi.
Let c := mk_cone m1 M1 m2 M2 dz dphi (cone_wedge sphi dphi).
Let in_cone (p : v3) : Prop := cone_section (- dz) m1 M1 dz m2 M2 p ∧ in_phi dphi (sector sphi dphi) p.
Theorem C78_sector_contains p : cone_contains t c p = true ↔ in_cone p.
Proof using Hdz H1 H2 Hphi Hfits. apply C78_contains; try done. by apply cone_decides. Qed.
Theorem C78_sector_outside_partial p :
  (0 < m1 ∨ 0 < m2 → tilted (- dz) m1 dz m2 <= line (- dz) m1 dz m2 (vz p)) → cone_inside t c p = kOutside → ¬ in_cone p.
Proof using Hdz H1 H2 Hphi Hfits. apply C78_outside_partial; try done. by apply cone_tolerant. Qed.
Theorem C78_sector_inside_partial p :
  tilted (- dz) M1 dz M2 <= line (- dz) M1 dz M2 (vz p) → cone_inside t c p = kInside → in_cone p.
Proof using Hdz H1 H2 Hphi Hfits. apply C78_inside_partial; try done. by apply cone_tolerant. Qed.
Theorem C78_sector_safety p q : (in_cone q → cone_safety_in t c p <= vdist p q) ∧ (in_cone p → ¬ in_cone q → cone_safety_out t c p <= vdist p q).
Proof using Hdz H1 H2 Hphi Hfits. split; [apply C78_safety_in|apply C78_safety_out]; try done; by apply cone_safe. Qed.
End C78.
Section C71.
Variables (inf : R) (t : cone_type) (sphi dphi : R) (pls : list plane) (pc : polycone).
Hypothesis Hphi : 0 < dphi <= 2 * PI.
Hypothesis Hs : stacked (2 * kTolerance) (oriented pls).
Hypothesis Hr : radii_ok (oriented pls).
Hypothesis Hf : ∀ a b, adjacent (oriented pls) a b → fits t (pl_rmin a) (pl_rmin b) dphi.
Hypothesis Hc : construct inf (cone_wedge sphi dphi) dphi pls = Some pc.
Let inside_of := solid dphi (sector sphi dphi) (oriented pls).
Theorem C71_sector_partial p : ∃ b, poly_contains t pc p = Some b ∧ (b = true ↔ inside_of p).
Proof using Hphi Hs Hr Hf Hc. eapply C71_contains_partial; try done. by apply cone_decides. Qed.
Theorem C72_sector_outside_partial p :
  (∀ a b, adjacent (oriented pls) a b → 0 < pl_rmin a ∨ 0 < pl_rmin b → pl_z a < pl_z b → pl_z a <= vz p <= pl_z b →
    tilted (pl_z a) (pl_rmin a) (pl_z b) (pl_rmin b) <= line (pl_z a) (pl_rmin a) (pl_z b) (pl_rmin b) (vz p)) →
  poly_inside t pc p = Some kOutside → ¬ inside_of p.
Proof using Hphi Hs Hr Hf Hc. eapply C72_outside_partial; try done. by apply cone_tolerant. Qed.
Theorem C72_sector_inside_partial p :
  (∀ a b, adjacent (oriented pls) a b → pl_z a < pl_z b → pl_z a <= vz p <= pl_z b →
    tilted (pl_z a) (pl_rmax a) (pl_z b) (pl_rmax b) <= line (pl_z a) (pl_rmax a) (pl_z b) (pl_rmax b) (vz p)) →
  poly_inside t pc p = Some kInside → inside_of p ∨ ∃ a, a ∈ oriented pls ∧ Rabs (vz p - pl_z a) <= kTolerance.
Proof using Hphi Hs Hr Hf Hc. eapply C72_inside_partial; try done. by apply cone_tolerant. Qed.
Theorem C73_sector_out p q r : poly_safety_out inf t pc p = Some r → inside_of p → ¬ inside_of q → r <= vdist p q.
Proof using Hphi Hs Hr Hf Hc. eapply C73_safety_out; try done. by apply cone_safe. Qed.
Theorem C73_sector_in_partial p q r : (∃ a b, a ∈ pc_zs pc ∧ b ∈ pc_zs pc ∧ a <= vz p <= b) →
  (∀ i, section_index pc (vz p) = Some (Z.of_nat i) →
    ∀ j a b c d, (j < i)%nat → pc_zs pc !! j = Some a → pc_zs pc !! S j = Some b → pc_zs pc !! (i - 1)%nat = Some c → pc_zs pc !! i = Some d → b - a <= d - c) →
  poly_safety_in t pc p = Some r → inside_of q → r <= vdist p q.
Proof using Hphi Hs Hr Hf Hc. eapply C73_safety_in_partial; try done. by apply cone_safe. Qed.
End C71.
Theorem C75_sector_partial inf sphi dphi pls pc : 0 < dphi <= 2 * PI → ¬ (2 * PI - kTolerance < dphi < 2 * PI - 5 / 10 * / 1000000000) →
  ascending (oriented pls) → construct inf (cone_wedge sphi dphi) dphi pls = Some pc → detect_convexity pc = true → convex (solid dphi (sector sphi dphi) (oriented pls)).
Proof. intros Hd Hn. eapply C75_convex_partial; [lra|done|]. intros Hp. apply sector_convex. lra. Qed.
Theorem C77_sector_partial inf sphi dphi pls t pc p : 0 < dphi <= 2 * PI → stacked (2 * kTolerance) (oriented pls) → radii_ok pls →
  maker inf (cone_wedge sphi dphi) dphi pls = Some (MadePolycone t pc) → ∃ b, poly_contains t pc p = Some b ∧ (b = true ↔ solid dphi (sector sphi dphi) (oriented pls) p).
Proof. intros Hd. apply C77_maker_partial. by apply cone_decides. Qed.

(** * Examples *)
Lemma at_three : cos (3 * (PI / 2)) = 0 ∧ sin (3 * (PI / 2)) = -1.
Proof. by rewrite cos_3PI2, sin_3PI2. Qed.
(** A quarter turn and three quarters of a turn: points, safeties, rays. *)
Example quarter_points : 0 < PI / 2 <= 2 * PI ∧ wedge_contains (mk_wedge (PI / 2) 0) 2 1 = true ∧ wedge_contains (mk_wedge (PI / 2) 0) (-2) 1 = false ∧
  wedge_safety_out (mk_wedge (PI / 2) 0) 2 1 = 1 ∧ wedge_safety_in (mk_wedge (PI / 2) 0) (-2) 1 = 2 ∧
  wedge_inside (mk_wedge (PI / 2) 0) 2 0 = kSurface ∧ wedge_inside (mk_wedge (PI / 2) 0) 2 1 = kInside ∧ wedge_inside (mk_wedge (PI / 2) 0) (-2) 0 = kOutside.
Proof.
  pose proof PI_RGT_0. assert (Hd : 0 < PI / 2 <= 2 * PI) by lra. split; [done|].
  assert (S0 : ∀ x y, side 0 x y = y) by (intros; unfold side; rewrite cos_0, sin_0; ring).
  assert (S1 : ∀ x y, side (0 + PI / 2) x y = - x) by (intros; unfold side; rewrite Rplus_0_l, cos_PI2, sin_PI2; ring).
  assert (K : ∀ x y, sector 0 (PI / 2) x y ↔ 0 <= x ∧ 0 <= y).
  { intros. rewrite sector_sides by done. unfold by_sides. rewrite S0, S1. split; [intros [A _]; lra|intros; split; intros; lra]. }
  split; [apply C47_contains; [done|]; apply K; lra|]. split; [apply not_true_is_false; rewrite C47_contains, K by done; lra|].
  unfold wedge_safety_out, wedge_safety_in. rewrite !n1_side, !n2_side, !S0, !S1. cbn [mk_wedge wd_dphi]. destruct (rltb_spec (PI / 2) PI); [|lra].
  split; [rewrite Rmin_left; lra|]. split; [rewrite Rmax_right; lra|].
  assert (N : ∀ phi x y, near_line kTolerance phi x y ↔ 0 <= ahead phi x y ∧ Rabs (side phi x y) < kTolerance).
  { intros. unfold near_line. split; intros [A B]; (split; [done|]); by apply (near_half_line phi x y A). }
  assert (A0 : ∀ x y, ahead 0 x y = x) by (intros; unfold ahead; rewrite cos_0, sin_0; ring).
  assert (A1 : ∀ x y, ahead (0 + PI / 2) x y = y) by (intros; unfold ahead; rewrite Rplus_0_l, cos_PI2, sin_PI2; ring).
  pose proof kTolerance_pos. assert (kTolerance < 1) by (unfold kTolerance; lra).
  destruct (C47_inside (PI / 2) 0 Hd 2 0) as (-> & _ & _). destruct (C47_inside (PI / 2) 0 Hd 2 1) as (_ & -> & _). destruct (C47_inside (PI / 2) 0 Hd (-2) 0) as (_ & _ & ->).
  rewrite !N, !K, !A0, !A1, !S0, !S1. rewrite ?Rabs_R0. assert (Rabs (- -2) = 2) by (rewrite Rabs_right; lra). assert (Rabs 1 = 1) by (rewrite Rabs_right; lra). assert (Rabs (-(2)) = 2) by (rewrite Rabs_left; lra).
  assert (Rabs 2 = 2) by (rewrite Rabs_right; lra). repeat split; lra.
Qed.
Example three_quarters_ray inf : 10 < inf → let w := mk_wedge (3 * (PI / 2)) 0 in
  wedge_contains w 1 (-2) = false ∧ wedge_contains w (-1) (-2) = true ∧ wedge_to_in inf w 1 (-2) (-1) 0 = (inf, 1) ∧ wedge_to_in inf w 1 (-2) 0 1 = (2, inf) ∧
  wedge_to_out inf w (-1) (-2) 1 0 = (inf, 1).
Proof.
  intros Hi w. pose proof PI_RGT_0. destruct at_three as [Ec Es]. assert (Hd : 0 < 3 * (PI / 2) <= 2 * PI) by lra.
  assert (S0 : ∀ x y, side 0 x y = y) by (intros; unfold side; rewrite cos_0, sin_0; ring).
  assert (S3 : ∀ x y, side (0 + 3 * (PI / 2)) x y = x) by (intros; unfold side; rewrite Rplus_0_l, Ec, Es; ring).
  assert (K : ∀ x y, sector 0 (3 * (PI / 2)) x y ↔ x <= 0 ∨ 0 <= y).
  { intros. rewrite sector_sides by done. unfold by_sides. rewrite S0, S3. split; [intros [_ A]; destruct (A ltac:(lra)); lra|intros [?|?]; split; intros; lra]. }
  split; [apply not_true_is_false; unfold w; rewrite C47_contains, K by done; lra|]. split; [apply C47_contains; [done|]; apply K; lra|].
  unfold wedge_to_in, wedge_to_out, plane_in, plane_out. cbn zeta. unfold w. rewrite !n1_side, !n2_side, !S0, !S3.
  assert (Q1 : - - (1) / - (-1) = 1) by field. assert (Q2 : - - -1 / - (1) = 1) by field. assert (Q3 : - (-2) / 1 = 2) by field.
  repeat split; f_equal; rewrite ?Q1, ?Q2, ?Q3; rcase; lra.
Qed.
(** A start angle of five half turns comes back as one half turn. *)
Example start_five : checked_sphi 1 (5 * PI) = PI.
Proof.
  destruct (checked_sphi_turns 1 (5 * PI)) as [k Hk]. pose proof PI2_3_2. destruct (checked_sphi_range 1 (5 * PI)) as [A B]; [lra|]. rewrite Hk in *.
  assert (-3 < IZR k) by nra. assert (IZR k < -1) by nra. assert (-3 < k)%Z by (apply lt_IZR; lra). assert (k < -1)%Z by (apply lt_IZR; lra). assert (k = -2)%Z as -> by lia. lra.
Qed.
(** A quarter of a hollow cone. *)
Example quarter_cone : let c := mk_cone 1 3 2 4 1 (PI / 2) (cone_wedge 0 (PI / 2)) in
  fits HollowSector 1 2 (PI / 2) ∧ cone_contains HollowSector c (V3 0 2 0) = true ∧ cone_contains HollowSector c (V3 0 (-2) 0) = false.
Proof.
  intros c. pose proof PI_RGT_0. pose proof PI2_3_2. assert (Hf : fits HollowSector 1 2 (PI / 2)) by (cbn; lra). split; [done|].
  pose proof (C78_sector_contains HollowSector 1 3 2 4 1 0 (PI / 2) ltac:(lra) ltac:(lra) ltac:(lra) ltac:(lra) Hf) as K. fold c in K. rewrite <- not_true_iff_false, !K.
  assert (Hr : rho (V3 0 2 0) = 2) by (unfold rho; cbn; rewrite Rmult_0_l, Rplus_0_l; apply sqrt_square; lra). split.
  - split; [|intros _; exists (PI / 2); split; [lra|]; exists 2; cbn; rewrite cos_PI2, sin_PI2; lra]. split; [cbn; lra|]. cbn [vz]. rewrite Hr. assert (L1 : line (- (1)) 3 1 4 0 = 7 / 2) by (unfold line; field). assert (L2 : line (- (1)) 1 1 2 0 = 3 / 2) by (unfold line; field). rewrite L1, L2. split; [lra|intros _; lra].
  - intros [_ H1]. destruct (H1 ltac:(lra)) as (phi & Hp & r & Hr' & _ & E). cbn in E. assert (0 <= sin phi) by (apply sin_ge_0; lra). nra.
Qed.
Print Assumptions C47_contains.
Print Assumptions C47_inside.
Print Assumptions C47_boundary.
Print Assumptions C47_safety_in.
Print Assumptions C47_safety_out.
Print Assumptions C47_safety_tight.
Print Assumptions C47_to_in.
Print Assumptions C47_to_out.
Print Assumptions C47_enter.
Print Assumptions C47_leave.
Print Assumptions C47_gone.
Print Assumptions C47_arrived.
Print Assumptions C47_moving.
Print Assumptions C47_sector_test.
Print Assumptions C47_cone_sector.
Print Assumptions C47_start_angle.
Print Assumptions C47_setter_refuted.
Print Assumptions C47_zero_refuted.
Print Assumptions C47_behind_refuted.
Print Assumptions C78_sector_contains.
Print Assumptions C78_sector_outside_partial.
Print Assumptions C78_sector_inside_partial.
Print Assumptions C78_sector_safety.
Print Assumptions C71_sector_partial.
Print Assumptions C72_sector_outside_partial.
Print Assumptions C72_sector_inside_partial.
Print Assumptions C73_sector_out.
Print Assumptions C73_sector_in_partial.
Print Assumptions C75_sector_partial.
Print Assumptions C77_sector_partial.
