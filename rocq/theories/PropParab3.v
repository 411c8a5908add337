(** C88: paraboloids: normals, measures, samples and mesh. *)
From Coq Require Import Reals Lra Lia Bool ZArith Psatz.
From stdpp Require Import base list option numbers tactics.
From Verif Require Import Real3 AABBModel BoxModel BoxProofs PlanesModel PlanesProofs ConeSpec ConeProofs EllTubeProofs TubeProofs PropTrap3 ParabModel ParabSpec ParabProofs.
Import stdpp.list.
Local Open Scope R_scope.

Section Parab.
Variables L H Z : R.
Hypothesis HL : 0 <= L.
Hypothesis HH : L < H.
Hypothesis HZ : 0 < Z.
Let t := mk_parab L H Z.
Let A := steep L H Z.
Lemma sign_A : rsign (- pb_A t) = -1.
Proof using HL HH HZ. unfold t. rewrite A_eq by done. pose proof (A_pos L H Z HL HH HZ). unfold rsign. destruct (rltb_spec (- steep L H Z) 0); [done|lra]. Qed.
Lemma up_unit : pb_normalized (V3 0 0 1) = Some (V3 0 0 1).
Proof using.
  unfold pb_normalized, vmag. assert (E : vdot (V3 0 0 1) (V3 0 0 1) = 1) by (unfold vdot; cbn; ring). rewrite E. destruct (reqb_spec 1 0); [lra|]. rewrite sqrt_1. f_equal. apply v3_eq; cbn; field.
Qed.
Lemma two_unit : pb_normalized (V3 0 0 2) = Some (V3 0 0 1).
Proof using.
  unfold pb_normalized, vmag. assert (E : vdot (V3 0 0 2) (V3 0 0 2) = 2 * 2) by (unfold vdot; cbn; ring). rewrite E. destruct (reqb_spec (2 * 2) 0); [lra|]. rewrite sqrt_square by lra. f_equal. apply v3_eq; cbn; field.
Qed.
Lemma down_unit : pb_normalized (V3 0 0 (-1)) = Some (V3 0 0 (-1)).
Proof using.
  unfold pb_normalized, vmag. assert (E : vdot (V3 0 0 (-1)) (V3 0 0 (-1)) = 1) by (unfold vdot; cbn; ring). rewrite E. destruct (reqb_spec 1 0); [lra|]. rewrite sqrt_1. f_equal. apply v3_eq; cbn; field.
Qed.
Lemma zero_unit : pb_normalized (V3 0 0 0) = None.
Proof using. unfold pb_normalized. assert (E : vdot (V3 0 0 0) (V3 0 0 0) = 0) by (unfold vdot; cbn; ring). rewrite E. by destruct (reqb_spec 0 0). Qed.
Lemma on_side_iff p : pb_on_side t p = true ↔ Rabs (A * (rho p * rho p - bowl_at L H Z (vz p))) < kTolerance.
Proof using HL HH HZ.
  unfold pb_on_side, t. rewrite value_eq by done. fold A. set (v := A * _). clearbody v. rewrite andb_true_iff. destruct (rgtb_spec v (- kTolerance)); destruct (rltb_spec v kTolerance); (split; [intros [E1 E2]; first [done|apply Rabs_def1; lra]|intros G; apply Rabs_def2 in G; first [done|lra]]).
Qed.
(** For all: which surface the kernel takes the point to be on. *)
Definition at_top p := Rabs (vz p - Z) < kTolerance ∧ rho p * rho p < H * H + kHalfTolerance.
Definition at_bottom p := Rabs (vz p + Z) < kTolerance ∧ rho p * rho p < L * L + kHalfTolerance.
Lemma on_top_iff p : pb_on_z t true p = true ↔ at_top p.
Proof using. unfold pb_on_z, at_top. change (pb_dz t) with Z. change (pb_rhi2 t) with (H * H). rewrite rho_sqr, andb_true_iff. destruct (rltb_spec (Rabs (vz p - Z)) kTolerance); destruct (rltb_spec (rho p * rho p) (H * H + kHalfTolerance)); split; intros []; done || lra. Qed.
Lemma on_bottom_iff p : pb_on_z t false p = true ↔ at_bottom p.
Proof using. unfold pb_on_z, at_bottom. change (pb_dz t) with Z. change (pb_rlo2 t) with (L * L). rewrite rho_sqr, andb_true_iff. destruct (rltb_spec (Rabs (vz p + Z)) kTolerance); destruct (rltb_spec (rho p * rho p) (L * L + kHalfTolerance)); split; intros []; done || lra. Qed.
Lemma on_false (b : bool) P : (b = true ↔ P) → ¬ P → b = false.
Proof using. intros B N. destruct b; [|done]. destruct N. by apply B. Qed.
(** Normal is valid exactly within a tolerance of a lid or of the continued side.  On a lid a tolerance off the side it is
    right: down on the lower, up on the upper one. *)
Theorem C88_normal p : kTolerance <= Z →
  (fst (pb_normal t p) = true ↔ at_top p ∨ at_bottom p ∨ Rabs (A * (rho p * rho p - bowl_at L H Z (vz p))) < kTolerance) ∧
  (parab_lid L H Z true p → kTolerance <= Rabs (A * (rho p * rho p - bowl_at L H Z (vz p))) → pb_normal t p = (true, Some (V3 0 0 1))) ∧
  (parab_lid L H Z false p → kTolerance <= Rabs (A * (rho p * rho p - bowl_at L H Z (vz p))) → pb_normal t p = (true, Some (V3 0 0 (-1)))).
Proof using HL HH HZ.
  intros TZ. pose proof kTolerance_pos as T. assert (T2 : 0 < kHalfTolerance) by (unfold kHalfTolerance; lra). pose proof (on_top_iff p) as I1. pose proof (on_bottom_iff p) as I2. pose proof (on_side_iff p) as I3. pose proof (rho_nonneg p) as R0. split; [|split].
  - rewrite <- I1, <- I2, <- I3. unfold pb_normal. destruct (pb_on_z t true p), (pb_on_z t false p), (pb_on_side t p); cbn [orb fst]; split; try done; intros; tauto || (by intuition).
  - intros [E1 E2] NS. assert (S : pb_on_side t p = false) by (apply (on_false _ _ I3); lra). assert (UP : pb_on_z t true p = true). { apply I1. unfold at_top. rewrite E1, Rminus_eq_0, Rabs_R0. split; [done|]. assert (rho p * rho p <= H * H) by (apply Rmult_le_compat; lra). lra. }
    assert (DN : pb_on_z t false p = false) by (apply (on_false _ _ I2); unfold at_bottom; rewrite E1, Rabs_pos_eq by lra; lra). unfold pb_normal. rewrite S, UP, DN. cbn [orb]. by rewrite up_unit.
  - intros [E1 E2] NS. assert (S : pb_on_side t p = false) by (apply (on_false _ _ I3); lra). assert (DN : pb_on_z t false p = true). { apply I2. unfold at_bottom. rewrite E1, Rplus_opp_l, Rabs_R0. split; [done|]. assert (rho p * rho p <= L * L) by (apply Rmult_le_compat; lra). lra. }
    unfold pb_normal. rewrite S, DN, orb_true_r. cbn [orb]. by rewrite down_unit.
Qed.
(** On the whole side between the lids the normal is the upward direction and said to be valid, although that points into the
    solid: it makes an obtuse angle with the outward direction.  On the lower rim no direction comes out at all. *)
Theorem C88_normal_side_refuted p : parab_side L H Z p →
  (Rabs (vz p) <= Z - kTolerance → pb_normal t p = (true, Some (V3 0 0 1)) ∧ vdot (V3 0 0 1) (bowl_gradient L H Z p) < 0) ∧
  (vz p = - Z → kTolerance <= Z → pb_normal t p = (true, None)).
Proof using HL HH HZ.
  intros [S1 S2]. pose proof kTolerance_pos as T. assert (T2 : 0 < kHalfTolerance) by (unfold kHalfTolerance; lra). pose proof (A_pos L H Z HL HH HZ) as HA.
  assert (SD : pb_on_side t p = true) by (apply on_side_iff; rewrite S2, Rminus_eq_0, Rmult_0_r, Rabs_R0; done). split.
  - intros PZ. apply abs_le in PZ. assert (UP : pb_on_z t true p = false) by (apply (on_false _ _ (on_top_iff p)); unfold at_top; intros [G _]; apply Rabs_def2 in G; lra). assert (DN : pb_on_z t false p = false) by (apply (on_false _ _ (on_bottom_iff p)); unfold at_bottom; intros [G _]; apply Rabs_def2 in G; lra). split.
    + unfold pb_normal. rewrite SD, UP, DN, sign_A. cbn [orb]. f_equal. rewrite <- up_unit. f_equal. apply v3_eq; cbn; ring.
    + unfold vdot, bowl_gradient. cbn [vx vy vz]. assert (0 < / steep L H Z) by (by apply Rinv_0_lt_compat). lra.
  - intros E TZ. assert (DN : pb_on_z t false p = true) by (apply on_bottom_iff; unfold at_bottom; rewrite S2, E, Rplus_opp_l, Rabs_R0, bowl_bottom by done; lra). unfold pb_normal. rewrite SD, DN, orb_true_r, sign_A. cbn [orb]. f_equal. rewrite <- zero_unit. f_equal. apply v3_eq; cbn; ring.
Qed.

(** Capacity is the volume: the areas of the slices added up. *)
Theorem C88_capacity : ∃ F, (∀ z, derivable_pt_lim F z (PI * bowl_at L H Z z)) ∧ F Z - F (- Z) = pb_capacity t.
Proof using HZ.
  set (a := PI * (L * L + (H * H - L * L) / 2)). set (b := PI * (H * H - L * L) / (4 * Z)). exists (λ z, a * z + b * z ^ 2 + 0 * z ^ 3). split.
  - intros z. replace (PI * bowl_at L H Z z) with (a + b * (2 * z) + 0 * (3 * z ^ 2)) by (unfold a, b, bowl_at; field; lra). apply cubic_derive.
  - unfold pb_capacity, t, mk_parab, a, b. cbn [pb_dz pb_rlo pb_rhi]. field. lra.
Qed.

(** The area below the height with the squared radius [x], up to a constant. *)
Let F (x : R) : R := 4 * PI * A / 3 * ((x + / (4 * A * A)) * R_sqrt.sqrt (x + / (4 * A * A))).
Lemma F_derive x : 0 <= x → derivable_pt_lim F x (2 * PI * A * R_sqrt.sqrt (x + / (4 * A * A))).
Proof using HL HH HZ.
  intros X. pose proof (A_pos L H Z HL HH HZ) as HA. fold A in HA. set (k := / (4 * A * A)). assert (K : 0 < k) by (apply Rinv_0_lt_compat, Rmult_lt_0_compat; lra). unfold F. fold k.
  assert (S0 : 0 < R_sqrt.sqrt (x + k)) by (apply sqrt_lt_R0; lra). assert (SS : R_sqrt.sqrt (x + k) * R_sqrt.sqrt (x + k) = x + k) by (apply sqrt_sqrt; lra).
  assert (D1 : derivable_pt_lim (λ x, x + k) x 1). { replace 1 with (1 + 0) by ring. apply (derivable_pt_lim_plus id (fct_cte k)); [apply derivable_pt_lim_id|apply derivable_pt_lim_const]. }
  assert (D2 : derivable_pt_lim (λ x, R_sqrt.sqrt (x + k)) x (/ (2 * R_sqrt.sqrt (x + k)) * 1)) by (apply (derivable_pt_lim_comp (λ x, x + k) R_sqrt.sqrt); [done|]; apply derivable_pt_lim_sqrt; lra).
  replace (2 * PI * A * R_sqrt.sqrt (x + k)) with (4 * PI * A / 3 * (1 * R_sqrt.sqrt (x + k) + (x + k) * (/ (2 * R_sqrt.sqrt (x + k)) * 1))).
  - apply (derivable_pt_lim_scal (λ x, (x + k) * R_sqrt.sqrt (x + k))). by apply (derivable_pt_lim_mult (λ x, x + k) (λ x, R_sqrt.sqrt (x + k))).
  - rewrite <- SS at 2. field. lra.
Qed.
Lemma bowl_derive z : derivable_pt_lim (bowl_at L H Z) z (/ A).
Proof using HL HH HZ.
  pose proof (sq_less L H HL HH) as Q. set (a := L * L + (H * H - L * L) / 2). assert (D : derivable_pt_lim (λ z, a + (/ A * z)) z (0 + / A * 1)) by (apply (derivable_pt_lim_plus (fct_cte a) (λ z, / A * z)); [apply derivable_pt_lim_const|apply (derivable_pt_lim_scal id), derivable_pt_lim_id]). replace (/ A) with (0 + / A * 1) by ring. eapply derivable_pt_lim_ext; [|exact D]. intros y. unfold a, A, steep, bowl_at. cbn. field. lra.
Qed.
Lemma lateral_term r : 0 <= r → let h := A * (r * r) in let x := r * r + 4 * (h * h) in
  F (r * r) - F 0 = (if reqb h 0 then 0 else PI * r / 6 / (h * h) * (R_sqrt.sqrt (x * (x * x)) - r * r * r)).
Proof using HL HH HZ.
  intros R0 h x. pose proof (A_pos L H Z HL HH HZ) as HA. fold A in HA. destruct (reqb_spec h 0) as [E|E].
  - assert (r = 0) as ->. { destruct (Req_dec r 0) as [|N]; [done|]. exfalso. assert (0 < A * (r * r)) by (apply Rmult_lt_0_compat; [done|]; apply Rmult_lt_0_compat; lra). unfold h in E. lra. } replace (0 * 0) with 0 by ring. ring.
  - assert (RP : r ≠ 0) by (intros ->; apply E; unfold h; ring). set (w := R_sqrt.sqrt (1 + 4 * (A * A) * (r * r))). assert (W0 : 0 <= w) by apply sqrt_pos. assert (P0 : 0 <= A * A * (r * r)) by (pose proof (Rle_0_sqr (A * r)) as Q; unfold Rsqr in Q; lra). assert (WW : w * w = 1 + 4 * (A * A) * (r * r)) by (apply sqrt_sqrt; lra).
    assert (XE : x = (r * w) * (r * w)) by (replace ((r * w) * (r * w)) with (r * r * (w * w)) by ring; rewrite WW; unfold x, h; ring). assert (RW : 0 <= r * w) by (by apply Rmult_le_pos).
    assert (X3 : R_sqrt.sqrt (x * (x * x)) = (r * w) * (r * w) * (r * w)). { rewrite XE. set (y := r * w) in *. replace (y * y * (y * y * (y * y))) with ((y * y * y) * (y * y * y)) by ring. apply sqrt_square. apply Rmult_le_pos; [|done]. by apply Rmult_le_pos. }
    assert (K : ∀ v, 0 <= v → R_sqrt.sqrt (v * v / (4 * (A * A))) = v / (2 * A)). { intros v V. replace (v * v / (4 * (A * A))) with ((v / (2 * A)) * (v / (2 * A))) by (field; lra). apply sqrt_square. apply Rmult_le_pos; [done|]. left. apply Rinv_0_lt_compat. lra. }
    unfold F. replace (r * r + / (4 * A * A)) with (w * w / (4 * (A * A))) by (rewrite WW; field; lra). replace (0 + / (4 * A * A)) with (1 * 1 / (4 * (A * A))) by (field; lra). rewrite !K by lra. rewrite X3. unfold h. field. lra.
Qed.
(** SurfaceArea is the two lids' plus what the side has as a surface of revolution: circumference times slanted height, added up.
    [g] extends that to the tip of the bowl, where the radius has no derivative. *)
Theorem C88_area : ∃ G g, (∀ z, - Z <= z → derivable_pt_lim G z (g z)) ∧
  (∀ z r', - Z < z → derivable_pt_lim (λ z, R_sqrt.sqrt (bowl_at L H Z z)) z r' → g z = 2 * PI * R_sqrt.sqrt (bowl_at L H Z z) * R_sqrt.sqrt (1 + r' * r')) ∧
  pb_surface_area t = (G Z - G (- Z)) + PI * (L * L) + PI * (H * H).
Proof using HL HH HZ.
  pose proof (A_pos L H Z HL HH HZ) as HA. fold A in HA. pose proof (sq_less L H HL HH) as Q. assert (POS : ∀ z, - Z <= z → L * L + / A * (z + Z) = bowl_at L H Z z ∧ 0 <= bowl_at L H Z z). { intros z Hz. assert (E : L * L + / A * (z + Z) = bowl_at L H Z z) by (unfold A, steep, bowl_at; field; lra). split; [done|]. rewrite <- E. assert (0 <= / A * (z + Z)) by (apply Rmult_le_pos; [left; by apply Rinv_0_lt_compat|lra]). assert (0 <= L * L) by (by apply Rmult_le_pos). lra. }
  exists (λ z, F (bowl_at L H Z z)), (λ z, 2 * PI * R_sqrt.sqrt (bowl_at L H Z z + / (4 * A * A))). split; [|split].
  - intros z Hz. destruct (POS z Hz) as [_ P]. replace (2 * PI * R_sqrt.sqrt (bowl_at L H Z z + / (4 * A * A))) with (2 * PI * A * R_sqrt.sqrt (bowl_at L H Z z + / (4 * A * A)) * / A) by (field; lra). apply (derivable_pt_lim_comp (bowl_at L H Z) F); [apply bowl_derive|by apply F_derive].
  - intros z r' Hz D. destruct (POS z ltac:(lra)) as [E _]. assert (P : 0 < bowl_at L H Z z). { rewrite <- E. assert (0 < / A * (z + Z)) by (apply Rmult_lt_0_compat; [by apply Rinv_0_lt_compat|lra]). assert (0 <= L * L) by (by apply Rmult_le_pos). lra. }
    assert (D' : derivable_pt_lim (λ z, R_sqrt.sqrt (bowl_at L H Z z)) z (/ (2 * R_sqrt.sqrt (bowl_at L H Z z)) * / A)) by (apply (derivable_pt_lim_comp (bowl_at L H Z) R_sqrt.sqrt); [apply bowl_derive|by apply derivable_pt_lim_sqrt]). rewrite (uniqueness_limite _ _ _ _ D D'). clear D D'. set (x := bowl_at L H Z z) in *. assert (S0 : 0 < R_sqrt.sqrt x) by (by apply sqrt_lt_R0). assert (SS : R_sqrt.sqrt x * R_sqrt.sqrt x = x) by (apply sqrt_sqrt; lra).
    rewrite (Rmult_assoc (2 * PI) (R_sqrt.sqrt x)). f_equal. rewrite <- sqrt_mult_alt by lra. f_equal. set (s := R_sqrt.sqrt x) in *. rewrite <- SS. field. lra.
  - rewrite bowl_top, bowl_bottom by done. replace (F (H * H) - F (L * L)) with ((F (H * H) - F 0) - (F (L * L) - F 0)) by ring. rewrite !lateral_term by lra. cbv zeta.
    unfold pb_surface_area, t. assert (B1 : - pb_B (mk_parab L H Z) + Z = A * (H * H)) by (rewrite <- (bowl_top L H Z HZ); unfold A; rewrite bowl_lin by done; ring). assert (B2 : - pb_B (mk_parab L H Z) - Z = A * (L * L)) by (rewrite <- (bowl_bottom L H Z HZ); unfold A; rewrite bowl_lin by done; ring).
    change (pb_dz (mk_parab L H Z)) with Z. change (pb_rhi2 (mk_parab L H Z)) with (H * H). change (pb_rlo2 (mk_parab L H Z)) with (L * L). change (pb_rhi (mk_parab L H Z)) with H. change (pb_rlo (mk_parab L H Z)) with L. rewrite B1, B2. cbv zeta. assert (HP : 0 < A * (H * H)) by (apply Rmult_lt_0_compat; [done|]; apply Rmult_lt_0_compat; lra).
    destruct (reqb_spec (A * (H * H)) 0); [lra|]. replace (H * H + 4 * (A * (H * H)) * (A * (H * H))) with (H * H + 4 * (A * (H * H) * (A * (H * H)))) by ring. destruct (reqb (A * (L * L)) 0); cbn [negb]; ring.
Qed.

(** The mesh: vertex j of row i of n lies on the side, at i steps from the lower lid and j steps around; first and last column are the same. *)
Theorem C88_mesh n i j : (0 < n)%nat → (i <= n)%nat → let v := pb_vertex t n i j in
  parab_side L H Z v ∧ vz v = - Z + INR i * (2 * Z / INR n) ∧ (∃ r, 0 <= r ∧ vx v = r * cos (INR j * (2 * PI / INR n)) ∧ vy v = r * sin (INR j * (2 * PI / INR n))) ∧ pb_vertex t n i n = pb_vertex t n i 0.
Proof using HL HH HZ.
  intros Hn Hi v. pose proof (A_pos L H Z HL HH HZ) as HA. fold A in HA. assert (N0 : 0 < INR n) by (by apply lt_0_INR). assert (I0 : 0 <= INR i) by apply pos_INR. assert (I1 : INR i <= INR n) by (by apply le_INR). set (z := - Z + INR i * (2 * Z / INR n)).
  assert (ZR : Rabs z <= Z). { assert (S0 : 0 < 2 * Z / INR n) by (apply Rdiv_lt_0_compat; lra). assert (SE : INR n * (2 * Z / INR n) = 2 * Z) by (field; lra). assert (0 <= INR i * (2 * Z / INR n)) by (apply Rmult_le_pos; lra). assert (INR i * (2 * Z / INR n) <= INR n * (2 * Z / INR n)) by (apply Rmult_le_compat_r; lra). apply Rabs_le. unfold z. lra. }
  pose proof (bowl_range L H Z HL HH HZ z ZR) as BR. assert (L2 : 0 <= L * L) by (by apply Rmult_le_pos). assert (RE : Rabs ((z - pb_B t) / pb_A t) = bowl_at L H Z z). { unfold t. rewrite A_eq by done. fold A. rewrite <- bowl_lin by done. fold A. replace (A * bowl_at L H Z z / A) with (bowl_at L H Z z) by (field; lra). apply Rabs_pos_eq. lra. }
  assert (VE : ∀ j, pb_vertex t n i j = V3 (R_sqrt.sqrt (bowl_at L H Z z) * cos (INR j * (2 * PI / INR n))) (R_sqrt.sqrt (bowl_at L H Z z) * sin (INR j * (2 * PI / INR n))) z) by (intros k; unfold pb_vertex; change (pb_dz t) with Z; fold z; by rewrite RE).
  unfold v. rewrite !VE. cbn [vx vy vz]. split; [|split; [done|split]].
  - split; [done|]. cbn [vz]. rewrite <- rho_sqr. unfold pb_r2. cbn [vx vy]. set (f := INR j * (2 * PI / INR n)). pose proof (sin2_cos2 f) as SC. unfold Rsqr in SC. set (s := R_sqrt.sqrt (bowl_at L H Z z)). assert (SS : s * s = bowl_at L H Z z) by (apply sqrt_sqrt; lra). replace (s * cos f * (s * cos f) + s * sin f * (s * sin f)) with (s * s * (sin f * sin f + cos f * cos f)) by ring. rewrite SC, SS. ring.
  - exists (R_sqrt.sqrt (bowl_at L H Z z)). split; [apply sqrt_pos|done].
  - replace (INR n * (2 * PI / INR n)) with (0 + 2 * INR 1 * PI) by (cbn [INR]; field; lra). replace (INR 0 * (2 * PI / INR n)) with 0 by (cbn [INR]; ring). by rewrite cos_period, sin_period.
Qed.

(** Samples are points of the surface.  The first number picks the lower lid, the upper lid or the side by their shares of the
    area (the side gets the rest), the second the angle, the third the radius of the disc, by its square, or the height. *)
Theorem C88_sample u : 0 <= u 2%nat <= 1 → let p := pb_sample t u in let S := pb_surface_area t in let phi := 2 * PI * u 1%nat in
  (∃ r, 0 <= r ∧ vx p = r * cos phi ∧ vy p = r * sin phi) ∧
  (PI * (L * L + H * H) / S < u 0%nat → parab_side L H Z p ∧ vz p = - Z + u 2%nat * (2 * Z)) ∧
  (u 0%nat <= PI * (L * L + H * H) / S → u 0%nat < PI * (L * L) / S → parab_lid L H Z false p ∧ rho p * rho p = L * L * u 2%nat) ∧
  (u 0%nat <= PI * (L * L + H * H) / S → PI * (L * L) / S <= u 0%nat → parab_lid L H Z true p ∧ rho p * rho p = H * H * u 2%nat).
Proof using HL HH HZ.
  intros U p S phi. pose proof (A_pos L H Z HL HH HZ) as HA. fold A in HA. pose proof (sin2_cos2 phi) as SC. unfold Rsqr in SC.
  assert (RR : ∀ r z, rho (V3 (r * cos phi) (r * sin phi) z) * rho (V3 (r * cos phi) (r * sin phi) z) = r * r) by (intros r z; rewrite <- rho_sqr; unfold pb_r2; cbn [vx vy]; replace (r * cos phi * (r * cos phi) + r * sin phi * (r * sin phi)) with (r * r * (sin phi * sin phi + cos phi * cos phi)) by ring; rewrite SC; ring).
  assert (LIDR : ∀ M z, 0 <= M → rho (V3 (M * R_sqrt.sqrt (u 2%nat) * cos phi) (M * R_sqrt.sqrt (u 2%nat) * sin phi) z) <= M ∧ rho (V3 (M * R_sqrt.sqrt (u 2%nat) * cos phi) (M * R_sqrt.sqrt (u 2%nat) * sin phi) z) * rho (V3 (M * R_sqrt.sqrt (u 2%nat) * cos phi) (M * R_sqrt.sqrt (u 2%nat) * sin phi) z) = M * M * u 2%nat).
  { intros M z M0. assert (E : rho (V3 (M * R_sqrt.sqrt (u 2%nat) * cos phi) (M * R_sqrt.sqrt (u 2%nat) * sin phi) z) * rho (V3 (M * R_sqrt.sqrt (u 2%nat) * cos phi) (M * R_sqrt.sqrt (u 2%nat) * sin phi) z) = M * M * u 2%nat). { rewrite RR. replace (M * R_sqrt.sqrt (u 2%nat) * (M * R_sqrt.sqrt (u 2%nat))) with (M * M * (R_sqrt.sqrt (u 2%nat) * R_sqrt.sqrt (u 2%nat))) by ring. rewrite sqrt_sqrt by lra. done. } split; [|done]. set (x := rho _) in *. assert (0 <= M * M) by (by apply Rmult_le_pos). assert (x * x <= M * M) by (rewrite E; rewrite <- (Rmult_1_r (M * M)) at 2; apply Rmult_le_compat_l; lra). clear - H1 M0. nra. }
  unfold p, pb_sample. change (pb_rlo2 t) with (L * L). change (pb_rhi2 t) with (H * H). change (pb_dz t) with Z. change (pb_rlo t) with L. change (pb_rhi t) with H. fold S phi. cbv zeta.
  destruct (rgeb_spec (PI * (L * L + H * H) / S) (u 0%nat)) as [G|G]; [destruct (rgtb_spec (PI * (L * L) / S) (u 0%nat)) as [G'|G']|].
  - split; [exists (L * R_sqrt.sqrt (u 2%nat)); split; [apply Rmult_le_pos; [done|apply sqrt_pos]|done]|]. split; [lra|]. split; [|lra]. intros _ _. destruct (LIDR L (- Z) HL) as [E1 E2]. split; [|done]. split; done.
  - split; [exists (H * R_sqrt.sqrt (u 2%nat)); split; [apply Rmult_le_pos; [lra|apply sqrt_pos]|done]|]. split; [lra|]. split; [lra|]. intros _ _. destruct (LIDR H Z ltac:(lra)) as [E1 E2]. split; [|done]. split; done.
  - split; [eexists; split; [|split; reflexivity]; apply sqrt_pos|]. split; [|lra]. intros _. set (z := u 2%nat * 2 * Z - Z). cbn [vz]. split; [|unfold z; ring]. assert (ZR : Rabs z <= Z) by (apply Rabs_le; unfold z; clear - U HZ; nra). pose proof (bowl_range L H Z HL HH HZ z ZR) as BR. assert (L2 : 0 <= L * L) by (by apply Rmult_le_pos). split; [done|]. cbn [vz]. rewrite RR. replace (z * pb_invA t - pb_B t * pb_invA t) with ((z - pb_B t) * pb_invA t) by ring. unfold t. rewrite r0_eq by done. apply sqrt_sqrt. lra.
Qed.
End Parab.
Print Assumptions C88_normal.
Print Assumptions C88_normal_side_refuted.
Print Assumptions C88_capacity.
Print Assumptions C88_area.
Print Assumptions C88_mesh.
Print Assumptions C88_sample.
(** A bowl wider at the bottom, which the setter takes as well, has a negative area. *)
Theorem C88_area_wide_bottom_refuted : ∃ t, t = pb_set (mk_parab 0 1 1) 2 1 (3 / 2) ∧ pb_rlo t = 2 ∧ pb_rhi t = 1 ∧ pb_surface_area t < 0.
Proof.
  exists (mk_parab 2 1 (3 / 2)). split; [|split; [done|split; [done|]]].
  - unfold pb_set. destruct (rltb_spec 2 0); [lra|]. destruct (rltb_spec 1 0); [lra|]. destruct (rleb_spec (3 / 2) 0); [lra|]. done.
  - unfold pb_surface_area, mk_parab. cbn [pb_B pb_dz pb_rhi2 pb_rlo2 pb_rhi pb_rlo]. replace (- (- (3 / 2) * (2 * 2 + 1 * 1) * (1 / (1 * 1 - 2 * 2))) + 3 / 2) with (-1) by field. replace (- (- (3 / 2) * (2 * 2 + 1 * 1) * (1 / (1 * 1 - 2 * 2))) - 3 / 2) with (-4) by field. destruct (reqb_spec (-4) 0); [lra|]. cbn [negb].
    replace ((1 * 1 + 4 * -1 * -1) * ((1 * 1 + 4 * -1 * -1) * (1 * 1 + 4 * -1 * -1))) with 125 by ring. replace ((2 * 2 + 4 * (-4 * -4)) * ((2 * 2 + 4 * (-4 * -4)) * (2 * 2 + 4 * (-4 * -4)))) with 314432 by ring.
    assert (S1 : R_sqrt.sqrt 125 <= 12) by (rewrite <- (sqrt_square 12) by lra; apply sqrt_le_1_alt; lra). assert (S2 : 560 <= R_sqrt.sqrt 314432) by (rewrite <- (sqrt_square 560) by lra; apply sqrt_le_1_alt; lra). pose proof PI_RGT_0 as P. set (x := R_sqrt.sqrt 125) in *. set (y := R_sqrt.sqrt 314432) in *.
    replace (PI * 1 / 6 / (-1 * -1) * (x - 1 * 1 * 1) - PI * 2 / 6 / (-4 * -4) * (y - 2 * 2 * 2) + (2 * 2 + 1 * 1) * PI) with (PI * ((x - 1) / 6 - (y - 8) / 48 + 5)) by field. assert ((x - 1) / 6 - (y - 8) / 48 + 5 < 0) by lra. clear - P H. nra.
Qed.
Print Assumptions C88_area_wide_bottom_refuted.

(** The bowl of radius 2 and half height 2: volume 8 PI, and a point of the side with the normal pointing in. *)
Example bowl_two_measures : pb_capacity (mk_parab 0 2 2) = 8 * PI ∧ ∃ p, parab_side 0 2 2 p ∧ vz p = -1 ∧ pb_normal (mk_parab 0 2 2) p = (true, Some (V3 0 0 1)).
Proof.
  split; [unfold pb_capacity, mk_parab; cbn; ring|]. set (p := V3 1 0 (-1)). assert (S : parab_side 0 2 2 p) by (split; [cbn [vz p]; rewrite Rabs_left; lra|]; rewrite <- rho_sqr; unfold pb_r2, bowl_at; cbn [vx vy vz p]; field). exists p. split; [done|]. split; [done|]. apply (C88_normal_side_refuted 0 2 2); [lra..|done|]. cbn [vz p]. rewrite Rabs_left by lra. unfold kTolerance. lra.
Qed.
