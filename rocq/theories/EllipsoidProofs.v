From Coq Require Import Reals Lra Lia Bool Psatz.
From stdpp Require Import base list option numbers tactics.
From Verif Require Import Real3 AABBModel AABBProofs BoxModel BoxProofs PlanesModel TetModel ConeModel ConeSpec ConeProofs EllTubeModel EllTubeSpec EllTubeProofs EllTubeProofs2 EllTubeProofs3 EllTubeProofs4 EllipsoidModel EllipsoidSpec.
Import stdpp.list.
Local Open Scope R_scope.

Section Shape.
Variables A B C zb zt : R.
Hypothesis HA : 2 * kTolerance <= A.
Hypothesis HB : 2 * kTolerance <= B.
Hypothesis HC : 2 * kTolerance <= C.
Hypothesis Hz : - C <= zb < zt /\ zt <= C.
Notation t := (mk_ellipsoid A B C zb zt).
Let m := es_short A B C.
Let c := m / C.
Notation f := (ball_at A B C).
Notation h := kHalfTolerance.
Lemma es_pos : 0 < A /\ 0 < B /\ 0 < C /\ 2 * kTolerance <= m /\ 0 < m /\ m <= A /\ m <= B /\ m <= C.
Proof using HA HB HC Hz. pose proof kTolerance_pos. unfold m, es_short. assert (2 * kTolerance <= Rmin A (Rmin B C)) by (repeat (apply min_ge; split); lra). pose proof (Rmin_l A (Rmin B C)). pose proof (Rmin_r A (Rmin B C)). pose proof (Rmin_l B C). pose proof (Rmin_r B C). lra. Qed.
Lemma c_pos : 0 < c <= 1.
Proof using HA HB HC Hz.
  destruct es_pos as (_ & _ & C0 & _ & M0 & _ & _ & MC). unfold c. split; [by apply Rdiv_lt_0_compat|]. apply Rmult_le_reg_r with C; [done|]. replace (m / C * C) with m by (field; lra). lra.
Qed.
Definition es_scale : R := if rltb zt 0 then R_sqrt.sqrt ((1 - zt / C) * (1 + zt / C)) else if rgtb zb 0 then R_sqrt.sqrt ((1 - zb / C) * (1 + zb / C)) else 1.
Lemma axes_eq : es_axes A B C = (A, B, C).
Proof using HA HB HC Hz. unfold es_axes. destruct (rltb_spec A (2 * kTolerance)); [lra|]. destruct (rltb_spec B (2 * kTolerance)); [lra|]. done. Qed.
Lemma cuts_eq : es_cuts C zb zt = (zb, zt).
Proof using HA HB HC Hz.
  unfold es_cuts. assert (E : reqb zb 0 && reqb zt 0 = false). { destruct (reqb_spec zb 0), (reqb_spec zt 0); cbn; try done. lra. } rewrite E.
  destruct (rgeb_spec zb C); [lra|]. destruct (rleb_spec zt (- C)); [lra|]. destruct (rgeb_spec zb zt); [lra|]. cbn [orb]. rewrite Rmax_left, Rmin_left by lra. done.
Qed.
Lemma fields : es_dx t = A /\ es_dy t = B /\ es_dz t = C /\ es_zb t = zb /\ es_zt t = zt /\ es_xmax t = A * es_scale /\ es_ymax t = B * es_scale /\
  es_rsph t = Rmax A (Rmax B C) /\ es_r t = m /\ es_sx t = m / A /\ es_sy t = m / B /\ es_sz t = c /\ es_mid t = 1 / 2 * (zt * c + zb * c) /\ es_dim t = 1 / 2 * (zt * c - zb * c) /\
  es_q1 t = 1 / 2 / m /\ es_q2 t = 1 / 2 * (m + h * h / m).
Proof using HA HB HC Hz.
  unfold mk_ellipsoid, es_check. rewrite axes_eq, cuts_eq. unfold es_scale. destruct (rgtb zb (- C)); destruct (rltb zt C); cbn; repeat split.
Qed.
Lemma f_nonneg p : 0 <= f p.
Proof using. apply sqrt_pos. Qed.
Lemma f_sqr p : f p * f p = vx p / A * (vx p / A) + vy p / B * (vy p / B) + vz p / C * (vz p / C).
Proof using. clear. unfold ball_at. apply sqrt_sqrt. nra. Qed.
Lemma f_le_1 p : f p <= 1 <-> vx p / A * (vx p / A) + vy p / B * (vy p / B) + vz p / C * (vz p / C) <= 1.
Proof using. rewrite <- f_sqr. pose proof (f_nonneg p) as F0. set (a := ball_at A B C p) in *. clearbody a. clear - F0. split; intros; nra. Qed.
Definition unscaled (p : v3) : v3 := V3 (vx p / A) (vy p / B) (vz p / C).
Lemma f_mag p : f p = vmag (unscaled p).
Proof using. done. Qed.
Lemma scaled_eq p : es_scaled t p = vscale m (unscaled p).
Proof using HA HB HC Hz.
  destruct fields as (_ & _ & _ & _ & _ & _ & _ & _ & _ & SX & SY & SZ & _). unfold es_scaled. rewrite SX, SY, SZ. destruct es_pos as (? & ? & ? & _). unfold c. apply v3_eq; cbn; field; lra.
Qed.
Lemma scaled_dot p q : vdot (es_scaled t p) (es_scaled t q) = m * m * vdot (unscaled p) (unscaled q).
Proof using HA HB HC Hz. rewrite !scaled_eq. unfold vdot. cbn. ring. Qed.
Lemma scaled_rr p : vdot (es_scaled t p) (es_scaled t p) = (m * f p) * (m * f p).
Proof using HA HB HC Hz. rewrite scaled_dot. replace (m * f p * (m * f p)) with (m * m * (f p * f p)) by ring. rewrite f_sqr. unfold vdot, unscaled. cbn. done. Qed.
Lemma scaled_mag p : vmag (es_scaled t p) = m * f p.
Proof using HA HB HC Hz. unfold vmag. rewrite scaled_rr. apply sqrt_square. destruct es_pos as (_ & _ & _ & _ & M0 & _). pose proof (f_nonneg p). nra. Qed.
Lemma es_distR_e p : (es_distR t p <= h <-> m * f p <= m + h) /\ (es_distR t p <= - h <-> m * f p <= m - h) /\ (- h <= es_distR t p <-> m - h <= m * f p).
Proof using HA HB HC Hz.
  destruct es_pos as (_ & _ & _ & HM & M0 & _). pose proof (f_nonneg p) as F0. pose proof kTolerance_pos as Hk. assert (Hh : 0 < h /\ h < m) by (unfold kHalfTolerance; lra). destruct fields as (_ & _ & _ & _ & _ & _ & _ & _ & _ & _ & _ & _ & _ & _ & Q1 & Q2).
  assert (E : 2 * m * es_distR t p = (m * f p) * (m * f p) - m * m - h * h). { unfold es_distR. rewrite scaled_rr, Q1, Q2. field. lra. }
  set (D := es_distR t p) in *. set (a := m * f p) in *. assert (Ha : 0 <= a) by (unfold a; nra). clearbody D a. clear - E M0 Hh Ha. repeat split; intros; nra.
Qed.
Definition cut_at (z : R) : R := c * Rmax (z - zt) (zb - z).
Lemma cut_le z a : cut_at z <= a <-> c * (z - zt) <= a /\ c * (zb - z) <= a.
Proof using HA HB HC Hz. pose proof c_pos. unfold cut_at, Rmax. destruct (Rle_dec (z - zt) (zb - z)) as [G|G]; split; intros; try lra. - split; [|done]. apply Rle_trans with (c * (zb - z)); [apply Rmult_le_compat_l; lra|done]. - split; [done|]. apply Rle_trans with (c * (z - zt)); [apply Rmult_le_compat_l; lra|done]. Qed.
Lemma mid_dist z : Rabs (z * c - 1 / 2 * (zt * c + zb * c)) - 1 / 2 * (zt * c - zb * c) = cut_at z.
Proof using HA HB HC Hz. pose proof c_pos. unfold cut_at, Rmax. replace (z * c - 1 / 2 * (zt * c + zb * c)) with (c * (z - 1 / 2 * (zt + zb))) by ring. rewrite Rabs_mult, (Rabs_pos_eq c) by lra. destruct (Rle_dec (z - zt) (zb - z)) as [G|G]; [rewrite Rabs_left1 by lra|rewrite Rabs_pos_eq by lra]; field. Qed.
Lemma es_distZ_e p : es_distZ t p = cut_at (vz p).
Proof using HA HB HC Hz. destruct fields as (_ & _ & _ & _ & _ & _ & _ & _ & _ & _ & _ & SZ & MI & DI & _). unfold es_distZ, es_scaled. cbn [vz]. rewrite SZ, MI, DI. apply mid_dist. Qed.
Lemma moved_eq p a : es_moved A B C zb zt a p <-> cut_at (vz p) <= a /\ m * f p <= m + a.
Proof using HA HB HC Hz. unfold es_moved. rewrite cut_le. fold m c. split; intros; repeat split; lra. Qed.
Lemma es_contains_moved p : es_contains t p = true <-> es_moved A B C zb zt h p.
Proof using HA HB HC Hz.
  rewrite moved_eq. unfold es_contains, es_kernel. cbn [snd]. rewrite negb_true_iff. unfold rgtb. rewrite rltb_false, max_le, es_distZ_e. destruct (es_distR_e p) as (E & _). rewrite E. tauto.
Qed.
Lemma es_inside_in p : es_inside t p = kInside <-> es_moved A B C zb zt (- h) p.
Proof using HA HB HC Hz.
  rewrite moved_eq. destruct (es_distR_e p) as (_ & E & _). change (m + - h) with (m - h). rewrite <- E, <- es_distZ_e, <- max_le. unfold es_inside, es_kernel.
  destruct (rleb_spec (Rmax (es_distZ t p) (es_distR t p)) (- h)); [done|]. destruct (rgtb _ _); split; intros; try done; lra.
Qed.
Lemma es_inside_out p : es_inside t p = kOutside <-> ¬ es_moved A B C zb zt h p.
Proof using HA HB HC Hz.
  rewrite <- es_contains_moved. unfold es_contains, es_inside, es_kernel. cbn [snd]. pose proof kHalfTolerance_pos.
  destruct (rleb_spec (Rmax (es_distZ t p) (es_distR t p)) (- h)), (rgtb_spec (Rmax (es_distZ t p) (es_distR t p)) h); cbn; split; intros; try done; try lra.
Qed.
Notation solid := (es_solid A B C zb zt).
Lemma solid_eq p : solid p <-> cut_at (vz p) <= 0 /\ m * f p <= m.
Proof using HA HB HC Hz.
  pose proof c_pos as CP. destruct es_pos as (_ & _ & _ & _ & M0 & _). rewrite cut_le. unfold es_solid. assert (E : ∀ a, c * a <= 0 <-> a <= 0). { intros a. split; intros G; [apply Rnot_lt_le; intros N; assert (0 < c * a) by (apply Rmult_lt_0_compat; lra); lra|]. replace 0 with (c * 0) by ring. apply Rmult_le_compat_l; lra. } rewrite !E.
  assert (E2 : f p <= 1 <-> m * f p <= m). { split; intros G; [|apply Rmult_le_reg_l with m; lra]. replace m with (m * 1) at 2 by ring. apply Rmult_le_compat_l; lra. } rewrite E2. split; intros; repeat split; lra.
Qed.
Lemma f_diff p q : m * (f p - f q) <= vdist p q.
Proof using HA HB HC Hz.
  destruct es_pos as (A0 & B0 & C0 & _ & M0 & MA & MB & MC). assert (T : f p <= vmag (unscaled (vsub p q)) + f q). { rewrite !f_mag. replace (unscaled p) with (vadd (unscaled (vsub p q)) (unscaled q)) at 1 by (apply v3_eq; cbn; field; lra). apply vmag_add. }
  assert (G : m * vmag (unscaled (vsub p q)) <= vdist p q).
  { pose proof (vmag_nonneg (unscaled (vsub p q))) as N. apply sqr_le_le; [apply vdist_nonneg|]. rewrite vdist_sqr. set (v := vsub p q). pose proof (vmag_sqr (unscaled v)) as V. replace (m * vmag (unscaled v) * (m * vmag (unscaled v))) with (m * m * (vmag (unscaled v) * vmag (unscaled v))) by ring. rewrite V. unfold vdot, unscaled. cbn [vx vy vz].
    assert (Q : ∀ a L, m <= L -> m * m * ((a / L) * (a / L)) <= a * a). { intros a L HL. assert (E : a / L * (a / L) * (L * L) = a * a) by (field; lra). set (b := a / L) in *. clearbody b. assert (0 <= b * b) by nra. assert (m * m <= L * L) by nra. rewrite <- E. clear - H H0. nra. }
    pose proof (Q (vx v) A MA). pose proof (Q (vy v) B MB). pose proof (Q (vz v) C MC). lra. }
  assert (m * (f p - f q) <= m * vmag (unscaled (vsub p q))) by (apply Rmult_le_compat_l; lra). lra.
Qed.
Lemma vz_diff p q : Rabs (vz p - vz q) <= vdist p q.
Proof using. clear. pose proof (vz_le_mag (vsub p q)) as V. done. Qed.
Lemma cut_diff p q : cut_at (vz p) - cut_at (vz q) <= vdist p q.
Proof using HA HB HC Hz.
  pose proof c_pos as CP. pose proof (vz_diff p q) as V. assert (K : cut_at (vz p) <= cut_at (vz q) + vdist p q); [|lra]. apply cut_le. destruct (proj1 (cut_le (vz q) (cut_at (vz q))) (Rle_refl _)) as [K1 K2]. pose proof (Rle_abs (vz p - vz q)) as V1. pose proof (Rle_abs (- (vz p - vz q))) as V2. rewrite Rabs_Ropp in V2.
  assert (G : ∀ a, a <= vdist p q -> c * a <= vdist p q). { intros a Ha. pose proof (vdist_nonneg p q). destruct (Rle_dec a 0); [|nra]. apply Rle_trans with 0; [nra|lra]. }
  pose proof (G (vz p - vz q) ltac:(lra)). pose proof (G (- (vz p - vz q)) ltac:(lra)). lra.
Qed.
(** The box *)
Lemma scale_pos : 0 <= es_scale <= 1.
Proof using HA HB HC Hz.
  destruct es_pos as (_ & _ & C0 & _). unfold es_scale. assert (K : ∀ z, R_sqrt.sqrt ((1 - z / C) * (1 + z / C)) <= 1). { intros z. apply Rle_trans with (R_sqrt.sqrt 1); [|rewrite sqrt_1; lra]. apply sqrt_le_1_alt. pose proof (Rle_0_sqr (z / C)) as Q. unfold Rsqr in Q. lra. }
  destruct (rltb zt 0); [split; [apply sqrt_pos|apply K]|]. destruct (rgtb zb 0); [split; [apply sqrt_pos|apply K]|lra].
Qed.
Lemma scale_sqr : es_scale * es_scale = 1 - (if rltb zt 0 then zt / C * (zt / C) else if rgtb zb 0 then zb / C * (zb / C) else 0).
Proof using HA HB HC Hz.
  destruct es_pos as (_ & _ & C0 & _). unfold es_scale. assert (K : ∀ z, - C <= z <= C -> R_sqrt.sqrt ((1 - z / C) * (1 + z / C)) * R_sqrt.sqrt ((1 - z / C) * (1 + z / C)) = 1 - z / C * (z / C)).
  { intros z Hz'. rewrite sqrt_sqrt; [ring|]. assert (E : z / C * C = z) by (field; lra). set (w := z / C) in *. clearbody w. assert (-1 <= w <= 1) by (split; apply Rmult_le_reg_r with C; lra). apply Rmult_le_pos; lra. }
  destruct (rltb_spec zt 0); [apply K; lra|]. destruct (rgtb_spec zb 0); [apply K; lra|lra].
Qed.
Lemma scale_le z : zb <= z <= zt -> 1 - z / C * (z / C) <= es_scale * es_scale.
Proof using HA HB HC Hz.
  destruct es_pos as (_ & _ & C0 & _). intros Z. rewrite scale_sqr. assert (K : ∀ a b, 0 <= a <= b -> a / C * (a / C) <= b / C * (b / C)). { intros a b G. assert (I : 0 < / C) by (by apply Rinv_0_lt_compat). unfold Rdiv. assert (0 <= a * / C <= b * / C) by (split; [apply Rmult_le_pos; lra|apply Rmult_le_compat_r; lra]). nra. }
  assert (N : ∀ a, (- a) / C * ((- a) / C) = a / C * (a / C)) by (intros; unfold Rdiv; ring). destruct (rltb_spec zt 0); [|destruct (rgtb_spec zb 0)].
  - pose proof (K (- zt) (- z) ltac:(lra)) as G. rewrite !N in G. lra.
  - pose proof (K zb z ltac:(lra)). lra.
  - pose proof (Rle_0_sqr (z / C)) as Q. unfold Rsqr in Q. lra.
Qed.
Lemma box_xy p : solid p -> Rabs (vx p) <= A * es_scale /\ Rabs (vy p) <= B * es_scale.
Proof using HA HB HC Hz.
  intros [Z F]. destruct es_pos as (A0 & B0 & C0 & _). apply f_le_1 in F. pose proof (scale_le _ Z) as S. pose proof scale_pos as S0. pose proof (Rle_0_sqr (vx p / A)) as X0. pose proof (Rle_0_sqr (vy p / B)) as Y0. unfold Rsqr in X0, Y0.
  assert (K : ∀ a L, 0 < L -> a / L * (a / L) <= es_scale * es_scale -> Rabs a <= L * es_scale). { intros a L HL G. assert (E : a = a / L * L) by (field; lra). set (w := a / L) in *. clearbody w. set (s := es_scale) in *. clearbody s. apply abs_le. assert (- s <= w <= s) by (clear - G S0; split; nra). rewrite E. clear - H HL. split; nra. }
  split; apply K; try done; lra.
Qed.
End Shape.
