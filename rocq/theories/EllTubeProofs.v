From Coq Require Import Reals Lra Lia Bool Psatz.
From stdpp Require Import base list option numbers tactics.
From Verif Require Import Real3 AABBModel AABBProofs BoxModel BoxProofs PlanesModel TetModel ConeModel ConeSpec ConeProofs EllTubeModel EllTubeSpec.
Import stdpp.list.
Local Open Scope R_scope.

Lemma max_le a b c : Rmax a b <= c <-> a <= c /\ b <= c.
Proof. unfold Rmax. destruct (Rle_dec a b); lra. Qed.
Lemma max_ge a b c : c < Rmax a b <-> c < a \/ c < b.
Proof. unfold Rmax. destruct (Rle_dec a b); lra. Qed.
Lemma min_ge a b c : c <= Rmin a b <-> c <= a /\ c <= b.
Proof. unfold Rmin. destruct (Rle_dec a b); lra. Qed.
Lemma min_lt a b c : Rmin a b < c <-> a < c \/ b < c.
Proof. unfold Rmin. destruct (Rle_dec a b); lra. Qed.
Lemma sqr_le a b : 0 <= a -> 0 <= b -> (a <= b <-> a * a <= b * b).
Proof. intros. split; nra. Qed.
Lemma sqr_lt a b : 0 <= a -> 0 <= b -> (a < b <-> a * a < b * b).
Proof. intros. split; nra. Qed.

Section Shape.
Variables X Y Z : R.
Hypothesis HX : 2 * kTolerance <= X.
Hypothesis HY : 2 * kTolerance <= Y.
Variable perimeter : R -> R -> R.
Notation t := (mk_elltube perimeter X Y Z).
Let m := Rmin X Y.
Let M := Rmax X Y.
Lemma m_pos : 2 * kTolerance <= m.
Proof using HX HY. unfold m, Rmin. destruct (Rle_dec X Y); lra. Qed.
Lemma m_pos' : 0 < m.
Proof using HX HY. pose proof m_pos. pose proof kTolerance_pos. lra. Qed.
Lemma m_le : m <= X /\ m <= Y.
Proof using. unfold m, Rmin. destruct (Rle_dec X Y); lra. Qed.
Definition et0 : elltube := EllTube X Y Z (2 * (PI * X * Y + perimeter X Y * Z)) (2 * PI * X * Y * Z)
    (R_sqrt.sqrt (X * X + Y * Y + Z * Z)) (X * X) (Y * Y) (m / X) (m / Y) m
    (1 / 2 / m) (1 / 2 * (m + kHalfTolerance * kHalfTolerance / m)) (2 * m * m * kEpsilon).
Lemma te : t = et0.
Proof using HX HY.
  unfold mk_elltube, check_parameters. destruct (rltb_spec X (2 * kTolerance)); [lra|]. destruct (rltb_spec Y (2 * kTolerance)); [lra|]. done.
Qed.
Notation e := (ell X Y).
Lemma e_nonneg p : 0 <= e p.
Proof using. apply sqrt_pos. Qed.
Lemma e_sqr p : e p * e p = vx p / X * (vx p / X) + vy p / Y * (vy p / Y).
Proof using. unfold ell. apply sqrt_sqrt. nra. Qed.
Lemma rr_e p : et_rr t p = (m * e p) * (m * e p).
Proof using HX HY.
  pose proof kTolerance_pos. rewrite te. replace (m * e p * (m * e p)) with (m * m * (e p * e p)) by ring. rewrite e_sqr. unfold et_rr, et_x, et_y. cbn. field. lra.
Qed.
Lemma sqrt_rr p : R_sqrt.sqrt (et_rr t p) = m * e p.
Proof using HX HY. rewrite rr_e. apply sqrt_square. pose proof m_pos'. pose proof (e_nonneg p). nra. Qed.
Lemma distR_e p h : h = kHalfTolerance -> (et_distR t p <= h <-> m * e p <= m + h) /\ (et_distR t p <= - h <-> m * e p <= m - h) /\ (- h <= et_distR t p <-> m - h <= m * e p).
Proof using HX HY.
  intros Eh. pose proof m_pos as Hm. pose proof m_pos' as Hm'. pose proof (e_nonneg p) as He. pose proof kTolerance_pos as Hk. assert (Hh : 0 < h /\ h < m) by (rewrite Eh; unfold kHalfTolerance; lra).
  assert (E : 2 * m * et_distR t p = (m * e p) * (m * e p) - m * m - h * h). { unfold et_distR. rewrite rr_e, te. cbn. rewrite <- Eh. field. lra. }
  set (D := et_distR t p) in *. set (a := m * e p) in *. assert (Ha : 0 <= a) by (unfold a; nra). clearbody D a. clear - E Hm' Hh Ha. repeat split; intros; nra.
Qed.
Lemma distZ_e p : et_distZ t p = Rabs (vz p) - Z.
Proof using HX HY. rewrite te. done. Qed.
Lemma moved_radial p h : e p <= 1 + h / Rmin X Y <-> m * e p <= m + h.
Proof using HX HY.
  fold m. pose proof m_pos' as Hm. assert (E : m * (1 + h / m) = m + h) by (field; lra). split; intros H.
  - rewrite <- E. apply Rmult_le_compat_l; lra.
  - apply Rmult_le_reg_l with m; [done|]. rewrite E. done.
Qed.
Lemma contains_moved p : et_contains t p = true <-> ell_moved X Y Z kHalfTolerance p.
Proof using HX HY.
  unfold et_contains, et_kernel, ell_moved. cbn [snd]. rewrite moved_radial. destruct (distR_e p _ eq_refl) as (E & _). rewrite negb_true_iff. rewrite <- E. unfold rgtb. rewrite rltb_false, max_le. rewrite distZ_e. split; intros []; split; lra.
Qed.
Lemma inside_in p : et_inside t p = kInside <-> ell_moved X Y Z (- kHalfTolerance) p.
Proof using HX HY.
  unfold et_inside, et_kernel, ell_moved. rewrite moved_radial. destruct (distR_e p _ eq_refl) as (_ & E & _). change (m + - kHalfTolerance) with (m - kHalfTolerance). rewrite <- E.
  transitivity (Rmax (et_distR t p) (et_distZ t p) <= - kHalfTolerance); [|rewrite max_le, distZ_e; split; intros []; split; lra].
  destruct (rleb_spec (Rmax (et_distR t p) (et_distZ t p)) (- kHalfTolerance)); [done|]. destruct (rgtb _ _); split; intros; try done; lra.
Qed.
Lemma inside_out p : et_inside t p = kOutside <-> ¬ ell_moved X Y Z kHalfTolerance p.
Proof using HX HY.
  rewrite <- contains_moved. unfold et_contains, et_inside, et_kernel. cbn [snd]. pose proof kHalfTolerance_pos.
  destruct (rleb_spec (Rmax (et_distR t p) (et_distZ t p)) (- kHalfTolerance)), (rgtb_spec (Rmax (et_distR t p) (et_distZ t p)) kHalfTolerance); cbn; split; intros; try done; try lra.
Qed.
Lemma e_diff p q : m * (e p - e q) <= vdist p q.
Proof using HX HY.
  pose proof kTolerance_pos as Hk. pose proof m_pos' as Hm. destruct m_le as [L1 L2].
  pose proof (rho_diff (V3 (vx p / X) (vy p / Y) 0) (V3 (vx q / X) (vy q / Y) 0)) as R. cbn [vx vy] in R. change (rho (V3 (vx p / X) (vy p / Y) 0)) with (e p) in R. change (rho (V3 (vx q / X) (vy q / Y) 0)) with (e q) in R.
  pose proof (vdist_sqr p q) as V. pose proof (vdist_nonneg p q) as N. apply sqr_le_le; [done|]. rewrite V. unfold vdot, vsub. cbn [vx vy vz].
  assert (A : ∀ a A, m <= A -> m * m * ((a / A) * (a / A)) <= a * a).
  { intros a A HA. assert (a / A * (a / A) * (A * A) = a * a) by (field; lra). set (b := a / A) in *. clearbody b. assert (0 <= b * b) by nra. assert (m * m <= A * A) by nra. rewrite <- H. clear - H0 H1. nra. }
  pose proof (A (vx p - vx q) X L1) as A1. pose proof (A (vy p - vy q) Y L2) as A2. replace (vx p / X - vx q / X) with ((vx p - vx q) / X) in R by (unfold Rdiv; ring). replace (vy p / Y - vy q / Y) with ((vy p - vy q) / Y) in R by (unfold Rdiv; ring).
  pose proof (Rle_0_sqr (vz p - vz q)) as Hz. unfold Rsqr in Hz. assert (Hmm : 0 < m * m) by (by apply Rmult_lt_0_compat).
  set (U := (vx p - vx q) / X * ((vx p - vx q) / X)) in *. set (W := (vy p - vy q) / Y * ((vy p - vy q) / Y)) in *.
  replace (m * (e p - e q) * (m * (e p - e q))) with (m * m * ((e p - e q) * (e p - e q))) by ring. apply (Rmult_le_compat_l (m * m)) in R; [|lra]. rewrite Rmult_plus_distr_l in R. lra.
Qed.
Lemma z_diff p q : Rabs (vz p) - Rabs (vz q) <= vdist p q.
Proof using. pose proof (vz_le_mag (vsub p q)) as V. cbn [vsub vz] in V. unfold vdist. pose proof (Rabs_triang (vz p - vz q) (vz q)) as T. replace (vz p - vz q + vz q) with (vz p) in T by ring. lra. Qed.
Lemma safety_in_eq p : et_safety_in t p = et_zeroed (Rmax (m * (e p - 1)) (Rabs (vz p) - Z)).
Proof using HX HY. unfold et_safety_in. rewrite sqrt_rr. rewrite te. cbn [et_r et_dz et0]. do 2 f_equal. ring. Qed.
Lemma safety_out_eq p : et_safety_out t p = et_zeroed (Rmin (m * (1 - e p)) (Z - Rabs (vz p))).
Proof using HX HY. unfold et_safety_out. rewrite sqrt_rr. rewrite te. cbn [et_r et_dz et0]. do 2 f_equal. ring. Qed.
Lemma zeroed_cases s : et_zeroed s = s \/ (et_zeroed s = 0 /\ Rabs s <= kHalfTolerance).
Proof using. clear. unfold et_zeroed. destruct (rleb_spec (Rabs s) kHalfTolerance); auto. Qed.

(** Along a ray *)
Section Ray.
Variables p d : v3.
Hypothesis Hd : vdot d d = 1.
Let wx := vx d * et_sx t.
Let wy := vy d * et_sy t.
Let A := wx * wx + wy * wy.
Let B := et_x t p * wx + et_y t p * wy.
Let C := et_rr t p - et_r t * et_r t.
Lemma e_along u : m * m * (e (along p d u) * e (along p d u) - 1) = A * (u * u) + 2 * B * u + C.
Proof using HX HY.
  pose proof kTolerance_pos. rewrite e_sqr. unfold A, B, C, wx, wy, et_rr, et_x, et_y, along. rewrite te. cbn. field. lra.
Qed.
Lemma A_nonneg : 0 <= A.
Proof using. unfold A. nra. Qed.
Lemma A_le : A <= 1.
Proof using HX HY Hd.
  pose proof kTolerance_pos. destruct m_le as [L1 L2]. pose proof m_pos' as Hm. assert (S : et_sx t = m / X /\ et_sy t = m / Y) by (rewrite te; done). destruct S as [S1 S2]. unfold A, wx, wy. rewrite S1, S2.
  assert (Q : ∀ L, m <= L -> 0 <= m / L <= 1). { intros L HL. split; [apply Rmult_le_pos; [lra|left; apply Rinv_0_lt_compat; lra]|]. apply Rmult_le_reg_r with L; [lra|]. replace (m / L * L) with m by (field; lra). lra. }
  pose proof (Q X L1) as Q1. pose proof (Q Y L2) as Q2. set (a := m / X) in *. set (b := m / Y) in *. clearbody a b. unfold vdot in Hd. assert (a * a <= 1) by nra. assert (b * b <= 1) by nra. clear - H0 H1 Hd. assert (0 <= vx d * vx d) by nra. assert (0 <= vy d * vy d) by nra. assert (0 <= vz d * vz d) by nra. nra.
Qed.
Lemma e_lt_1 q c : 0 <= c -> (c <= m * e q <-> c * c - m * m <= m * m * (e q * e q - 1)).
Proof using HX HY.
  intros Hc. pose proof m_pos'. pose proof (e_nonneg q). replace (m * m * (e q * e q - 1)) with ((m * e q) * (m * e q) - m * m) by ring. assert (0 <= m * e q) by (apply Rmult_le_pos; lra). set (a := m * e q) in *. clearbody a. clear - Hc H1. split; intros; nra.
Qed.
Lemma e_le_1 q : e q <= 1 <-> m * m * (e q * e q - 1) <= 0.
Proof using HX HY. pose proof m_pos'. pose proof (e_nonneg q). assert (0 < m * m) by nra. set (k := m * m) in *. set (a := e q) in *. clearbody k a. clear - H0 H1. split; intros L.
  - assert (a * a <= 1) by nra. nra.
  - apply Rnot_lt_le. intros L'. assert (1 < a * a) by nra. nra.
Qed.
End Ray.
End Shape.
