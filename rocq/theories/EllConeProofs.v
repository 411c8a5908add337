(** Elliptical cones: classes and safeties. *)
From Coq Require Import Reals Lra Lia Bool ZArith Psatz.
From stdpp Require Import base list option numbers tactics.
From Verif Require Import Real3 AABBModel BoxModel BoxProofs PlanesModel PlanesProofs ConeSpec ConeProofs EllTubeModel EllTubeSpec EllTubeProofs TubeProofs PolyconeSpec EllConeModel EllConeSpec.
Import stdpp.list.
Local Open Scope R_scope.

Section Cone.
Variable ellint : R -> R.
Variables a b h c : R.
Hypothesis Ha : 2 * kTolerance <= a.
Hypothesis Hb : 2 * kTolerance <= b.
Hypothesis Hc : 2 * kTolerance <= c.
Hypothesis Hh : c <= h.
Notation t := (mk_econe ellint a b h c).
Notation e := (ell a b).
Lemma fields : ec_dx t = a /\ ec_dy t = b /\ ec_h t = h /\ ec_cut t = c /\ ec_ix t = 1 / a /\ ec_iy t = 1 / b /\ ec_cos t = tilt a b /\ ec_apex t = kHalfTolerance / tilt a b.
Proof using Ha Hb Hc Hh.
  unfold mk_econe. destruct (rltb_spec a (2 * kTolerance)); [lra|]. destruct (rltb_spec b (2 * kTolerance)); [lra|]. destruct (rltb_spec h (2 * kTolerance)); [lra|]. destruct (rltb_spec c (2 * kTolerance)); [lra|].
  cbn. rewrite Rmin_right by lra. done.
Qed.
Lemma measures : ec_volume t = PI * a * b * ((h + c) * (h + c) * (h + c) - (h - c) * (h - c) * (h - c)) / 3 /\
  ec_area t = econe_lateral ellint a b 1 * ((h + c) + (h - c)) * ((h + c) - (h - c)) + PI * a * b * ((h + c) * (h + c) + (h - c) * (h - c)).
Proof using Ha Hb Hc Hh.
  unfold mk_econe. destruct (rltb_spec a (2 * kTolerance)); [lra|]. destruct (rltb_spec b (2 * kTolerance)); [lra|]. destruct (rltb_spec h (2 * kTolerance)); [lra|]. destruct (rltb_spec c (2 * kTolerance)); [lra|].
  cbn [ec_volume ec_area]. rewrite (Rmin_right h c) by lra. done.
Qed.
Lemma pos : 0 < a /\ 0 < b /\ 0 < c /\ 0 < h.
Proof using Ha Hb Hc Hh. pose proof kTolerance_pos. lra. Qed.
Lemma tilt_eq : 0 < tilt a b /\ tilt a b * R_sqrt.sqrt (1 + Rmin a b * Rmin a b) = Rmin a b /\ 0 < R_sqrt.sqrt (1 + Rmin a b * Rmin a b).
Proof using Ha Hb.
  pose proof (m_pos' a b Ha Hb) as M. assert (S : 0 < R_sqrt.sqrt (1 + Rmin a b * Rmin a b)) by (apply sqrt_lt_R0; nra). split; [unfold tilt; by apply Rdiv_lt_0_compat|]. split; [|done]. unfold tilt. field. lra.
Qed.
Lemma tilt_lt_1 : tilt a b < 1.
Proof using Ha Hb.
  destruct tilt_eq as (T & E & S). pose proof (m_pos' a b Ha Hb) as M. assert (Q := sqrt_sqrt (1 + Rmin a b * Rmin a b) ltac:(nra)). set (s := R_sqrt.sqrt _) in *. set (k := tilt a b) in *. set (m := Rmin a b) in *. clearbody s k m. apply Rnot_le_lt. intros L. assert (s <= m) by nra. nra.
Qed.
Lemma radius p : R_sqrt.sqrt (vx p * ec_ix t * (vx p * ec_ix t) + vy p * ec_iy t * (vy p * ec_iy t)) = e p.
Proof using Ha Hb Hc Hh. destruct fields as (_ & _ & _ & _ & -> & -> & _). unfold ell. f_equal. unfold Rdiv. ring. Qed.
Lemma ds_eq p : ec_ds t p = above a b h p.
Proof using Ha Hb Hc Hh. unfold ec_ds, ec_hp, above. rewrite radius. destruct fields as (_ & _ & -> & _ & _ & _ & -> & _). ring. Qed.
Lemma dz_eq p : ec_dz t p = Rabs (vz p) - c.
Proof using Ha Hb Hc Hh. unfold ec_dz. destruct fields as (_ & _ & _ & -> & _). done. Qed.
Lemma above_nappe p : above a b h p <= 0 <-> nappe a b h p.
Proof using Ha Hb. unfold above, nappe. destruct tilt_eq as (T & _). set (k := tilt a b) in *. clearbody k. split; intros; nra. Qed.
Lemma above_zero p : above a b h p = 0 <-> e p = h - vz p.
Proof using Ha Hb. unfold above. destruct tilt_eq as (T & _). split; intros E; [apply Rmult_integral in E; lra|rewrite E; ring]. Qed.
Lemma contains_iff p : ec_contains t p = true <-> above a b h p <= kHalfTolerance /\ Rabs (vz p) <= c + kHalfTolerance.
Proof using Ha Hb Hc Hh. unfold ec_contains, ec_kernel. cbn [snd]. rewrite negb_true_iff. unfold rgtb. rewrite rltb_false, max_le, ds_eq, dz_eq. lra. Qed.
Lemma inside_in p : ec_inside t p = kInside <-> above a b h p <= - kHalfTolerance /\ Rabs (vz p) <= c - kHalfTolerance.
Proof using Ha Hb Hc Hh.
  unfold ec_inside, ec_kernel. rewrite ds_eq, dz_eq. transitivity (Rmax (above a b h p) (Rabs (vz p) - c) <= - kHalfTolerance); [|rewrite max_le; lra].
  destruct (rleb_spec (Rmax (above a b h p) (Rabs (vz p) - c)) (- kHalfTolerance)); [done|]. destruct (rgtb _ _); split; intros; try done; lra.
Qed.
Lemma inside_out p : ec_inside t p = kOutside <-> ec_contains t p = false.
Proof using.
  unfold ec_inside, ec_contains, ec_kernel. cbn [snd]. pose proof kHalfTolerance_pos. set (s := Rmax _ _).
  destruct (rleb_spec s (- kHalfTolerance)), (rgtb_spec s kHalfTolerance); cbn; split; intros; try done; lra.
Qed.
Lemma above_diff p q : above a b h p - above a b h q <= vdist p q.
Proof using Ha Hb.
  destruct tilt_eq as (T & E & S). pose proof (m_pos' a b Ha Hb) as M. pose proof (e_diff a b Ha Hb (V3 (vx p) (vy p) 0) (V3 (vx q) (vy q) 0)) as D.
  change (ell a b (V3 (vx p) (vy p) 0)) with (e p) in D. change (ell a b (V3 (vx q) (vy q) 0)) with (e q) in D.
  pose proof (vdist_sqr p q) as V. pose proof (vdist_nonneg p q) as N. pose proof (vdist_sqr (V3 (vx p) (vy p) 0) (V3 (vx q) (vy q) 0)) as V'. pose proof (vdist_nonneg (V3 (vx p) (vy p) 0) (V3 (vx q) (vy q) 0)) as N'.
  unfold vdot, vsub in V, V'. cbn [vx vy vz] in V'. cbn [vx vy vz] in V. assert (Q := sqrt_sqrt (1 + Rmin a b * Rmin a b) ltac:(nra)).
  unfold above. set (s := R_sqrt.sqrt _) in *. set (k := tilt a b) in *. set (m := Rmin a b) in *. set (r := vdist (V3 _ _ _) _) in *. set (v := vdist p q) in *. set (w := vz p - vz q) in *.
  assert (VR : v * v = r * r + w * w) by (rewrite V, V'; ring). replace (k * (e p + vz p - h) - k * (e q + vz q - h)) with (k * ((e p - e q) + w)) by (unfold w; ring).
  set (u := e p - e q) in *. clearbody s k m r v w u. clear V V' Ha Hb Hc Hh.
  apply Rmult_le_reg_l with s; [done|]. replace (s * (k * (u + w))) with (m * u + m * w) by (rewrite <- E; ring).
  apply Rle_trans with (r + m * w); [lra|]. apply sqr_le_le; [apply Rmult_le_pos; lra|]. replace (s * v * (s * v)) with ((s * s) * (v * v)) by ring. rewrite Q, VR. pose proof (Rle_0_sqr (w - m * r)) as W. unfold Rsqr in W. lra.
Qed.
Lemma safety_in_eq p : ec_safety_in t p = et_zeroed (Rmax (above a b h p) (Rabs (vz p) - c)).
Proof using Ha Hb Hc Hh. unfold ec_safety_in. rewrite ds_eq, dz_eq. done. Qed.
Lemma safety_out_eq p : ec_safety_out t p = et_zeroed (Rmin (- above a b h p) (c - Rabs (vz p))).
Proof using Ha Hb Hc Hh. unfold ec_safety_out, ec_hp. rewrite radius. destruct fields as (_ & _ & -> & -> & _ & _ & -> & _). do 2 f_equal. unfold above. ring. Qed.
Lemma solid_above p : econe_solid a b h c p <-> Rabs (vz p) <= c /\ above a b h p <= 0.
Proof using Ha Hb. unfold econe_solid. rewrite above_nappe. done. Qed.
(** The radius is convex *)
Lemma e_combine p q u : 0 <= u <= 1 -> e (vadd (vscale (1 - u) p) (vscale u q)) <= (1 - u) * e p + u * e q.
Proof using.
  intros U. pose proof (e_nonneg a b p) as N1. pose proof (e_nonneg a b q) as N2. pose proof (e_sqr a b p) as S1. pose proof (e_sqr a b q) as S2. apply sqr_le_le; [nra|]. rewrite e_sqr. cbn [vadd vscale vx vy].
  unfold Rdiv in *. set (x1 := vx p * / a) in *. set (x2 := vx q * / a) in *. set (y1 := vy p * / b) in *. set (y2 := vy q * / b) in *.
  replace (((1 - u) * vx p + u * vx q) * / a) with ((1 - u) * x1 + u * x2) by (unfold x1, x2; ring). replace (((1 - u) * vy p + u * vy q) * / b) with ((1 - u) * y1 + u * y2) by (unfold y1, y2; ring).
  set (r := e p) in *. set (s := e q) in *. clearbody x1 x2 y1 y2 r s.
  assert (CS : x1 * x2 + y1 * y2 <= r * s). { apply sqr_le_le; [nra|]. replace (r * s * (r * s)) with ((r * r) * (s * s)) by ring. rewrite S1, S2. pose proof (Rle_0_sqr (x1 * y2 - y1 * x2)) as W. unfold Rsqr in W. lra. }
  replace (((1 - u) * r + u * s) * ((1 - u) * r + u * s)) with ((1 - u) * (1 - u) * (r * r) + u * u * (s * s) + 2 * (u * (1 - u)) * (r * s)) by ring. rewrite S1, S2. assert (U0 : 0 <= u * (1 - u)) by (apply Rmult_le_pos; lra). pose proof (Rmult_le_compat_l _ _ _ U0 CS). lra.
Qed.
End Cone.
