(** C89: elliptical cones: constructor, classes, convexity, extent, safeties, measures. *)
From Coq Require Import Reals Lra Lia Bool ZArith Psatz.
From stdpp Require Import base list option numbers tactics.
From Verif Require Import Real3 AABBModel BoxModel BoxProofs PlanesModel PlanesProofs ConeSpec ConeProofs EllTubeModel EllTubeSpec EllTubeProofs TubeProofs PolyconeSpec PropTrap3 EllConeModel EllConeSpec EllConeProofs.
Import stdpp.list.
Local Open Scope R_scope.

(** The constructor: parameters below two tolerances become two tolerances, each by itself, then the cut is no farther than the
    apex; every parameter that is kept is stored as given. *)
Theorem C89_make ellint a b h c : let t := mk_econe ellint a b h c in
  ec_dx t = Rmax a (2 * kTolerance) ∧ ec_dy t = Rmax b (2 * kTolerance) ∧ ec_h t = Rmax h (2 * kTolerance) ∧ ec_cut t = Rmin (Rmax h (2 * kTolerance)) (Rmax c (2 * kTolerance)) ∧
  2 * kTolerance <= ec_cut t <= ec_h t ∧ mk_econe ellint (ec_dx t) (ec_dy t) (ec_h t) (ec_cut t) = t.
Proof.
  intros t. assert (M : ∀ x, (if rltb x (2 * kTolerance) then 2 * kTolerance else x) = Rmax x (2 * kTolerance)) by (intros x; destruct (rltb_spec x (2 * kTolerance)); [rewrite Rmax_right by lra|rewrite Rmax_left by lra]; done).
  assert (MM : ∀ x, 2 * kTolerance <= Rmax x (2 * kTolerance)) by (intros x; apply Rmax_r).
  assert (E : ec_dx t = Rmax a (2 * kTolerance) ∧ ec_dy t = Rmax b (2 * kTolerance) ∧ ec_h t = Rmax h (2 * kTolerance) ∧ ec_cut t = Rmin (Rmax h (2 * kTolerance)) (Rmax c (2 * kTolerance))) by (unfold t, mk_econe; rewrite !M; done).
  destruct E as (E1 & E2 & E3 & E4). rewrite E1, E2, E3, E4. assert (B : 2 * kTolerance <= Rmin (Rmax h (2 * kTolerance)) (Rmax c (2 * kTolerance)) <= Rmax h (2 * kTolerance)) by (split; [by apply min_ge|apply Rmin_l]).
  do 4 (split; [done|]). split; [done|]. unfold t, mk_econe. rewrite !M, !(Rmax_left (Rmax _ _)), (Rmax_left (Rmin _ _)) by (first [apply MM|lra]). rewrite (Rmin_right (Rmax h _) (Rmin _ _)) by lra. done.
Qed.
Print Assumptions C89_make.

Section Cone.
Variable ellint : R -> R.
Variables a b h c : R.
Hypothesis Ha : 2 * kTolerance <= a.
Hypothesis Hb : 2 * kTolerance <= b.
Hypothesis Hc : 2 * kTolerance <= c.
Hypothesis Hh : c <= h.
Let t := mk_econe ellint a b h c.
(** Contains: the solid, with half a tolerance added at the lids and to the distance from the side. *)
Theorem C89_contains p : (ec_contains t p = true ↔ above a b h p <= kHalfTolerance ∧ Rabs (vz p) <= c + kHalfTolerance) ∧ (econe_solid a b h c p → ec_contains t p = true).
Proof using Ha Hb Hc Hh.
  pose proof kHalfTolerance_pos as T. split; [by apply contains_iff|]. intros S. apply solid_above in S; [|done..]. apply contains_iff; [done..|]. lra.
Qed.
(** Inside: around a kInside point the ball of half a tolerance belongs to the solid; from a kOutside point every point of the
    solid is farther than half a tolerance; points of the surface are kSurface. *)
Theorem C89_inside p : 
  (ec_inside t p = kInside → ∀ q, vdist p q <= kHalfTolerance → econe_solid a b h c q) ∧
  (ec_inside t p = kOutside → ∀ q, econe_solid a b h c q → kHalfTolerance < vdist p q) ∧
  (ec_inside t p = kOutside ↔ ec_contains t p = false) ∧
  (econe_side a b h c p ∨ econe_lid a b h c true p ∨ econe_lid a b h c false p → ec_inside t p = kSurface).
Proof using Ha Hb Hc Hh.
  pose proof kHalfTolerance_pos as T. destruct (pos a b h c Ha Hb Hc Hh) as (_ & _ & C0 & _). split; [|split; [|split]].
  - intros I q D. apply inside_in in I; [|done..]. pose proof (above_diff a b h Ha Hb q p) as A. pose proof (z_diff q p) as Z. rewrite vdist_comm in A, Z. apply solid_above; [done..|]. lra.
  - intros O q Q. apply inside_out in O. apply solid_above in Q; [|done..]. pose proof (above_diff a b h Ha Hb p q) as A. pose proof (z_diff p q) as Z. apply Rnot_le_lt. intros L. assert (C : ec_contains (mk_econe ellint a b h c) p = true) by (apply contains_iff; [done..|]; lra). rewrite C in O. done.
  - apply inside_out.
  - intros S. assert (ON : Rabs (vz p) <= c ∧ above a b h p <= 0 ∧ (Rabs (vz p) = c ∨ above a b h p = 0)).
    { destruct S as [[S1 S2]|[[S1 S2]|[S1 S2]]]; [apply (above_zero a b h Ha Hb) in S2; lra| |]; apply (above_nappe a b h Ha Hb) in S2; rewrite S1, ?Rabs_Ropp, Rabs_pos_eq by lra; lra. }
    unfold t. destruct (ec_inside _ _) eqn:I; [exfalso; apply inside_in in I; [lra|done..]|done|exfalso]. apply inside_out in I. assert (C : ec_contains (mk_econe ellint a b h c) p = true) by (apply contains_iff; [done..|]; lra). rewrite C in I. done.
Qed.
(** The solid is convex, as the constructor says. *)
Theorem C89_convex : convex (econe_solid a b h c).
Proof using.
  intros p q u [P1 P2] [Q1 Q2] U. unfold nappe in *. split.
  - cbn [vadd vscale vz]. apply abs_le in P1. apply abs_le in Q1. apply Rabs_le. split; nra.
  - unfold nappe. eapply Rle_trans; [by apply e_combine|]. cbn [vadd vscale vz]. nra.
Qed.
(** Extent is the smallest box. *)
Theorem C89_extent : let '(lo, hi) := ec_extent t in
  (∀ p, econe_solid a b h c p → vx lo <= vx p <= vx hi ∧ vy lo <= vy p <= vy hi ∧ vz lo <= vz p <= vz hi) ∧
  (∀ s, s = 1 ∨ s = -1 → econe_solid a b h c (V3 (s * vx hi) 0 (vz lo)) ∧ econe_solid a b h c (V3 0 (s * vy hi) (vz lo)) ∧ econe_solid a b h c (V3 0 0 (s * vz hi))) ∧
  vx lo = - vx hi ∧ vy lo = - vy hi ∧ vz lo = - vz hi.
Proof using Ha Hb Hc Hh.
  destruct (pos a b h c Ha Hb Hc Hh) as (A0 & B0 & C0 & H0). unfold ec_extent, t. destruct (fields ellint a b h c Ha Hb Hc Hh) as (-> & -> & -> & -> & _). cbn [vx vy vz]. split; [|split; [|done]].
  - intros p [Pz Pn]. unfold nappe in Pn. apply abs_le in Pz. pose proof (e_nonneg a b p) as N. pose proof (e_sqr a b p) as E. assert (X : ∀ w, 0 <= w → w = vx p / a ∨ w = - (vx p / a) ∨ w = vy p / b ∨ w = - (vy p / b) → w <= h + c). { intros w W0 W. assert (w * w <= ell a b p * ell a b p) by (rewrite E; pose proof (Rle_0_sqr (vx p / a)) as Q1; pose proof (Rle_0_sqr (vy p / b)) as Q2; unfold Rsqr in *; destruct W as [->|[->|[->| ->]]]; lra). assert (w <= ell a b p) by nra. lra. }
    assert (BD : ∀ v k, 0 < k → (∀ w, 0 <= w → w = v / k ∨ w = - (v / k) → w <= h + c) → - (k * (h + c)) <= v <= k * (h + c)). { intros v k K F. assert (V : v = k * (v / k)) by (field; lra). destruct (Rle_dec 0 (v / k)) as [P|P]; [specialize (F (v / k) P ltac:(tauto))|specialize (F (- (v / k)) ltac:(lra) ltac:(tauto))]; set (w := v / k) in *; clearbody w; rewrite V; clear - F K P C0 H0; split; nra. }
    split; [apply BD; [done|]; intros w W0 W; apply X; [done|tauto]|]. split; [apply BD; [done|]; intros w W0 W; apply X; [done|tauto]|lra].
  - intros s Hs. assert (SS : s * s = 1) by (destruct Hs; subst; ring). assert (R1 : ∀ x y, (x / a) * (x / a) + (y / b) * (y / b) = (h + c) * (h + c) → ∀ z, ell a b (V3 x y z) = h + c) by (intros x y E z; unfold ell; cbn [vx vy]; rewrite E; apply sqrt_square; lra).
    assert (AS : ∀ s, s = 1 ∨ s = -1 → Rabs (s * c) = c) by (intros r [-> | ->]; [rewrite Rmult_1_l, Rabs_pos_eq; lra|replace (-1 * c) with (- c) by ring; rewrite Rabs_Ropp, Rabs_pos_eq; lra]). assert (AC : Rabs (- c) = c) by (rewrite Rabs_Ropp, Rabs_pos_eq; lra).
    assert (E0 : ell a b (V3 0 0 (s * c)) = 0) by (unfold ell; cbn [vx vy]; replace (0 / a * (0 / a) + 0 / b * (0 / b)) with 0 by (field; lra); apply sqrt_0). unfold econe_solid, nappe. cbn [vz]. rewrite E0, (R1 (s * _) 0), (R1 0 (s * _)), AC, (AS s Hs).
    + destruct Hs; subst; lra.
    + replace (s * (b * (h + c)) / b) with (s * (h + c)) by (field; lra). replace (0 / a) with 0 by (field; lra). nra.
    + replace (s * (a * (h + c)) / a) with (s * (h + c)) by (field; lra). replace (0 / b) with 0 by (field; lra). nra.
Qed.
(** SafetyToIn never exceeds the distance to the solid; it is not positive in it. *)
Theorem C89_safety_in p : (∀ q, econe_solid a b h c q → ec_safety_in t p <= vdist p q) ∧ (econe_solid a b h c p → ec_safety_in t p <= 0) ∧ (ec_contains t p = false → 0 < ec_safety_in t p).
Proof using Ha Hb Hc Hh.
  pose proof kHalfTolerance_pos as T. unfold t. rewrite safety_in_eq by done. split; [|split].
  - intros q Q. apply solid_above in Q; [|done..]. pose proof (above_diff a b h Ha Hb p q) as A. pose proof (z_diff p q) as Z. pose proof (vdist_nonneg p q) as N. destruct (zeroed_cases (Rmax (above a b h p) (Rabs (vz p) - c))) as [-> | [-> _]]; [apply max_le; lra|done].
  - intros S. apply solid_above in S; [|done..]. destruct (zeroed_cases (Rmax (above a b h p) (Rabs (vz p) - c))) as [-> | [-> _]]; [apply max_le; lra|lra].
  - intros C. assert (O : kHalfTolerance < Rmax (above a b h p) (Rabs (vz p) - c)). { apply Rnot_le_lt. intros L. apply max_le in L. assert (C' : ec_contains (mk_econe ellint a b h c) p = true) by (apply contains_iff; [done..|]; lra). rewrite C' in C. done. }
    destruct (zeroed_cases (Rmax (above a b h p) (Rabs (vz p) - c))) as [-> | [_ Z]]; [lra|]. apply abs_le in Z. lra.
Qed.
(** SafetyToOut: the ball of that radius around a point of the solid belongs to it; it is not positive outside. *)
Theorem C89_safety_out p : (econe_solid a b h c p → ∀ q, vdist p q <= ec_safety_out t p → econe_solid a b h c q) ∧ (¬ econe_solid a b h c p → ec_safety_out t p <= 0) ∧ (ec_inside t p = kInside → 0 <= ec_safety_out t p ∧ (ec_safety_out t p = 0 → Rmin (- above a b h p) (c - Rabs (vz p)) = kHalfTolerance)).
Proof using Ha Hb Hc Hh.
  pose proof kHalfTolerance_pos as T. unfold t. rewrite safety_out_eq by done. set (m := Rmin (- above a b h p) (c - Rabs (vz p))). assert (M : m <= - above a b h p ∧ m <= c - Rabs (vz p)) by (split; [apply Rmin_l|apply Rmin_r]). split; [|split].
  - intros S q D. apply solid_above in S; [|done..]. apply solid_above; [done..|]. pose proof (above_diff a b h Ha Hb q p) as A. pose proof (z_diff q p) as Z. rewrite vdist_comm in A, Z. destruct (zeroed_cases m) as [E | [E _]]; rewrite E in D; [lra|].
    pose proof (vdist_nonneg p q). lra.
  - intros N. assert (m < 0). { apply Rnot_le_lt. intros L. apply N, solid_above; [done..|]. lra. } destruct (zeroed_cases m) as [-> | [-> _]]; lra.
  - intros I. apply inside_in in I; [|done..]. assert (kHalfTolerance <= m) by (apply min_ge; lra). destruct (zeroed_cases m) as [-> | [-> Z]]; [lra|]. apply abs_le in Z. split; [lra|]. intros _. lra.
Qed.
(** Capacity is the volume: the areas PI a (h - z) b (h - z) of the slices added up. *)
Theorem C89_capacity : ∃ F, (∀ z, derivable_pt_lim F z (PI * (a * (h - z)) * (b * (h - z)))) ∧ F c - F (- c) = ec_volume t.
Proof using Ha Hb Hc Hh.
  set (k := PI * a * b). exists (λ z, (k * h * h) * z + (- k * h) * z ^ 2 + (k / 3) * z ^ 3). split.
  - intros z. replace (PI * (a * (h - z)) * (b * (h - z))) with (k * h * h + - k * h * (2 * z) + k / 3 * (3 * z ^ 2)) by (unfold k; field). apply cubic_derive.
  - unfold t. destruct (measures ellint a b h c Ha Hb Hc Hh) as [-> _]. unfold k. field.
Qed.
(** The lateral area grows with the square of the size. *)
Theorem C89_lateral_scale s : 0 < s → econe_lateral ellint (a * s) (b * s) s = s * s * econe_lateral ellint a b 1.
Proof using Ha Hb.
  intros S. pose proof kTolerance_pos as T. unfold econe_lateral. assert (A0 : 0 < a * s) by nra. assert (B0 : 0 < b * s) by nra. rewrite !(Rabs_pos_eq) by lra. assert (MX : Rmax (a * s) (b * s) = s * Rmax a b) by (unfold Rmax; destruct (Rle_dec (a * s) (b * s)), (Rle_dec a b); nra). assert (MN : Rmin (a * s) (b * s) = s * Rmin a b) by (unfold Rmin; destruct (Rle_dec (a * s) (b * s)), (Rle_dec a b); nra). rewrite MX, MN.
  set (x := Rmax a b). set (y := Rmin a b). assert (X0 : 0 < x) by (unfold x; apply Rlt_le_trans with a; [lra|apply Rmax_l]). assert (Y0 : 0 < y) by (unfold y; apply Rmin_glb_lt; lra).
  assert (E1 : (s * x - s * y) * (s * x + s * y) * (s * s) / ((s * s + s * y * (s * y)) * (s * x * (s * x))) = (x - y) * (x + y) * (1 * 1) / ((1 * 1 + y * y) * (x * x))). { assert (Q1 : 0 < 1 + y * y) by nra. assert (Q2 : 0 < s * s + y * y * (s * s)) by nra. replace (s * s + s * y * (s * y)) with (s * s * (1 * 1 + y * y)) by ring. field. repeat split; lra. }
  rewrite E1. replace (s * s + s * y * (s * y)) with (s * s * (1 * 1 + y * y)) by ring. rewrite sqrt_mult_alt by nra. rewrite sqrt_square by lra. ring.
Qed.
(** SurfaceArea: the two ellipses and the side, which is what the cone down to the lower cut has more than the one down to the upper. *)
Theorem C89_area : ec_area t = PI * (a * (h + c)) * (b * (h + c)) + PI * (a * (h - c)) * (b * (h - c)) +
  (econe_lateral ellint a b 1 * ((h + c) * (h + c)) - econe_lateral ellint a b 1 * ((h - c) * (h - c))).
Proof using Ha Hb Hc Hh. unfold t. destruct (measures ellint a b h c Ha Hb Hc Hh) as [_ ->]. ring. Qed.
End Cone.
Print Assumptions C89_contains.
Print Assumptions C89_inside.
Print Assumptions C89_convex.
Print Assumptions C89_extent.
Print Assumptions C89_safety_in.
Print Assumptions C89_safety_out.
Print Assumptions C89_capacity.
Print Assumptions C89_lateral_scale.
Print Assumptions C89_area.
