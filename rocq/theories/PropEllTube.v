(** C86: elliptical tubes: points, classes, safeties, convexity and extent. *)
From Coq Require Import Reals Lra Lia Bool ZArith Psatz.
From stdpp Require Import base list option numbers tactics.
From Verif Require Import Real3 AABBModel AABBProofs BoxModel BoxProofs PlanesModel TetModel ConeModel ConeSpec ConeProofs EllTubeModel EllTubeSpec EllTubeProofs EllTubeProofs2 EllTubeProofs3 EllTubeProofs4.
Import stdpp.list.
Local Open Scope R_scope.

(** Contains is the solid moved outwards by half a tolerance; every point of the solid is contained. *)
Theorem C86_contains perimeter X Y Z p : 2 * kTolerance <= X → 2 * kTolerance <= Y →
  (et_contains (mk_elltube perimeter X Y Z) p = true ↔ ell_moved X Y Z kHalfTolerance p) ∧ (ell_tube X Y Z p → et_contains (mk_elltube perimeter X Y Z) p = true).
Proof. intros HX HY. split; [by apply contains_moved|by apply solid_contains]. Qed.
Print Assumptions C86_contains.
Lemma tol_small : 0 < kTolerance <= / 1000.
Proof. unfold kTolerance. lra. Qed.
Example contains_wide : ell_tube 2 1 3 (V3 1 (1 / 2) 2) ∧ ¬ ell_moved 2 1 3 kHalfTolerance (V3 0 2 0).
Proof.
  split.
  - split; [cbn; rewrite Rabs_pos_eq; lra|]. unfold ell. cbn [vx vy]. apply Rle_trans with (R_sqrt.sqrt 1); [apply sqrt_le_1_alt; lra|rewrite sqrt_1; lra].
  - intros [_ B]. unfold ell in B. cbn [vx vy] in B. replace (0 / 2 * (0 / 2) + 2 / 1 * (2 / 1)) with (2 * 2) in B by field. rewrite sqrt_square in B by lra. rewrite Rmin_right in B by lra. pose proof tol_small. unfold kHalfTolerance in B. lra.
Qed.
(** Inside: the three classes; a ball of half a tolerance about an inside point is in the solid, one about an outside point misses it. *)
Theorem C86_inside perimeter X Y Z p : 2 * kTolerance <= X → 2 * kTolerance <= Y → let i := et_inside (mk_elltube perimeter X Y Z) p in
  (i = kInside ↔ ell_moved X Y Z (- kHalfTolerance) p) ∧ (i = kOutside ↔ ¬ ell_moved X Y Z kHalfTolerance p) ∧
  (i = kInside → ∀ q, vdist p q <= kHalfTolerance → ell_tube X Y Z q) ∧ (i = kOutside → ∀ q, ell_tube X Y Z q → kHalfTolerance < vdist p q).
Proof.
  intros HX HY i. unfold i. pose proof (m_pos' X Y HX HY) as M0. split; [by apply inside_in|]. split; [by apply inside_out|]. split.
  - rewrite inside_in by done. intros [A B] q D. rewrite moved_radial in B by done. pose proof (e_diff X Y HX HY q p) as E. pose proof (z_diff q p) as F. rewrite vdist_comm in D. split; [lra|]. apply Rmult_le_reg_l with (Rmin X Y); [done|]. lra.
  - rewrite inside_out by done. intros N q [A B]. apply Rnot_le_lt. intros L. apply N. pose proof (e_diff X Y HX HY p q) as E. pose proof (z_diff p q) as F. split; [lra|]. apply moved_radial; [done|done|]. assert (Rmin X Y * ell X Y q <= Rmin X Y * 1) by (apply Rmult_le_compat_l; lra). lra.
Qed.
Print Assumptions C86_inside.
Example inside_wide perimeter : et_inside (mk_elltube perimeter 2 1 3) vzero = kInside ∧ et_inside (mk_elltube perimeter 2 1 3) (V3 0 2 0) = kOutside ∧ et_inside (mk_elltube perimeter 2 1 3) (V3 2 0 0) = kSurface.
Proof.
  pose proof tol_small as T. assert (H2 : 2 * kTolerance <= 2) by lra. assert (H1 : 2 * kTolerance <= 1) by lra. assert (MIN : Rmin 2 1 = 1) by (rewrite Rmin_right; lra).
  assert (E0 : ell 2 1 vzero = 0) by (unfold ell; cbn [vx vy vzero]; replace (0 / 2 * (0 / 2) + 0 / 1 * (0 / 1)) with 0 by field; apply sqrt_0). assert (E1 : ell 2 1 (V3 2 0 0) = 1) by (unfold ell; cbn [vx vy]; replace (2 / 2 * (2 / 2) + 0 / 1 * (0 / 1)) with 1 by field; apply sqrt_1).
  split; [|split].
  - apply inside_in; [done|done|]. unfold ell_moved. rewrite E0, MIN. cbn [vz vzero]. rewrite Rabs_R0. unfold kHalfTolerance. lra.
  - apply inside_out; [done|done|]. apply contains_wide.
  - destruct (et_inside (mk_elltube perimeter 2 1 3) (V3 2 0 0)) eqn:Q; [|done|].
    + apply inside_in in Q; [|done|done]. destruct Q as [_ Q]. rewrite E1, MIN in Q. unfold kHalfTolerance in Q. lra.
    + apply inside_out in Q; [|done|done]. exfalso. apply Q. unfold ell_moved. rewrite E1, MIN. cbn [vz]. rewrite Rabs_R0. unfold kHalfTolerance. lra.
Qed.
(** SafetyToIn never exceeds the distance to any point of the solid, is above half a tolerance outside and not positive in the solid. *)
Theorem C86_safety_in perimeter X Y Z p : 2 * kTolerance <= X → 2 * kTolerance <= Y → let s := et_safety_in (mk_elltube perimeter X Y Z) p in
  (∀ q, ell_tube X Y Z q → s <= vdist p q) ∧ (¬ ell_moved X Y Z kHalfTolerance p → kHalfTolerance < s) ∧ (ell_tube X Y Z p → s <= 0) ∧
  let raw := Rmax (Rmin X Y * (ell X Y p - 1)) (Rabs (vz p) - Z) in (kHalfTolerance < Rabs raw → s = raw) ∧ (Rabs raw <= kHalfTolerance → s = 0).
Proof.
  intros HX HY s. unfold s. rewrite safety_in_eq by done. pose proof (m_pos' X Y HX HY) as M0. set (raw := Rmax (Rmin X Y * (ell X Y p - 1)) (Rabs (vz p) - Z)).
  assert (Z1 : kHalfTolerance < Rabs raw → et_zeroed raw = raw) by (intros; unfold et_zeroed; destruct (rleb_spec (Rabs raw) kHalfTolerance); [lra|done]). assert (Z2 : Rabs raw <= kHalfTolerance → et_zeroed raw = 0) by (intros; unfold et_zeroed; destruct (rleb_spec (Rabs raw) kHalfTolerance); [done|lra]).
  split; [|split; [|split; [|done]]].
  - intros q [A B]. assert (RAW : raw <= vdist p q). { apply max_le. pose proof (e_diff X Y HX HY p q) as E. pose proof (z_diff p q) as F. assert (Rmin X Y * ell X Y q <= Rmin X Y * 1) by (apply Rmult_le_compat_l; lra). lra. } destruct (zeroed_cases raw) as [->|[-> _]]; [done|apply vdist_nonneg].
  - intros N. assert (G : kHalfTolerance < raw). { apply Rnot_le_lt. intros L. apply max_le in L. apply N. split; [lra|]. apply moved_radial; [done|done|]. lra. } rewrite Z1; [done|]. pose proof (Rle_abs raw). lra.
  - intros [A B]. assert (RAW : raw <= 0). { apply max_le. split; [|lra]. assert (Rmin X Y * ell X Y p <= Rmin X Y * 1) by (apply Rmult_le_compat_l; lra). lra. } destruct (zeroed_cases raw) as [->|[-> _]]; lra.
Qed.
Print Assumptions C86_safety_in.
(** SafetyToOut never exceeds the distance to any point off the solid, is not negative in it and negative outside. *)
Theorem C86_safety_out perimeter X Y Z p : 2 * kTolerance <= X → 2 * kTolerance <= Y → let s := et_safety_out (mk_elltube perimeter X Y Z) p in
  (∀ q, ¬ ell_tube X Y Z q → s <= vdist p q) ∧ (ell_tube X Y Z p → 0 <= s) ∧ (¬ ell_moved X Y Z kHalfTolerance p → s < - kHalfTolerance) ∧
  let raw := Rmin (Rmin X Y * (1 - ell X Y p)) (Z - Rabs (vz p)) in (kHalfTolerance < Rabs raw → s = raw) ∧ (Rabs raw <= kHalfTolerance → s = 0).
Proof.
  intros HX HY s. unfold s. rewrite safety_out_eq by done. pose proof (m_pos' X Y HX HY) as M0. set (raw := Rmin (Rmin X Y * (1 - ell X Y p)) (Z - Rabs (vz p))).
  assert (Z1 : kHalfTolerance < Rabs raw → et_zeroed raw = raw) by (intros; unfold et_zeroed; destruct (rleb_spec (Rabs raw) kHalfTolerance); [lra|done]). assert (Z2 : Rabs raw <= kHalfTolerance → et_zeroed raw = 0) by (intros; unfold et_zeroed; destruct (rleb_spec (Rabs raw) kHalfTolerance); [done|lra]).
  split; [|split; [|split; [|done]]].
  - intros q N. assert (RAW : raw <= vdist p q). { apply Rnot_lt_le. intros L. apply N. assert (L2 : vdist p q <= raw) by lra. apply min_ge in L2. destruct L2 as [L1 L2]. rewrite vdist_comm in L1, L2. pose proof (e_diff X Y HX HY q p) as E. pose proof (z_diff q p) as F. split; [lra|]. apply Rmult_le_reg_l with (Rmin X Y); [done|]. lra. } destruct (zeroed_cases raw) as [->|[-> _]]; [done|apply vdist_nonneg].
  - intros [A B]. assert (RAW : 0 <= raw). { apply min_ge. split; [|lra]. apply Rmult_le_pos; lra. } destruct (zeroed_cases raw) as [->|[-> _]]; lra.
  - intros N. assert (G : raw < - kHalfTolerance). { apply Rnot_le_lt. intros L. apply min_ge in L. apply N. split; [lra|]. apply moved_radial; [done|done|]. lra. } rewrite Z1; [done|]. rewrite Rabs_left1; [lra|]. pose proof kTolerance_pos. unfold kHalfTolerance in *. lra.
Qed.
Print Assumptions C86_safety_out.
Example safety_wide perimeter : et_safety_in (mk_elltube perimeter 2 1 3) (V3 0 0 5) = 2 ∧ et_safety_out (mk_elltube perimeter 2 1 3) (V3 0 0 (-1)) = 1.
Proof.
  pose proof tol_small as T. assert (H2 : 2 * kTolerance <= 2) by lra. assert (H1 : 2 * kTolerance <= 1) by lra. assert (MIN : Rmin 2 1 = 1) by (rewrite Rmin_right; lra). assert (E0 : ∀ z, ell 2 1 (V3 0 0 z) = 0) by (intros; unfold ell; cbn [vx vy]; replace (0 / 2 * (0 / 2) + 0 / 1 * (0 / 1)) with 0 by field; apply sqrt_0).
  rewrite safety_in_eq, safety_out_eq, !E0, MIN by done. cbn [vz]. rewrite (Rabs_pos_eq 5), (Rabs_left1 (-1)) by lra. rewrite Rmax_right, Rmin_left by lra. unfold et_zeroed. rewrite !Rabs_pos_eq by lra. unfold kHalfTolerance. destruct (rleb_spec (5 - 3) (/ 2 * kTolerance)); [lra|]. destruct (rleb_spec (1 * (1 - 0)) (/ 2 * kTolerance)); [lra|]. lra.
Qed.
(** The solid is convex, as the constructor says. *)
Theorem C86_convex X Y Z p q k : 2 * kTolerance <= X → 2 * kTolerance <= Y → ell_tube X Y Z p → ell_tube X Y Z q → 0 <= k <= 1 → ell_tube X Y Z (vadd (vscale (1 - k) p) (vscale k q)).
Proof.
  intros HX HY [A B] [C D] K. assert (SQ : ∀ v, ell X Y v <= 1 ↔ vx v / X * (vx v / X) + vy v / Y * (vy v / Y) <= 1). { intros v. rewrite <- e_sqr. pose proof (e_nonneg X Y v). split; intros; nra. }
  rewrite SQ in B, D. split.
  - cbn [vz vadd vscale]. apply abs_le in A. apply abs_le in C. apply abs_le. split; nra.
  - apply SQ. cbn [vx vy vadd vscale]. assert (CV : ∀ a b, ((1 - k) * a + k * b) * ((1 - k) * a + k * b) <= (1 - k) * (a * a) + k * (b * b)). { intros a b. assert (0 <= k * (1 - k) * ((a - b) * (a - b))) by (apply Rmult_le_pos; [apply Rmult_le_pos; lra|apply Rle_0_sqr]). lra. }
    replace (((1 - k) * vx p + k * vx q) / X) with ((1 - k) * (vx p / X) + k * (vx q / X)) by (unfold Rdiv; ring). replace (((1 - k) * vy p + k * vy q) / Y) with ((1 - k) * (vy p / Y) + k * (vy q / Y)) by (unfold Rdiv; ring).
    pose proof (CV (vx p / X) (vx q / X)) as C1. pose proof (CV (vy p / Y) (vy q / Y)) as C2. set (a := vx p / X * (vx p / X)) in *. set (b := vy p / Y * (vy p / Y)) in *. set (c := vx q / X * (vx q / X)) in *. set (e := vy q / Y * (vy q / Y)) in *. assert ((1 - k) * (a + b) <= (1 - k) * 1) by (apply Rmult_le_compat_l; lra). assert (k * (c + e) <= k * 1) by (apply Rmult_le_compat_l; lra). lra.
Qed.
Print Assumptions C86_convex.
Example convex_wide : ell_tube 2 1 3 (V3 2 0 3) ∧ ell_tube 2 1 3 (V3 0 (-1) (-3)).
Proof. split; (split; [cbn [vz]; apply abs_le; lra|]); unfold ell; cbn [vx vy]; (apply Rle_trans with (R_sqrt.sqrt 1); [apply sqrt_le_1_alt; lra|rewrite sqrt_1; lra]). Qed.
(** Extent is the smallest box about the solid. *)
Theorem C86_extent perimeter X Y Z : 2 * kTolerance <= X → 2 * kTolerance <= Y → 0 <= Z → let b := et_extent (mk_elltube perimeter X Y Z) in
  (∀ p, ell_tube X Y Z p → vx (fst b) <= vx p <= vx (snd b) ∧ vy (fst b) <= vy p <= vy (snd b) ∧ vz (fst b) <= vz p <= vz (snd b)) ∧
  (∀ lo hi, (∀ p, ell_tube X Y Z p → vx lo <= vx p <= vx hi ∧ vy lo <= vy p <= vy hi ∧ vz lo <= vz p <= vz hi) →
     vx lo <= vx (fst b) ∧ vx (snd b) <= vx hi ∧ vy lo <= vy (fst b) ∧ vy (snd b) <= vy hi ∧ vz lo <= vz (fst b) ∧ vz (snd b) <= vz hi).
Proof.
  intros HX HY HZ b. unfold b. rewrite te by done. cbn. pose proof kTolerance_pos as T. assert (SQ : ∀ v, ell X Y v <= 1 ↔ vx v / X * (vx v / X) + vy v / Y * (vy v / Y) <= 1). { intros v. rewrite <- e_sqr. pose proof (e_nonneg X Y v). split; intros; nra. }
  assert (DV : ∀ a c, 0 < c → a / c * (a / c) <= 1 → - c <= a <= c). { intros a c Hc L. assert (E : a = a / c * c) by (field; lra). set (w := a / c) in *. assert (-1 <= w <= 1) by nra. rewrite E. nra. }
  split.
  - intros p [A B]. apply SQ in B. apply abs_le in A. pose proof (Rle_0_sqr (vx p / X)) as Q1. pose proof (Rle_0_sqr (vy p / Y)) as Q2. unfold Rsqr in Q1, Q2. split; [apply DV; lra|]. split; [apply DV; lra|lra].
  - intros lo hi H. assert (XX : X / X * (X / X) + 0 / Y * (0 / Y) = 1) by (field; lra). assert (XN : - X / X * (- X / X) + 0 / Y * (0 / Y) = 1) by (field; lra). assert (YY : 0 / X * (0 / X) + Y / Y * (Y / Y) = 1) by (field; lra). assert (YN : 0 / X * (0 / X) + - Y / Y * (- Y / Y) = 1) by (field; lra). assert (ZZ : 0 / X * (0 / X) + 0 / Y * (0 / Y) = 0) by (field; lra).
    pose proof (H (V3 X 0 Z)) as P1. pose proof (H (V3 (- X) 0 Z)) as P2. pose proof (H (V3 0 Y Z)) as P3. pose proof (H (V3 0 (- Y) Z)) as P4. pose proof (H (V3 0 0 Z)) as P5. pose proof (H (V3 0 0 (- Z))) as P6.
    unfold ell_tube in P1, P2, P3, P4, P5, P6. rewrite SQ in P1, P2, P3, P4, P5, P6. cbn [vx vy vz] in P1, P2, P3, P4, P5, P6. rewrite XX in P1. rewrite XN in P2. rewrite YY in P3. rewrite YN in P4. rewrite ZZ in P5, P6. rewrite Rabs_Ropp in P6. rewrite Rabs_pos_eq in P1, P2, P3, P4, P5, P6 by done.
    specialize (P1 ltac:(lra)). specialize (P2 ltac:(lra)). specialize (P3 ltac:(lra)). specialize (P4 ltac:(lra)). specialize (P5 ltac:(lra)). specialize (P6 ltac:(lra)). tauto.
Qed.
Print Assumptions C86_extent.
Example extent_wide perimeter : et_extent (mk_elltube perimeter 2 1 3) = (V3 (-2) (-1) (-3), V3 2 1 3).
Proof. pose proof tol_small. rewrite te by lra. unfold et_extent. cbn. f_equal; apply v3_eq; cbn; lra. Qed.
