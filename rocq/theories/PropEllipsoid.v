(** C87: ellipsoids with cuts: points, classes, safeties, convexity and extent. *)
From Coq Require Import Reals Lra Lia Bool ZArith Psatz.
From stdpp Require Import base list option numbers tactics.
From Verif Require Import Real3 AABBModel AABBProofs BoxModel BoxProofs PlanesModel TetModel ConeModel ConeSpec ConeProofs EllTubeModel EllTubeSpec EllTubeProofs EllTubeProofs2 EllTubeProofs3 EllTubeProofs4 EllipsoidModel EllipsoidSpec EllipsoidProofs.
Import stdpp.list.
Local Open Scope R_scope.

(** Sizes the constructor takes as they are. *)
Local Notation sizes A B C zb zt := (2 * kTolerance <= A ∧ 2 * kTolerance <= B ∧ 2 * kTolerance <= C ∧ - C <= zb < zt ∧ zt <= C).
Lemma tol_small : 0 < kTolerance <= / 1000.
Proof. unfold kTolerance. lra. Qed.
Lemma sizes_half : sizes 2 1 2 (-1) 1.
Proof. pose proof tol_small. repeat split; lra. Qed.
Lemma short_half : es_short 2 1 2 = 1.
Proof. unfold es_short. rewrite (Rmin_left 1 2), Rmin_right by lra. done. Qed.

(** Contains is the solid moved outwards by half a tolerance; every point of the solid is contained. *)
Theorem C87_contains A B C zb zt p : sizes A B C zb zt →
  (es_contains (mk_ellipsoid A B C zb zt) p = true ↔ es_moved A B C zb zt kHalfTolerance p) ∧ (es_solid A B C zb zt p → es_contains (mk_ellipsoid A B C zb zt) p = true).
Proof.
  intros (HA & HB & HC & Hz). split; [by apply es_contains_moved|]. intros S. apply es_contains_moved; [done..|]. apply moved_eq with (zt := zt); [done..|]. apply solid_eq in S; [|done..]. pose proof kHalfTolerance_pos. split; lra.
Qed.
Print Assumptions C87_contains.
Example contains_cut : es_solid 2 1 2 (-1) 1 (V3 1 (1 / 2) (1 / 2)) ∧ ¬ es_moved 2 1 2 (-1) 1 kHalfTolerance (V3 0 0 2).
Proof.
  split.
  - split; [cbn [vz]; lra|]. unfold ball_at. cbn [vx vy vz]. apply Rle_trans with (R_sqrt.sqrt 1); [apply sqrt_le_1_alt; lra|rewrite sqrt_1; lra].
  - intros [Q _]. rewrite short_half in Q. cbn [vz] in Q. pose proof tol_small. unfold kHalfTolerance in Q. lra.
Qed.
(** Inside: the three classes; a ball of half a tolerance about an inside point is in the solid, one about an outside point misses it. *)
Theorem C87_inside A B C zb zt p : sizes A B C zb zt → let i := es_inside (mk_ellipsoid A B C zb zt) p in
  (i = kInside ↔ es_moved A B C zb zt (- kHalfTolerance) p) ∧ (i = kOutside ↔ ¬ es_moved A B C zb zt kHalfTolerance p) ∧
  (i = kInside → ∀ q, vdist p q <= kHalfTolerance → es_solid A B C zb zt q) ∧ (i = kOutside → ∀ q, es_solid A B C zb zt q → kHalfTolerance < vdist p q).
Proof.
  intros (HA & HB & HC & Hz) i. unfold i. split; [by apply es_inside_in|]. split; [by apply es_inside_out|]. split.
  - rewrite es_inside_in by done. rewrite moved_eq by done. intros [P Q] q D. apply solid_eq; [done..|]. pose proof (f_diff A B C zb zt HA HB HC Hz q p) as E. pose proof (cut_diff A B C zb zt HA HB HC Hz q p) as F. rewrite vdist_comm in D. lra.
  - rewrite es_inside_out by done. intros N q S. apply Rnot_le_lt. intros L. apply N. apply moved_eq with (zt := zt); [done..|]. apply solid_eq in S; [|done..]. pose proof (f_diff A B C zb zt HA HB HC Hz p q) as E. pose proof (cut_diff A B C zb zt HA HB HC Hz p q) as F. lra.
Qed.
Print Assumptions C87_inside.
Example inside_cut : let t := mk_ellipsoid 2 1 2 (-1) 1 in es_inside t vzero = kInside ∧ es_inside t (V3 0 0 2) = kOutside ∧ es_inside t (V3 0 1 0) = kSurface.
Proof.
  pose proof tol_small as T. destruct sizes_half as (HA & HB & HC & Hz). intros t. unfold t.
  assert (E0 : ball_at 2 1 2 vzero = 0) by (unfold ball_at; cbn [vx vy vz vzero]; replace (0 / 2 * (0 / 2) + 0 / 1 * (0 / 1) + 0 / 2 * (0 / 2)) with 0 by field; apply sqrt_0). assert (E1 : ball_at 2 1 2 (V3 0 1 0) = 1) by (unfold ball_at; cbn [vx vy vz]; replace (0 / 2 * (0 / 2) + 1 / 1 * (1 / 1) + 0 / 2 * (0 / 2)) with 1 by field; apply sqrt_1).
  split; [|split].
  - apply es_inside_in; [done..|]. unfold es_moved. rewrite E0, short_half. cbn [vz vzero]. unfold kHalfTolerance. lra.
  - apply es_inside_out; [done..|]. apply contains_cut.
  - destruct (es_inside (mk_ellipsoid 2 1 2 (-1) 1) (V3 0 1 0)) eqn:Q; [|done|].
    + apply es_inside_in in Q; [|done..]. destruct Q as (_ & _ & Q). rewrite E1, short_half in Q. unfold kHalfTolerance in Q. lra.
    + apply es_inside_out in Q; [|done..]. exfalso. apply Q. unfold es_moved. rewrite E1, short_half. cbn [vz]. unfold kHalfTolerance. lra.
Qed.
(** SafetyToIn never exceeds the distance to any point of the solid, is above half a tolerance outside and not positive in the solid.
    Its size: the squeezed depth [raw], or outside the larger of it and the distance to the box. *)
Theorem C87_safety_in A B C zb zt p : sizes A B C zb zt → let s := es_safety_in (mk_ellipsoid A B C zb zt) p in
  (∀ q, es_solid A B C zb zt q → s <= vdist p q) ∧ (¬ es_moved A B C zb zt kHalfTolerance p → kHalfTolerance < s ∧ vz p - zt <= s ∧ zb - vz p <= s ∧ Rabs (vx p) - A <= s ∧ Rabs (vy p) - B <= s) ∧ (es_solid A B C zb zt p → s <= 0) ∧
  let raw := Rmax (es_short A B C / C * Rmax (vz p - zt) (zb - vz p)) (es_short A B C * (ball_at A B C p - 1)) in (raw < - kHalfTolerance → s = raw) ∧ (Rabs raw <= kHalfTolerance → s = 0) ∧ (kHalfTolerance < raw → raw <= s).
Proof.
  intros (HA & HB & HC & Hz) s. unfold s. destruct (es_pos A B C zb zt HA HB HC Hz) as (A0 & B0 & C0 & _ & M0 & _). destruct (fields A B C zb zt HA HB HC Hz) as (_ & _ & _ & ZB & ZT & XM & YM & _ & RS & _ & _ & SZ & MI & DI & _).
  pose proof kHalfTolerance_pos as H0. unfold es_safety_in. rewrite scaled_mag, ZB, ZT, XM, YM, RS, MI, DI by done. unfold es_scaled. cbn [vz]. rewrite SZ. rewrite mid_dist by done. fold (cut_at A B C zb zt (vz p)). unfold cut_at at 2. fold (cut_at A B C zb zt (vz p)).
  replace (es_short A B C * ball_at A B C p - es_short A B C) with (es_short A B C * (ball_at A B C p - 1)) by ring. set (raw := Rmax (cut_at A B C zb zt (vz p)) (es_short A B C * (ball_at A B C p - 1))).
  change (Rmax (es_short A B C / C * Rmax (vz p - zt) (zb - vz p)) (es_short A B C * (ball_at A B C p - 1))) with raw.
  set (box := Rmax (Rmax (vz p - zt) (zb - vz p)) (Rmax (Rabs (vx p) - A * es_scale C zb zt) (Rabs (vy p) - B * es_scale C zb zt))).
  assert (Z1 : kHalfTolerance < Rabs raw → et_zeroed raw = raw) by (intros; unfold et_zeroed; destruct (rleb_spec (Rabs raw) kHalfTolerance); [lra|done]). assert (Z2 : Rabs raw <= kHalfTolerance → et_zeroed raw = 0) by (intros; unfold et_zeroed; destruct (rleb_spec (Rabs raw) kHalfTolerance); [done|lra]).
  assert (BOX : ∀ q, es_solid A B C zb zt q → box <= vdist p q).
  { intros q S. destruct (box_xy A B C zb zt HA HB HC Hz q S) as [BX BY]. destruct S as [SZ' _]. pose proof (vx_le_mag (vsub p q)) as VX. pose proof (vy_le_mag (vsub p q)) as VY. pose proof (vz_le_mag (vsub p q)) as VZ. change (vmag (vsub p q)) with (vdist p q) in VX, VY, VZ. cbn [vx vy vz vsub] in VX, VY, VZ.
    apply abs_le in VZ. pose proof (Rabs_triang_inv (vx p) (vx q)). pose proof (Rabs_triang_inv (vy p) (vy q)). unfold box. repeat (apply max_le; split); lra. }
  assert (RAW : ∀ q, es_solid A B C zb zt q → raw <= vdist p q).
  { intros q S. apply solid_eq in S; [|done..]. apply max_le. pose proof (f_diff A B C zb zt HA HB HC Hz p q) as E. pose proof (cut_diff A B C zb zt HA HB HC Hz p q) as F. lra. }
  assert (OUT : ¬ es_moved A B C zb zt kHalfTolerance p → kHalfTolerance < raw).
  { intros N. apply Rnot_le_lt. intros L. apply max_le in L. apply N. apply moved_eq with (zt := zt); [done..|]. lra. }
  split; [|split; [|split; [|split; [|split]]]].
  - intros q S. pose proof (RAW q S). pose proof (BOX q S). pose proof (vdist_nonneg p q). destruct (rgtb (et_zeroed raw) 0); [apply max_le; split; [|done]|]; destruct (zeroed_cases raw) as [->|[-> _]]; lra.
  - intros N. apply OUT in N. pose proof (Rle_abs raw). rewrite Z1 by lra. destruct (rgtb_spec raw 0); [|lra]. pose proof (scale_pos A B C zb zt HA HB HC Hz) as SC. assert (GE : box <= Rmax raw box) by apply Rmax_r. assert (GR : raw <= Rmax raw box) by apply Rmax_l. split; [lra|].
    unfold box in GE at 1. apply max_le in GE. destruct GE as [G1 G2]. apply max_le in G1. apply max_le in G2. assert (A * es_scale C zb zt <= A * 1) by (apply Rmult_le_compat_l; lra). assert (B * es_scale C zb zt <= B * 1) by (apply Rmult_le_compat_l; lra). lra.
  - intros S. apply solid_eq in S; [|done..]. assert (raw <= 0) by (apply max_le; lra). assert (et_zeroed raw <= 0) by (destruct (zeroed_cases raw) as [->|[-> _]]; lra). destruct (rgtb_spec (et_zeroed raw) 0); lra.
  - intros L. rewrite Z1 by (rewrite Rabs_left1; lra). destruct (rgtb_spec raw 0); lra.
  - intros L. rewrite Z2 by done. destruct (rgtb_spec 0 0); lra.
  - intros L. pose proof (Rle_abs raw). rewrite Z1 by lra. destruct (rgtb_spec raw 0); [apply Rmax_l|lra].
Qed.
Print Assumptions C87_safety_in.
(** SafetyToOut never exceeds the distance to any point off the solid, is not negative in it and negative outside. *)
Theorem C87_safety_out A B C zb zt p : sizes A B C zb zt → let s := es_safety_out (mk_ellipsoid A B C zb zt) p in
  (∀ q, ¬ es_solid A B C zb zt q → s <= vdist p q) ∧ (es_solid A B C zb zt p → 0 <= s) ∧ (¬ es_moved A B C zb zt kHalfTolerance p → s < - kHalfTolerance) ∧
  let raw := Rmin (es_short A B C / C * Rmin (zt - vz p) (vz p - zb)) (es_short A B C * (1 - ball_at A B C p)) in
  (kHalfTolerance < raw → s = Rmin (es_short A B C * (1 - ball_at A B C p)) (Rmin (zt - vz p) (vz p - zb))) ∧ (Rabs raw <= kHalfTolerance → s = 0) ∧ (raw < - kHalfTolerance → s = raw).
Proof.
  intros (HA & HB & HC & Hz) s. unfold s. destruct (es_pos A B C zb zt HA HB HC Hz) as (A0 & B0 & C0 & _ & M0 & _). pose proof (c_pos A B C zb zt HA HB HC Hz) as CP. destruct (fields A B C zb zt HA HB HC Hz) as (_ & _ & _ & ZB & ZT & _ & _ & _ & RS & _ & _ & SZ & MI & DI & _).
  pose proof kHalfTolerance_pos as H0. unfold es_safety_out. rewrite scaled_mag, ZB, ZT, RS, MI, DI by done. unfold es_scaled. cbn [vz]. rewrite SZ.
  pose proof (mid_dist A B C zb zt HA HB HC Hz (vz p)) as MD. set (a := Rabs (vz p * (es_short A B C / C) - 1 / 2 * (zt * (es_short A B C / C) + zb * (es_short A B C / C)))) in *. set (b := 1 / 2 * (zt * (es_short A B C / C) - zb * (es_short A B C / C))) in *. replace (b - a) with (- cut_at A B C zb zt (vz p)) by lra.
  replace (es_short A B C - es_short A B C * ball_at A B C p) with (es_short A B C * (1 - ball_at A B C p)) by ring. set (raw := Rmin (- cut_at A B C zb zt (vz p)) (es_short A B C * (1 - ball_at A B C p))). set (dz := Rmin (zt - vz p) (vz p - zb)).
  assert (CE : es_short A B C / C * dz = - cut_at A B C zb zt (vz p)). { unfold cut_at, dz, Rmin, Rmax. destruct (Rle_dec _ _), (Rle_dec _ _); try lra. replace (zt - vz p) with (vz p - zb) by lra. ring. } rewrite CE. fold raw.
  assert (Z1 : kHalfTolerance < Rabs raw → et_zeroed raw = raw) by (intros; unfold et_zeroed; destruct (rleb_spec (Rabs raw) kHalfTolerance); [lra|done]). assert (Z2 : Rabs raw <= kHalfTolerance → et_zeroed raw = 0) by (intros; unfold et_zeroed; destruct (rleb_spec (Rabs raw) kHalfTolerance); [done|lra]).
  assert (RAW : ∀ q, ¬ es_solid A B C zb zt q → raw <= vdist p q).
  { intros q N. apply Rnot_lt_le. intros L. apply N. apply Rlt_le in L. apply min_ge in L. destruct L as [L1 L2]. rewrite vdist_comm in L1, L2. apply solid_eq; [done..|]. pose proof (f_diff A B C zb zt HA HB HC Hz q p) as E. pose proof (cut_diff A B C zb zt HA HB HC Hz q p) as F. lra. }
  assert (REAL : ∀ q, ¬ es_solid A B C zb zt q → Rmin (es_short A B C * (1 - ball_at A B C p)) dz <= vdist p q).
  { intros q N. apply Rnot_lt_le. intros L. apply N. apply Rlt_le in L. apply min_ge in L. destruct L as [L1 L2]. unfold dz in L2. apply min_ge in L2. rewrite vdist_comm in L1, L2. pose proof (f_diff A B C zb zt HA HB HC Hz q p) as E. pose proof (vz_diff q p) as F. apply abs_le in F. split; [lra|]. apply Rmult_le_reg_l with (es_short A B C); [done|]. lra. }
  split; [|split; [|split]].
  - intros q N. destruct (rgtb _ _); [by apply REAL|]. pose proof (RAW q N). pose proof (vdist_nonneg p q). destruct (zeroed_cases raw) as [->|[-> _]]; lra.
  - intros S. destruct (rgtb_spec (et_zeroed raw) 0).
    + destruct S as [S1 S2]. apply min_ge. split; [apply Rmult_le_pos; lra|]. apply min_ge. lra.
    + apply solid_eq in S; [|done..]. assert (0 <= raw) by (apply min_ge; lra). destruct (zeroed_cases raw) as [->|[-> _]]; lra.
  - intros N. assert (G : raw < - kHalfTolerance). { apply Rnot_le_lt. intros L. apply min_ge in L. apply N. apply moved_eq with (zt := zt); [done..|]. lra. } rewrite Z1 by (rewrite Rabs_left1; lra). destruct (rgtb_spec raw 0); lra.
  - split; [|split]; intros L.
    + pose proof (Rle_abs raw). rewrite Z1 by lra. destruct (rgtb_spec raw 0); [done|lra].
    + rewrite Z2 by done. destruct (rgtb_spec 0 0); lra.
    + rewrite Z1 by (rewrite Rabs_left1; lra). destruct (rgtb_spec raw 0); lra.
Qed.
Print Assumptions C87_safety_out.
Example safety_cut : let t := mk_ellipsoid 2 1 2 (-1) 1 in es_safety_in t (V3 0 0 5) = 4 ∧ es_safety_out t vzero = 1.
Proof.
  pose proof tol_small as T. intros t. pose proof sizes_half as S. pose proof S as (HA & HB & HC & Hz).
  assert (E0 : ball_at 2 1 2 vzero = 0) by (unfold ball_at; cbn [vx vy vz vzero]; replace (0 / 2 * (0 / 2) + 0 / 1 * (0 / 1) + 0 / 2 * (0 / 2)) with 0 by field; apply sqrt_0). split.
  - assert (U : es_safety_in t (V3 0 0 5) <= 4). { replace 4 with (vdist (V3 0 0 5) (V3 0 0 1)). - apply C87_safety_in; [done|]. split; [cbn [vz]; lra|]. unfold ball_at. cbn [vx vy vz]. apply Rle_trans with (R_sqrt.sqrt 1); [apply sqrt_le_1_alt; lra|rewrite sqrt_1; lra]. - unfold vdist, vmag, vdot. cbn [vx vy vz vsub]. replace ((0 - 0) * (0 - 0) + (0 - 0) * (0 - 0) + (5 - 1) * (5 - 1)) with (4 * 4) by ring. apply sqrt_square. lra. }
    destruct (C87_safety_in 2 1 2 (-1) 1 (V3 0 0 5) S) as (_ & G & _). cbn [vz vx vy] in G. fold t in G. assert (N : ¬ es_moved 2 1 2 (-1) 1 kHalfTolerance (V3 0 0 5)) by (intros [Q _]; rewrite short_half in Q; cbn [vz] in Q; unfold kHalfTolerance in Q; lra). destruct (G N) as (_ & G1 & _). lra.
  - destruct (C87_safety_out 2 1 2 (-1) 1 vzero S) as (_ & _ & _ & G & _). cbn [vz vzero] in G. fold vzero in G. rewrite short_half, E0 in G. fold t in G. replace (Rmin (1 - 0) (0 - -1)) with 1 in G by (rewrite Rmin_left; lra). rewrite (Rmin_left (1 / 2 * 1)) in G by lra. rewrite G by (unfold kHalfTolerance; lra). rewrite Rmin_left; lra.
Qed.
(** The solid is convex, as the constructor says. *)
Theorem C87_convex A B C zb zt p q k : sizes A B C zb zt → es_solid A B C zb zt p → es_solid A B C zb zt q → 0 <= k <= 1 → es_solid A B C zb zt (vadd (vscale (1 - k) p) (vscale k q)).
Proof.
  intros (HA & HB & HC & Hz) [P F] [Q G] K. destruct (es_pos A B C zb zt HA HB HC Hz) as (A0 & B0 & C0 & _). split.
  - cbn [vz vadd vscale]. split; nra.
  - rewrite f_mag in *. replace (unscaled A B C (vadd (vscale (1 - k) p) (vscale k q))) with (vadd (vscale (1 - k) (unscaled A B C p)) (vscale k (unscaled A B C q))) by (apply v3_eq; cbn; field; lra).
    pose proof (vmag_add (vscale (1 - k) (unscaled A B C p)) (vscale k (unscaled A B C q))) as T. rewrite !vmag_scale, !Rabs_pos_eq in T by lra. assert ((1 - k) * vmag (unscaled A B C p) <= (1 - k) * 1) by (apply Rmult_le_compat_l; lra). assert (k * vmag (unscaled A B C q) <= k * 1) by (apply Rmult_le_compat_l; lra). lra.
Qed.
Print Assumptions C87_convex.
(** Extent is the smallest box about the solid. *)
Theorem C87_extent A B C zb zt : sizes A B C zb zt → let b := es_extent (mk_ellipsoid A B C zb zt) in
  (∀ p, es_solid A B C zb zt p → vx (fst b) <= vx p <= vx (snd b) ∧ vy (fst b) <= vy p <= vy (snd b) ∧ vz (fst b) <= vz p <= vz (snd b)) ∧
  (∀ lo hi, (∀ p, es_solid A B C zb zt p → vx lo <= vx p <= vx hi ∧ vy lo <= vy p <= vy hi ∧ vz lo <= vz p <= vz hi) →
     vx lo <= vx (fst b) ∧ vx (snd b) <= vx hi ∧ vy lo <= vy (fst b) ∧ vy (snd b) <= vy hi ∧ vz lo <= vz (fst b) ∧ vz (snd b) <= vz hi).
Proof.
  intros (HA & HB & HC & Hz) b. destruct (es_pos A B C zb zt HA HB HC Hz) as (A0 & B0 & C0 & _). destruct (fields A B C zb zt HA HB HC Hz) as (_ & _ & _ & ZB & ZT & XM & YM & _). unfold b, es_extent. cbn [fst snd vx vy vz]. rewrite ZB, ZT, XM, YM. split.
  - intros p S. destruct (box_xy A B C zb zt HA HB HC Hz p S) as [X Y]. apply abs_le in X. apply abs_le in Y. destruct S as [Z _]. done.
  - intros lo hi H. set (s := es_scale C zb zt). pose proof (scale_pos A B C zb zt HA HB HC Hz) as S0. pose proof (scale_sqr A B C zb zt HA HB HC Hz) as SS. fold s in S0, SS.
    assert (Zs : ∃ z, zb <= z <= zt ∧ s * s + z / C * (z / C) = 1). { destruct (rltb_spec zt 0); [exists zt; lra|]. destruct (rgtb_spec zb 0); [exists zb; lra|]. exists 0. split; [lra|]. replace (0 / C * (0 / C)) with 0 by (field; lra). lra. }
    destruct Zs as (z & Zz & Es).
    assert (PX : ∀ e g, e * e + g * g = 1 → es_solid A B C zb zt (V3 (A * (e * s)) (B * (g * s)) z)). { intros e g EG. split; [done|]. unfold ball_at. cbn [vx vy vz]. replace (A * (e * s) / A * (A * (e * s) / A) + B * (g * s) / B * (B * (g * s) / B)) with ((e * e + g * g) * (s * s)) by (field; lra). rewrite EG, Rmult_1_l, Es, sqrt_1. lra. }
    assert (PZ : ∀ w, zb <= w <= zt → es_solid A B C zb zt (V3 0 0 w)). { intros w W. split; [done|]. unfold ball_at. cbn [vx vy vz]. replace (0 / A * (0 / A) + 0 / B * (0 / B) + w / C * (w / C)) with (w / C * (w / C)) by (field; lra). apply Rle_trans with (R_sqrt.sqrt 1); [|rewrite sqrt_1; lra]. apply sqrt_le_1_alt. assert (E : w / C * C = w) by (field; lra). set (v := w / C) in *. clearbody v. assert (-1 <= v <= 1) by (split; apply Rmult_le_reg_r with C; lra). nra. }
    pose proof (H _ (PX 1 0 ltac:(lra))) as H1. pose proof (H _ (PX (-1) 0 ltac:(lra))) as H2. pose proof (H _ (PX 0 1 ltac:(lra))) as H3. pose proof (H _ (PX 0 (-1) ltac:(lra))) as H4. pose proof (H _ (PZ zb ltac:(lra))) as H5. pose proof (H _ (PZ zt ltac:(lra))) as H6. cbn [vx vy vz] in H1, H2, H3, H4, H5, H6. lra.
Qed.
Print Assumptions C87_extent.
Example extent_cap : sizes 5 5 5 3 4 ∧ es_xmax (mk_ellipsoid 5 5 5 3 4) = 4.
Proof.
  pose proof tol_small. assert (S : sizes 5 5 5 3 4) by (repeat split; lra). split; [done|]. destruct S as (HA & HB & HC & Hz). destruct (fields 5 5 5 3 4 HA HB HC Hz) as (_ & _ & _ & _ & _ & XM & _). rewrite XM. unfold es_scale. destruct (rltb_spec 4 0); [lra|]. destruct (rgtb_spec 3 0); [|lra]. replace ((1 - 3 / 5) * (1 + 3 / 5)) with (4 / 5 * (4 / 5)) by field. rewrite sqrt_square by lra. field.
Qed.
