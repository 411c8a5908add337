(** C88: paraboloids: how far it is to the surface along a ray. *)
From Coq Require Import Reals Lra Lia Bool ZArith Psatz.
From stdpp Require Import base list option numbers tactics.
From Verif Require Import Real3 AABBModel BoxModel BoxProofs PlanesModel PlanesProofs ConeSpec ConeProofs EllTubeSpec EllTubeProofs EllTubeProofs2 EllTubeProofs3 TubeProofs ParabModel ParabSpec ParabProofs ParabProofs2 ParabProofs3.
Import stdpp.list.
Local Open Scope R_scope.

Lemma gradient_spec L H Z p d : 0 <= L → L < H → 0 < Z → vdot d (bowl_gradient L H Z p) = 2 * vdot d (pb_gradient (mk_parab L H Z) p).
Proof.
  intros HL HH HZ. pose proof (sq_less L H HL HH) as Q. unfold bowl_gradient, pb_gradient, mk_parab, steep, vdot. cbn [pb_k1 vx vy vz]. field. split; lra.
Qed.

(** DistanceToOut from a point of the solid is how far the ray stays in it, unless the point is within a tolerance of a lid or of
    the side and the ray leaves there, where it is zero.  Directions have no components lost in rounding, the surface is not so
    flat that a tolerance is; level rays start clearly below the upper lid, rays along the surface a tolerance below it. *)
Theorem C88_to_out L H Z inf p d : 0 <= L → L < H → 0 < Z → vdot d d = 1 → kAbsorb <= steep L H Z * kTolerance →
  vz d = 0 ∨ kAbsorb <= Rabs (vz d) → rho d = 0 ∨ kAbsorb <= steep L H Z * (rho d * rho d) →
  parab_solid L H Z p → (vz d = 0 → 2 * H * kTiny <= Z - vz p) → 2 * Z * kTiny <= 1 →
  (vdot d (bowl_gradient L H Z p) = 0 → rho p * rho p - bowl_at L H Z (vz p) <= - kTolerance) →
  let s := pb_to_out inf (mk_parab L H Z) p d in
  leaves (parab_solid L H Z) p d s ∨
  (s = 0 ∧ ((Rabs (vz p - Z) < kTolerance ∧ 0 < vz d) ∨ (Rabs (vz p + Z) < kTolerance ∧ vz d < 0) ∨
            (Rabs (rho p * rho p - bowl_at L H Z (vz p)) < kTolerance ∧ 0 < vdot d (bowl_gradient L H Z p)))).
Proof.
  intros HL HH HZ D1 D2 D3 D4 P D5 D6 D7 s. rewrite gradient_spec in * by done. assert (D8 : vdot d (pb_gradient (mk_parab L H Z) p) = 0 → rho p * rho p - bowl_at L H Z (vz p) <= - kTolerance) by (intros E; apply D7; rewrite E; ring).
  destruct (to_out_spec L H Z inf HL HH HZ p d D1 D2 D3 D4 P D5 D6 D8) as [[E K]|K]; [right|by left]. split; [done|]. unfold skin_out in K. destruct K as [K|[K|K]]; [by left|right; by left|right; right]. split; [apply K|]. destruct K. lra.
Qed.
Print Assumptions C88_to_out.
(** From outside it is -1. *)
Theorem C88_to_out_outside L H Z inf p d : 0 <= L → L < H → 0 < Z → Z + kTolerance < Rabs (vz p) ∨ kHalfTolerance < rho p * rho p - bowl_at L H Z (vz p) → pb_to_out inf (mk_parab L H Z) p d = -1.
Proof.
  intros HL HH HZ O. unfold pb_to_out. change (pb_dz (mk_parab L H Z)) with Z. rewrite diff_eq by done. destruct (rgtb_spec (Rabs (vz p)) (Z + kTolerance)) as [|N]; [done|]. destruct (rgtb_spec (rho p * rho p - bowl_at L H Z (vz p)) kHalfTolerance) as [|N']; [done|]. lra.
Qed.
Print Assumptions C88_to_out_outside.
(** A point half a tolerance above the upper lid is on the surface for Inside, yet level rays from it get a huge negative distance. *)
Theorem C88_to_out_level_refuted : ∃ p d, vdot d d = 1 ∧ pb_inside (mk_parab 0 2 2) p = kSurface ∧ ∀ inf, pb_to_out inf (mk_parab 0 2 2) p d < - 10 ^ 20.
Proof.
  assert (HL : 0 <= 0) by lra. assert (HH : 0 < 2) by lra. exists (V3 0 0 (2 + kHalfTolerance)), (V3 1 0 0). pose proof kTolerance_pos as T. assert (TV : kTolerance = / 10 ^ 9) by (unfold kTolerance; lra). assert (T2 : kHalfTolerance = / 2 * kTolerance) by done. split; [unfold vdot; cbn; ring|].
  assert (DF : rho (V3 0 0 (2 + kHalfTolerance)) * rho (V3 0 0 (2 + kHalfTolerance)) - bowl_at 0 2 2 (2 + kHalfTolerance) = - (4 + kHalfTolerance)) by (rewrite <- rho_sqr; unfold pb_r2, bowl_at; cbn [vx vy]; field).
  split.
  - destruct (pb_inside _ _) eqn:I; [exfalso; apply inside_in in I; [|lra..]; cbn [vz] in I; rewrite Rabs_pos_eq in I; lra|done|exfalso; apply inside_out in I; [|lra..]; apply I; unfold parab_moved; cbn [vz]; rewrite Rabs_pos_eq; lra].
  - intros inf. unfold pb_to_out. change (pb_dz (mk_parab 0 2 2)) with 2. rewrite diff_eq by lra. cbn [vz vx vy]. rewrite DF. rewrite Rabs_pos_eq by lra. destruct (rgtb_spec (2 + kHalfTolerance) (2 + kTolerance)) as [|_]; [lra|]. destruct (rgtb_spec (- (4 + kHalfTolerance)) kHalfTolerance) as [|_]; [lra|].
    destruct (rgtb_spec 0 0) as [|_]; [lra|]. destruct (rltb_spec 0 0) as [|_]; [lra|]. rewrite !andb_false_r. cbn [orb]. destruct (rgtb_spec (- (4 + kHalfTolerance)) (- kTolerance)) as [|_]; [lra|]. cbn [andb]. rewrite nz_small.
    eapply Rle_lt_trans; [apply Rmin_r|]. pose proof kTiny_pos as KT. replace (2 - (2 + kHalfTolerance)) with (- (/ 2 * kTolerance)) by (rewrite T2; ring). rewrite TV. unfold kTiny. replace (- (/ 2 * / 10 ^ 9) * (1 / / 10 ^ 30)) with (- (5 * 10 ^ 20)) by (field; lra). lra.
Qed.
Print Assumptions C88_to_out_level_refuted.

(** From the middle of the bowl of radius 2 and half height 2 it is 2 upwards. *)
Example bowl_leaving inf : pb_to_out inf (mk_parab 0 2 2) vzero (V3 0 0 1) = 2 ∧ leaves (parab_solid 0 2 2) vzero (V3 0 0 1) 2.
Proof.
  assert (T : 0 < kTolerance < 1) by (unfold kTolerance; split; lra). assert (KT : 0 < kTiny < / 100) by (unfold kTiny; split; lra).
  assert (B : bowl_at 0 2 2 0 = 2) by (unfold bowl_at; field). assert (R0 : rho vzero * rho vzero = 0) by (rewrite <- rho_sqr; unfold pb_r2; cbn; ring). assert (R1 : rho (V3 0 0 1) = 0) by (unfold rho; cbn [vx vy]; replace (0 * 0 + 0 * 0) with 0 by ring; apply sqrt_0). assert (LV : leaves (parab_solid 0 2 2) vzero (V3 0 0 1) 2).
  { assert (RR : ∀ u, rho (along vzero (V3 0 0 1) u) * rho (along vzero (V3 0 0 1) u) = 0) by (intros; rewrite <- rho_sqr; unfold pb_r2, along; cbn; ring). assert (ZZ : ∀ u, vz (along vzero (V3 0 0 1) u) = u) by (intros; unfold along; cbn; ring).
    split; [lra|]. unfold parab_solid, bowl. split; intros u Hu; rewrite RR, ZZ; unfold bowl_at; [rewrite Rabs_pos_eq by lra; lra|intros [K _]; rewrite Rabs_pos_eq in K; lra]. }
  split; [|done].
  assert (A : steep 0 2 2 = 1) by (unfold steep; field).
  assert (KA : 0 < kAbsorb <= kTolerance). { unfold kAbsorb, kTolerance. split; [apply Rinv_0_lt_compat, pow_lt; lra|]. lra. }
  destruct (C88_to_out 0 2 2 inf vzero (V3 0 0 1)) as [K|[_ K]]; try rewrite A; try lra.
  - unfold vdot. cbn. ring.
  - right. cbn [vz]. rewrite Rabs_R1. lra.
  - unfold parab_solid, bowl. cbn [vz vzero]. rewrite R0, Rabs_R0. unfold vzero. cbn [vz]. lra.
  - cbn. lra.
  - intros _. rewrite R0. unfold vzero. cbn [vz]. lra.
  - destruct K as (K1 & K2 & K3), LV as (L1 & L2 & L3). set (s := pb_to_out _ _ _ _) in *. destruct (Rtotal_order s 2) as [G|[G|G]]; [|done|].
    + exfalso. apply (K3 2); [lra|]. apply L2. lra.
    + exfalso. apply (L3 s); [lra|]. apply K2. lra.
  - exfalso. unfold vzero in K. cbn [vz] in K. fold vzero in K. rewrite R0, B in K. destruct K as [[K _]|[[K _]|[K _]]]; [rewrite Rabs_left in K|rewrite Rabs_pos_eq in K|rewrite Rabs_left in K]; lra.
Qed.

(** DistanceToIn from a point not in the solid is where the ray gets into it first, or [inf] if it never does.  It is zero
    when the point is within a tolerance of a lid and the ray passes it, and when it, or the place of the ray that far points are
    first moved to, is within a tolerance of the side, continued beyond the lids, and the ray passes that. *)
Theorem C88_to_in L H Z inf p d : 0 <= L → L < H → 0 < Z → vdot d d = 1 → kAbsorb <= steep L H Z * kTolerance →
  vz d = 0 ∨ kAbsorb <= Rabs (vz d) → rho d = 0 ∨ kAbsorb <= steep L H Z * (rho d * rho d) → ¬ parab_solid L H Z p →
  let s := pb_to_in inf (mk_parab L H Z) p d in
  (0 < s ∧ parab_solid L H Z (along p d s) ∧ ∀ u, 0 <= u < s → ¬ parab_solid L H Z (along p d u)) ∨
  (s = inf ∧ ∀ u, 0 <= u → ¬ parab_solid L H Z (along p d u)) ∨
  (s = 0 ∧ ((Rabs (vz p - Z) < kTolerance ∧ rho p * rho p < H * H + kHalfTolerance ∧ vz d < 0) ∨
            (Rabs (vz p + Z) < kTolerance ∧ rho p * rho p < L * L + kHalfTolerance ∧ 0 < vz d) ∨
            ∃ u, 0 <= u ∧ (u = 0 ∨ 48 * Rmax H Z < vmag p) ∧
                 Rabs (rho (along p d u) * rho (along p d u) - bowl_at L H Z (vz (along p d u))) < kTolerance ∧ vdot d (bowl_gradient L H Z (along p d u)) < 0)).
Proof.
  intros HL HH HZ D1 D2 D3 D4 P s. destruct (ParabProofs3.to_in_spec L H Z inf HL HH HZ p d D1 D2 D3 D4 P) as [[E K]|[K|K]]; [right; right|by left|right; by left]. split; [done|].
  destruct (offset_clear L H Z HL HH HZ p d D1 P) as [O1 _]. unfold skin_in in K. destruct K as [K|[K|[K1 K2]]]; [by left|right; by left|]. right. right. set (o := pb_offset (mk_parab L H Z) p d) in *. exists o. assert (E' : along p d o = vadd p (vscale o d)) by (apply v3_eq; unfold along; cbn; ring). rewrite E'. split; [done|]. split.
  - unfold o, pb_offset. change (pb_dx (mk_parab L H Z)) with (Rmax H L). change (pb_dz (mk_parab L H Z)) with Z. rewrite (Rmax_left H L) by lra. destruct (rgtb_spec (vdot p p) (1024 * (3 / 2 * Rmax H Z) * (3 / 2 * Rmax H Z))) as [G|G]; [|by left]. right. apply Rnot_le_lt. intros N. assert (V : 0 <= vdot p p) by (unfold vdot; nra). assert (M0 : 0 <= vmag p) by (unfold vmag; apply sqrt_pos). assert (EV : vmag p * vmag p = vdot p p) by (unfold vmag; by apply sqrt_sqrt). pose proof (Rmax_r H Z). assert (vmag p * vmag p <= (48 * Rmax H Z) * (48 * Rmax H Z)) by (apply Rmult_le_compat; lra). lra.
  - rewrite gradient_spec by done. split; [apply Rabs_def1; lra|lra].
Qed.
Print Assumptions C88_to_in.
(** From a point not that far away and a tolerance off the lids and the continued side, a ray that meets the solid is given
    the length to the first point of it. *)
Theorem C88_to_in_hit L H Z inf p d v : 0 <= L → L < H → 0 < Z → vdot d d = 1 → kAbsorb <= steep L H Z * kTolerance →
  vz d = 0 ∨ kAbsorb <= Rabs (vz d) → rho d = 0 ∨ kAbsorb <= steep L H Z * (rho d * rho d) → ¬ parab_solid L H Z p →
  vmag p <= 48 * Rmax H Z → kTolerance <= Rabs (vz p - Z) → kTolerance <= Rabs (vz p + Z) → kTolerance <= Rabs (rho p * rho p - bowl_at L H Z (vz p)) →
  0 <= v → parab_solid L H Z (along p d v) →
  let s := pb_to_in inf (mk_parab L H Z) p d in 0 < s <= v ∧ parab_solid L H Z (along p d s) ∧ ∀ u, 0 <= u < s → ¬ parab_solid L H Z (along p d u).
Proof.
  intros HL HH HZ D1 D2 D3 D4 P M N1 N2 N3 V0 V s. destruct (C88_to_in L H Z inf p d HL HH HZ D1 D2 D3 D4 P) as [K|[[_ K]|[_ [K|[K|(u & U0 & U1 & U2 & _)]]]]]; [|by destruct (K v V0)|lra|lra|].
  - fold s in K. destruct K as (K1 & K2 & K3). split; [|done]. split; [done|]. apply Rnot_lt_le. intros G. apply (K3 v); [lra|done].
  - exfalso. destruct U1 as [->|U1]; [|lra]. replace (along p d 0) with p in U2 by (apply v3_eq; unfold along; cbn; ring). lra.
Qed.
Print Assumptions C88_to_in_hit.
(** On the side continued above the upper lid the distance is zero although the solid is more than 6 away along the ray. *)
Theorem C88_to_in_refuted : ∃ p d, vdot d d = 1 ∧ vz p = 7 ∧ ∀ inf, pb_to_in inf (mk_parab 0 2 2) p d = 0 ∧ ∀ u, 0 <= u → parab_solid 0 2 2 (along p d u) → 6 <= u.
Proof.
  exists (V3 3 0 7), (V3 (- 3 / 5) 0 (- 4 / 5)). split; [unfold vdot; cbn; field|]. split; [done|]. intros inf. pose proof kTolerance_pos as T. assert (T1 : kTolerance < 1) by (unfold kTolerance; lra). split.
  - assert (HL : 0 <= 0) by lra. assert (HH : 0 < 2) by lra. unfold pb_to_in. assert (O : pb_offset (mk_parab 0 2 2) (V3 3 0 7) (V3 (- 3 / 5) 0 (- 4 / 5)) = 0).
    { unfold pb_offset. change (pb_dx (mk_parab 0 2 2)) with (Rmax 2 0). change (pb_dz (mk_parab 0 2 2)) with 2. rewrite (Rmax_left 2 0), (Rmax_left 2 2) by lra. unfold vdot. cbn [vx vy vz]. destruct (rgtb_spec (3 * 3 + 0 * 0 + 7 * 7) (1024 * (3 / 2 * 2) * (3 / 2 * 2))); [lra|done]. }
    rewrite O. assert (E : vadd (V3 3 0 7) (vscale 0 (V3 (- 3 / 5) 0 (- 4 / 5))) = V3 3 0 7) by (apply v3_eq; cbn; ring). rewrite E. change (pb_dz (mk_parab 0 2 2)) with 2. rewrite diff_eq by lra. cbn [vz]. assert (DF : rho (V3 3 0 7) * rho (V3 3 0 7) - bowl_at 0 2 2 7 = 0) by (rewrite <- rho_sqr; unfold pb_r2, bowl_at; cbn [vx vy]; field). rewrite DF. rewrite Rabs_pos_eq by lra.
    destruct (rgeb_spec (7 * (- 4 / 5)) 0) as [|_]; [lra|]. rewrite andb_false_r. destruct (rltb_spec 7 (2 - kTolerance)) as [|_]; [lra|]. cbn [andb]. destruct (_ || _); [done|]. destruct (rgtb_spec 0 (- kTolerance)) as [_|]; [|lra]. destruct (rltb_spec 0 kTolerance) as [_|]; [|lra]. cbn [andb].
    assert (G : vdot (V3 (- 3 / 5) 0 (- 4 / 5)) (bowl_gradient 0 2 2 (V3 3 0 7)) < 0) by (unfold vdot, bowl_gradient, steep; cbn [vx vy vz]; lra). rewrite gradient_spec in G by lra. destruct (rltb_spec (vdot (V3 (- 3 / 5) 0 (- 4 / 5)) (pb_gradient (mk_parab 0 2 2) (V3 3 0 7))) 0) as [_|N]; [done|lra].
  - intros u Hu [S _]. unfold along in S. cbn in S. apply abs_le in S. lra.
Qed.
Print Assumptions C88_to_in_refuted.

(** Straight down the axis from the height 5. *)
Example bowl_entering inf : let s := pb_to_in inf (mk_parab 0 2 2) (V3 0 0 5) (V3 0 0 (-1)) in s = 3.
Proof.
  intros s. assert (T : 0 < kTolerance < / 100) by (unfold kTolerance; split; lra). assert (R1 : rho (V3 0 0 (-1)) = 0) by (unfold rho; cbn [vx vy]; replace (0 * 0 + 0 * 0) with 0 by ring; apply sqrt_0). assert (R0 : rho (V3 0 0 5) = 0) by (unfold rho; cbn [vx vy]; replace (0 * 0 + 0 * 0) with 0 by ring; apply sqrt_0).
  assert (A : steep 0 2 2 = 1) by (unfold steep; field). assert (KA : 0 < kAbsorb <= kTolerance). { unfold kAbsorb, kTolerance. split; [apply Rinv_0_lt_compat, pow_lt; lra|]. lra. }
  assert (RR : ∀ u, rho (along (V3 0 0 5) (V3 0 0 (-1)) u) * rho (along (V3 0 0 5) (V3 0 0 (-1)) u) = 0) by (intros; rewrite <- rho_sqr; unfold pb_r2, along; cbn; ring). assert (ZZ : ∀ u, vz (along (V3 0 0 5) (V3 0 0 (-1)) u) = 5 - u) by (intros; unfold along; cbn; ring).
  assert (V : parab_solid 0 2 2 (along (V3 0 0 5) (V3 0 0 (-1)) 3)) by (unfold parab_solid, bowl, bowl_at; rewrite RR, ZZ, Rabs_pos_eq by lra; lra).
  destruct (C88_to_in_hit 0 2 2 inf (V3 0 0 5) (V3 0 0 (-1)) 3) as ([S1 S2] & S3 & S4); try rewrite A; try lra; try done.
  - unfold vdot. cbn. ring.
  - right. cbn [vz]. rewrite Rabs_left by lra. lra.
  - intros [S _]. cbn [vz] in S. rewrite Rabs_pos_eq in S by lra. lra.
  - unfold vmag, vdot. cbn [vx vy vz]. replace (0 * 0 + 0 * 0 + 5 * 5) with (5 * 5) by ring. rewrite sqrt_square, Rmax_left by lra. lra.
  - cbn [vz]. rewrite Rabs_pos_eq; lra.
  - cbn [vz]. rewrite Rabs_pos_eq; lra.
  - rewrite R0. unfold bowl_at. cbn [vz]. rewrite Rabs_left; lra.
  - fold s in S1, S2, S3. destruct S3 as [S3 _]. rewrite ZZ in S3. apply abs_le in S3. lra.
Qed.
