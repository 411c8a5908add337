(** C88: paraboloids: classes, convexity, extent, safeties, setters. *)
From Coq Require Import Reals Lra Lia Bool ZArith Psatz.
From stdpp Require Import base list option numbers tactics.
From Verif Require Import Real3 AABBModel BoxModel BoxProofs PlanesModel PlanesProofs ConeSpec ConeProofs EllTubeProofs TubeProofs PolyconeSpec ParabModel ParabSpec ParabProofs.
Import stdpp.list.
Local Open Scope R_scope.

(** The surface goes through the rims of both lids, and the stored coefficients describe it. *)
Theorem C88_rims L H Z : 0 <= L → L < H → 0 < Z → bowl_at L H Z (- Z) = L * L ∧ bowl_at L H Z Z = H * H ∧
  ∀ z, z = pb_A (mk_parab L H Z) * bowl_at L H Z z + pb_B (mk_parab L H Z) ∧ bowl_at L H Z z = pb_k1 (mk_parab L H Z) * z + pb_k2 (mk_parab L H Z).
Proof.
  intros HL HH HZ. split; [by apply bowl_bottom|]. split; [by apply bowl_top|]. intros z. rewrite A_eq, bowl_lin by done. split; [ring|]. unfold bowl_at, mk_parab. cbn [pb_k1 pb_k2]. field. lra.
Qed.
Print Assumptions C88_rims.
(** Contains: the solid with one tolerance added at the lids and to the squared radius; all of the solid is contained. *)
Theorem C88_contains L H Z p : 0 <= L → L < H → 0 < Z →
  (pb_contains (mk_parab L H Z) p = true ↔ parab_moved L H Z kTolerance kTolerance p) ∧ (parab_solid L H Z p → pb_contains (mk_parab L H Z) p = true).
Proof.
  intros HL HH HZ. pose proof kTolerance_pos as T. split; [by apply contains_iff|]. intros [P1 P2]. apply contains_iff; [done..|]. unfold bowl in P2. split; lra.
Qed.
Print Assumptions C88_contains.
(** Inside: kInside points are in the solid without its surface, kOutside points are the ones not contained, points of the surface are kSurface. *)
Theorem C88_inside L H Z p : 0 <= L → L < H → 0 < Z → let t := mk_parab L H Z in
  (pb_inside t p = kInside ↔ Rabs (vz p) < Z - kTolerance ∧ rho p * rho p < bowl_at L H Z (vz p) - kTolerance) ∧
  (pb_inside t p = kInside → parab_core L H Z p) ∧
  (pb_inside t p = kOutside ↔ pb_contains t p = false) ∧
  (pb_inside t p = kOutside → ¬ parab_solid L H Z p) ∧
  (parab_lid L H Z true p ∨ parab_lid L H Z false p ∨ parab_side L H Z p → pb_inside t p = kSurface).
Proof.
  intros HL HH HZ t. pose proof kTolerance_pos as T. unfold t. rewrite inside_in, inside_out by done.
  assert (CO : pb_contains (mk_parab L H Z) p = false ↔ ¬ parab_moved L H Z kTolerance kTolerance p) by (rewrite <- contains_iff by done; destruct (pb_contains _ _); split; done || tauto).
  split; [done|]. split; [intros []; split; lra|]. split; [tauto|]. split; [intros N [S1 S2]; apply N; unfold bowl in S2; split; lra|].
  intros S. assert (B : bowl_at L H Z Z = H * H ∧ bowl_at L H Z (- Z) = L * L) by (split; [by apply bowl_top|by apply bowl_bottom]). destruct B as [B1 B2]. pose proof (rho_nonneg p) as R0.
  assert (ON : Rabs (vz p) <= Z ∧ rho p * rho p <= bowl_at L H Z (vz p) ∧ (Rabs (vz p) = Z ∨ rho p * rho p = bowl_at L H Z (vz p))).
  { destruct S as [[S1 S2]|[[S1 S2]|[S1 S2]]]; [| |lra]; rewrite S1, ?Rabs_Ropp, Rabs_pos_eq, ?B1, ?B2 by lra; split; [lra| |lra|]; split; try lra; nra. }
  destruct (pb_inside _ _) eqn:I; [exfalso; apply inside_in in I; [lra|done..]|done|exfalso; apply inside_out in I; [|done..]; apply I; unfold parab_moved; lra].
Qed.
Print Assumptions C88_inside.
(** The solid is convex, as the constructors say. *)
Theorem C88_convex L H Z : 0 <= L → L < H → 0 < Z → convex (parab_solid L H Z).
Proof. intros HL HH HZ p q u P Q U. by apply solid_convex. Qed.
Print Assumptions C88_convex.
(** Extent is the smallest box. *)
Theorem C88_extent L H Z : 0 <= L → L < H → 0 < Z → let '(lo, hi) := pb_extent (mk_parab L H Z) in
  (∀ p, parab_solid L H Z p → vx lo <= vx p <= vx hi ∧ vy lo <= vy p <= vy hi ∧ vz lo <= vz p <= vz hi) ∧
  (∀ s, s = 1 ∨ s = -1 → parab_solid L H Z (V3 (s * vx hi) 0 (vz hi)) ∧ parab_solid L H Z (V3 0 (s * vy hi) (vz hi)) ∧ parab_solid L H Z (V3 0 0 (s * vz hi))) ∧
  vx lo = - vx hi ∧ vy lo = - vy hi ∧ vz lo = - vz hi.
Proof.
  intros HL HH HZ. unfold pb_extent, mk_parab. cbn [pb_dx pb_dy pb_dz vx vy vz]. rewrite (Rmax_left H L) by lra. split; [|split; [|done]].
  - intros p [Pz Pb]. pose proof (bowl_range L H Z HL HH HZ _ Pz) as B. unfold bowl in Pb. rewrite <- rho_sqr in Pb. unfold pb_r2 in Pb. apply abs_le in Pz. assert (vx p * vx p <= H * H) by nra. assert (vy p * vy p <= H * H) by nra. split; [split; nra|]. split; [split; nra|lra].
  - intros s Hs. assert (SS : s * s = 1) by (destruct Hs; subst; ring). unfold parab_solid, bowl. rewrite <- !rho_sqr. unfold pb_r2. cbn [vx vy vz]. rewrite bowl_top by done.
    assert (AZ : Rabs Z <= Z) by (rewrite Rabs_pos_eq; lra). assert (AS : Rabs (s * Z) <= Z) by (rewrite Rabs_mult, (Rabs_pos_eq Z) by lra; destruct Hs; subst; [rewrite Rabs_R1|rewrite Rabs_left by lra]; lra).
    pose proof (bowl_range L H Z HL HH HZ _ AS) as B. split; [split; [done|]; nra|]. split; [split; [done|]; nra|]. split; [done|]. nra.
Qed.
Print Assumptions C88_extent.
(** SafetyToIn never exceeds the distance to the solid, so it is not positive in it. *)
Theorem C88_safety_in L H Z p : 0 <= L → L < H → 0 < Z → (∀ q, parab_solid L H Z q → pb_safety_in (mk_parab L H Z) p <= vdist p q) ∧
  (parab_solid L H Z p → pb_safety_in (mk_parab L H Z) p <= 0).
Proof.
  intros HL HH HZ. split; [intros q Q; by apply safety_in_le|]. intros P. pose proof (safety_in_le L H Z HL HH HZ p p P) as S. assert (E : vdist p p = 0) by (unfold vdist, vmag, vdot, vsub; cbn; replace ((vx p - vx p) * (vx p - vx p) + (vy p - vy p) * (vy p - vy p) + (vz p - vz p) * (vz p - vz p)) with 0 by ring; apply sqrt_0). lra.
Qed.
Print Assumptions C88_safety_in.
(** Away from the skin it is at least the height above the lid, and the distance to the tangent cone when the point is 1e-8
    beyond the side. *)
Theorem C88_safety_in_far L H Z p : 0 <= L → L < H → 0 < Z → Z + kTolerance <= Rabs (vz p) ∨ 0 <= rho p * rho p - bowl_at L H Z (vz p) → ¬ Rabs (Rabs (vz p) - Z) < kTolerance →
  kTolerance <= Rabs (steep L H Z * (rho p * rho p - bowl_at L H Z (vz p))) →
  Rabs (vz p) - Z <= pb_safety_in (mk_parab L H Z) p ∧
  ∀ r, 0 <= r → r * r = bowl_at L H Z (vz p) → / 100000000 <= rho p - r →
    pb_safety_in (mk_parab L H Z) p = Rmax ((rho p - r) * (2 * steep L H Z * r / R_sqrt.sqrt (1 + (2 * steep L H Z * r) * (2 * steep L H Z * r)))) (Rabs (vz p) - Z).
Proof.
  intros HL HH HZ Far NL NS. pose proof kTolerance_pos as T. assert (T2 : 0 < kHalfTolerance) by (unfold kHalfTolerance; lra). pose proof (A_pos L H Z HL HH HZ) as HA. unfold pb_safety_in. change (pb_dz (mk_parab L H Z)) with Z.
  unfold pb_on_side. rewrite value_eq by done. set (V := steep L H Z * (rho p * rho p - bowl_at L H Z (vz p))) in *.
  assert (I : rltb (Rabs (vz p)) (Z - kTolerance) && rltb V (- kHalfTolerance) = false). { destruct (rltb_spec (Rabs (vz p)) (Z - kTolerance)); [|done]. destruct (rltb_spec V (- kHalfTolerance)); [|done]. destruct Far as [F|F]; [lra|]. assert (0 <= V) by (unfold V; apply Rmult_le_pos; lra). lra. }
  rewrite I. assert (OL : pb_on_lid (mk_parab L H Z) p = false). { unfold pb_on_lid. change (pb_dz (mk_parab L H Z)) with Z. destruct (rltb_spec (Rabs (Rabs (vz p) - Z)) kTolerance); [lra|done]. } rewrite OL.
  assert (OS : rgtb V (- kTolerance) && rltb V kTolerance = false). { destruct (rgtb_spec V (- kTolerance)); [|done]. destruct (rltb_spec V kTolerance); [|done]. exfalso. assert (Rabs V < kTolerance) by (apply Rabs_def1; lra). lra. } rewrite OS.
  rewrite r0_eq by done. rewrite rho_sqr, sqrt_square by apply rho_nonneg. rewrite A_eq by done. split.
  - destruct (rltb (bowl_at L H Z (vz p)) 0); [lra|]. destruct (rltb _ (/ 100000000)); [lra|]. apply Rmax_r.
  - intros r R0 R2 G. destruct (rltb_spec (bowl_at L H Z (vz p)) 0); [exfalso; pose proof (Rle_0_sqr r) as SQ; unfold Rsqr in SQ; lra|]. rewrite <- R2, sqrt_square by done. destruct (rltb_spec (rho p - r) (/ 100000000)); [lra|]. f_equal.
    assert (G0 : 0 < / 100000000) by (apply Rinv_0_lt_compat; lra). set (m := 2 * steep L H Z * r). assert (M0 : 0 <= m) by (unfold m; apply Rmult_le_pos; lra). replace ((Ropp 2) * steep L H Z * r) with (- m) by (unfold m; ring). replace (- m * - m) with (m * m) by ring.
    assert (S : 0 < R_sqrt.sqrt (1 + m * m)) by (apply sqrt_lt_R0; nra). replace ((rho p - r) * (- m / R_sqrt.sqrt (1 + m * m))) with (- ((rho p - r) * (m / R_sqrt.sqrt (1 + m * m)))) by (field; lra). rewrite Rabs_Ropp. apply Rabs_pos_eq. apply Rmult_le_pos; [lra|]. apply Rmult_le_pos; [done|]. left. by apply Rinv_0_lt_compat.
Qed.
Print Assumptions C88_safety_in_far.
(** SafetyToOut never exceeds the distance to the outside, and is not negative in the solid. *)
Theorem C88_safety_out L H Z p : 0 <= L → L < H → 0 < Z → (∀ q, ¬ parab_solid L H Z q → pb_safety_out (mk_parab L H Z) p <= vdist p q) ∧
  (parab_solid L H Z p → 0 <= pb_safety_out (mk_parab L H Z) p).
Proof. intros HL HH HZ. split; [intros q Q; by apply safety_out_le|by apply safety_out_sign]. Qed.
Print Assumptions C88_safety_out.
(** A wider lower lid is accepted, but turns the tests of the safeties round: points well inside are outside for SafetyToOut,
    and points far outside for SafetyToIn are inside. *)
Theorem C88_safety_wide_bottom_refuted : ¬ (∀ L H Z p, 0 <= L → 0 <= H → L ≠ H → 0 < Z → pb_inside (mk_parab L H Z) p = kInside → 0 <= pb_safety_out (mk_parab L H Z) p) ∧
  ¬ (∀ L H Z p, 0 <= L → 0 <= H → L ≠ H → 0 < Z → pb_inside (mk_parab L H Z) p = kOutside → 0 <= pb_safety_in (mk_parab L H Z) p).
Proof.
  assert (KT : 0 < kTolerance <= 1 / 1000) by (unfold kTolerance; lra). assert (KH : kHalfTolerance = kTolerance / 2) by (unfold kHalfTolerance; field). split; intros C.
  - specialize (C 2 0 2 (V3 0 0 0) ltac:(lra) ltac:(lra) ltac:(lra) ltac:(lra)).
    assert (D : pb_diff (mk_parab 2 0 2) (V3 0 0 0) = -2) by (unfold pb_diff, pb_r2, mk_parab; cbn; field). assert (V : pb_value (mk_parab 2 0 2) (V3 0 0 0) = 2) by (unfold pb_value, pb_r2, mk_parab; cbn; field).
    unfold pb_inside, pb_kernel, pb_safety_out in C. rewrite D, V in C. cbn [mk_parab pb_dz vz] in C. rewrite Rabs_R0 in C.
    destruct (rgtb_spec 0 (2 + kTolerance)); [lra|]. destruct (rgtb_spec (-2) kTolerance); [lra|]. destruct (rltb_spec 0 (2 - kTolerance)); [|lra]. destruct (rltb_spec (-2) (- kTolerance)); [|lra]. destruct (rgtb_spec 2 kHalfTolerance); [|lra]. specialize (C eq_refl). lra.
  - specialize (C 2 0 2 (V3 10 0 0) ltac:(lra) ltac:(lra) ltac:(lra) ltac:(lra)).
    assert (D : pb_diff (mk_parab 2 0 2) (V3 10 0 0) = 98) by (unfold pb_diff, pb_r2, mk_parab; cbn; field). assert (V : pb_value (mk_parab 2 0 2) (V3 10 0 0) = -98) by (unfold pb_value, pb_r2, mk_parab; cbn; field).
    unfold pb_inside, pb_kernel, pb_safety_in in C. rewrite D, V in C. cbn [mk_parab pb_dz vz] in C. rewrite Rabs_R0 in C.
    destruct (rgtb_spec 0 (2 + kTolerance)); [lra|]. destruct (rgtb_spec 98 kTolerance); [|lra]. destruct (rltb_spec 0 (2 - kTolerance)); [|lra]. destruct (rltb_spec (-98) (- kHalfTolerance)); [|lra]. specialize (C eq_refl). cbn [andb] in C. lra.
Qed.
Print Assumptions C88_safety_wide_bottom_refuted.
(** Setters: sizes in range give what the constructor gives, others change nothing. *)
Theorem C88_set t L H Z : (0 <= L ∧ 0 <= H ∧ 0 < Z → pb_set t L H Z = mk_parab L H Z) ∧ (L < 0 ∨ H < 0 ∨ Z <= 0 → pb_set t L H Z = t) ∧
  pb_set_rlo t L = pb_set t L (pb_rhi t) (pb_dz t) ∧ pb_set_rhi t H = pb_set t (pb_rlo t) H (pb_dz t) ∧ pb_set_dz t Z = pb_set t (pb_rlo t) (pb_rhi t) Z.
Proof.
  unfold pb_set_rlo, pb_set_rhi, pb_set_dz, pb_set. split; [|split; [|done]].
  - intros (A & B & C). destruct (rltb_spec L 0); [lra|]. destruct (rltb_spec H 0); [lra|]. destruct (rleb_spec Z 0); [lra|]. done.
  - intros N. destruct (rltb_spec L 0); [done|]. destruct (rltb_spec H 0); [done|]. destruct (rleb_spec Z 0); [done|]. lra.
Qed.
Print Assumptions C88_set.
(** The paraboloid r^2 <= z + 2 between -2 and 2: radii 0 and 2. *)
Example bowl_two p : pb_contains (mk_parab 0 2 2) p = true ↔ Rabs (vz p) <= 2 + kTolerance ∧ rho p * rho p <= vz p + 2 + kTolerance.
Proof. destruct (C88_contains 0 2 2 p) as [-> _]; [lra..|]. unfold parab_moved, bowl_at. replace (0 * 0 + (2 * 2 - 0 * 0) * ((vz p + 2) / (2 * 2))) with (vz p + 2) by field. done. Qed.
(** Its middle is kInside, its safety to the outside positive and at most 2. *)
Example bowl_middle : pb_inside (mk_parab 0 2 2) vzero = kInside ∧ 0 <= pb_safety_out (mk_parab 0 2 2) vzero <= R_sqrt.sqrt 2 * 2.
Proof.
  assert (KT : 0 < kTolerance <= 1 / 1000) by (unfold kTolerance; lra). assert (B : bowl_at 0 2 2 0 = 2) by (unfold bowl_at; field). assert (R0 : rho vzero = 0) by (unfold rho; cbn; replace (0 * 0 + 0 * 0) with 0 by ring; apply sqrt_0). split.
  - destruct (C88_inside 0 2 2 vzero) as [I _]; [lra..|]. cbv zeta in I. apply I. cbn [vzero vz]. rewrite R0, B, Rabs_R0. lra.
  - destruct (C88_safety_out 0 2 2 vzero) as [S1 S2]; [lra..|]. split; [apply S2; split; [cbn; rewrite Rabs_R0; lra|]; unfold bowl; rewrite R0; cbn [vzero vz]; rewrite B; lra|].
    assert (N : ¬ parab_solid 0 2 2 (V3 2 2 0)). { intros [_ N]. unfold bowl in N. rewrite <- rho_sqr in N. unfold pb_r2 in N. cbn [vx vy vz] in N. rewrite B in N. lra. } specialize (S1 _ N). unfold vdist, vmag, vdot, vsub in S1. cbn [vzero vx vy vz] in S1. replace ((0 - 2) * (0 - 2) + (0 - 2) * (0 - 2) + (0 - 0) * (0 - 0)) with (2 * (2 * 2)) in S1 by ring. rewrite sqrt_mult, sqrt_square in S1 by lra. lra.
Qed.
