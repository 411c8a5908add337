(** Cones: points, classes and safeties (C78). *)
From Coq Require Import Reals Lra Lia Bool.
From stdpp Require Import base list option numbers tactics.
From Verif Require Import Real3 AABBModel BoxModel ConeModel ConeSpec ConeProofs PolyconeModel PolyconeSpec PolyconeProofs PolyconeProofs2 PolyconeProofs3 PolyconeProofs4 PolyconeProofs5 PolyconeProofs6 PolyconeProofs7.
Import stdpp.list.
Local Open Scope R_scope.

Section C78.
Variables (t : cone_type) (m1 M1 m2 M2 dz dphi : R) (w : wedge_ops) (W : R → R → Prop).
Hypothesis Hdz : 0 < dz.
Hypothesis H1 : 0 <= m1 < M1.
Hypothesis H2 : 0 <= m2 < M2.
Hypothesis Hfits : fits t m1 m2 dphi.
Let c := mk_cone m1 M1 m2 M2 dz dphi w.
Let in_cone (p : v3) : Prop := cone_section (- dz) m1 M1 dz m2 M2 p ∧ in_phi dphi W p.

(** Contains is membership, given the phi section decides its set. *)
Theorem C78_contains p : wedge_decides w W → cone_contains t c p = true ↔ in_cone p.
Proof using Hdz H1 H2 Hfits. intros Hw. by apply cone_contains_section. Qed.
(** kOutside is never said of a point of the cone, where the radius of the hole is at least its radial tolerance. *)
Theorem C78_outside_partial p : wedge_tolerant w W →
  (0 < m1 ∨ 0 < m2 → tilted (- dz) m1 dz m2 <= line (- dz) m1 dz m2 (vz p)) → cone_inside t c p = kOutside → ¬ in_cone p.
Proof using Hdz H1 H2 Hfits. intros Hw. by apply cone_inside_out. Qed.
(** kInside is only said of points of the cone, where the outer radius is at least its radial tolerance. *)
Theorem C78_inside_partial p : wedge_tolerant w W →
  tilted (- dz) M1 dz M2 <= line (- dz) M1 dz M2 (vz p) → cone_inside t c p = kInside → in_cone p.
Proof using Hdz H1 H2 Hfits. intros Hw. by apply cone_inside_in. Qed.
(** The safeties do not exceed the distance to any point of the cone, or to any point outside of it. *)
Theorem C78_safety_in p q : wedge_safe w W → in_cone q → cone_safety_in t c p <= vdist p q.
Proof using Hdz H1 H2 Hfits. intros Hw. by apply cone_safety_in_le. Qed.
(** The capacity is the integral over z of the area of the cross section. *)
Theorem C78_capacity : ∃ F : R → R,
  (∀ z, derivable_pt_lim F z (checked_dphi dphi / 2 * (line (- dz) M1 dz M2 z * line (- dz) M1 dz M2 z - line (- dz) m1 dz m2 z * line (- dz) m1 dz m2 z))) ∧
  cone_capacity c = F dz - F (- dz).
Proof using Hdz H1 H2. by apply capacity_integral. Qed.
Theorem C78_safety_out p q : wedge_safe w W → in_cone p → ¬ in_cone q → cone_safety_out t c p <= vdist p q.
Proof using Hdz H1 H2 Hfits. intros Hw. by apply cone_safety_out_le. Qed.
End C78.
(** Near the tip of a conical hole a point that is contained is called kOutside: the square of a negative radius is taken. *)
Theorem C78_tip_refuted : ∃ c p, c = mk_cone 0 5 3 5 2 (2 * PI) no_wedge ∧
  cone_contains UniversalCone c p = true ∧ cone_inside UniversalCone c p = kOutside.
Proof. exact tip_disagrees. Qed.

(** A half turn, the half plane 0 <= y, as phi section. *)
Definition half_plane (x y : R) : Prop := 0 <= y.
Definition half_wedge : wedge_ops :=
  WedgeOps (λ fi x y, (rgtb y (if fi then / 1000000000 else 0), rltb y (if fi then - / 1000000000 else 0))) (λ x y, rgeb y 0) (λ x y, - y) (λ x y, y).
Lemma plane_dist_y x y x' y' : Rabs (y - y') <= plane_dist x y x' y'.
Proof.
  unfold plane_dist. rewrite <- sqrt_Rsqr_abs. apply sqrt_le_1_alt. unfold Rsqr. pose proof (Rle_0_sqr (x - x')) as H. unfold Rsqr in H. lra.
Qed.
Example half_decides : wedge_decides half_wedge half_plane.
Proof. intros x y. cbn. unfold half_plane. destruct (rltb_spec y 0); split; intros; try done; lra. Qed.
Example half_safe : wedge_safe half_wedge half_plane.
Proof.
  unfold half_plane. split; intros x y x' y'; cbn; [intros Hy|intros Hy Hy']; (eapply Rle_trans; [|apply plane_dist_y]).
  - rewrite Rabs_minus_sym. eapply Rle_trans; [|apply Rle_abs]. lra.
  - eapply Rle_trans; [|apply Rle_abs]. lra.
Qed.
Example half_tolerant : wedge_tolerant half_wedge half_plane.
Proof.
  unfold half_plane. split; intros x y; cbn.
  - destruct (rgtb_spec y (/ 1000000000)); [|done]. intros _. lra.
  - destruct (rltb_spec y (- / 1000000000)); [|done]. intros _. lra.
Qed.
(** Half of a hollow cone: a point in it, a point of the other half, a point in the hole. *)
Definition half_cone : cone := mk_cone 1 3 2 4 1 PI half_wedge.
Example half_cone_hyps : fits HollowSector 1 2 PI ∧ 0 < 1 ∧ 0 <= 1 < 3 ∧ 0 <= 2 < 4.
Proof. pose proof PI2_1. cbn. repeat split; try lra. Qed.
Lemma half_phi p : in_phi PI half_plane p ↔ 0 <= vy p.
Proof. unfold in_phi, half_plane. pose proof PI2_1. split; [intros K; apply K; lra|by intros]. Qed.
Example half_cone_points : cone_contains HollowSector half_cone (V3 0 2 0) = true ∧ cone_contains HollowSector half_cone (V3 0 (-2) 0) = false ∧
  cone_contains HollowSector half_cone (V3 0 1 0) = false.
Proof.
  destruct half_cone_hyps as (Hf & Hz & A & B). pose proof (λ p, C78_contains HollowSector 1 3 2 4 1 PI half_wedge half_plane Hz A B Hf p half_decides) as K.
  fold half_cone in K. assert (Hr : ∀ y, 0 <= y → rho (V3 0 y 0) = y) by (intros y Hy; unfold rho; cbn; rewrite Rmult_0_l, Rplus_0_l; by apply sqrt_square).
  assert (L1 : line (- (1)) 3 1 4 0 = 7 / 2) by (unfold line; field). assert (L2 : line (- (1)) 1 1 2 0 = 3 / 2) by (unfold line; field).
  split; [|split].
  - apply K. rewrite half_phi. cbn. split; [|lra]. split; [cbn; lra|]. cbn [vz]. rewrite L1, L2, Hr by lra. split; [lra|intros _; lra].
  - apply not_true_is_false. rewrite K, half_phi. cbn. intros [_ ?]. lra.
  - apply not_true_is_false. rewrite K. intros [(_ & _ & H) _]. specialize (H ltac:(left; lra)). cbn [vz] in H. rewrite L2, Hr in H by lra. lra.
Qed.
Print Assumptions C78_contains.
Print Assumptions C78_outside_partial.
Print Assumptions C78_inside_partial.
Print Assumptions C78_safety_in.
Print Assumptions C78_safety_out.
Print Assumptions C78_tip_refuted.
Print Assumptions C78_capacity.
