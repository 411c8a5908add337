(** Orbs (C46). *)
From Coq Require Import Reals Lra Lia Bool.
From stdpp Require Import base tactics.
From Verif Require Import Real3 BoxModel OrbModel OrbSpec OrbProofs.
Local Open Scope R_scope.

Section C46.
Variables (inf r : R) (p d : v3).
Hypothesis Hr : 0 < r.
Hypothesis Hd : vdot d d = 1.
(** From outside the tolerance: the first place of the ray in the ball, or infinity when it never gets there. *)
Theorem C46_to_in : r + kTolerance < vdist p vzero →
  first_in (ball r) p d (orb_to_in inf r p d) ∨ (orb_to_in inf r p d = inf ∧ ∀ u, 0 <= u → ¬ ball r (along p d u)).
Proof using Hr Hd.
  rewrite dist_zero. intros Hp. pose proof kTolerance_pos. destruct (to_in_outside inf r p d Hr Hd ltac:(lra)) as [H1|[(H1 & _)|H1]]; [by left|lra|by right].
Qed.
(** Within the tolerance outside the ball: 0 when it heads inwards, else infinity, and then it never gets there. *)
Theorem C46_to_in_shell : r < vdist p vzero <= r + kTolerance →
  (vdot p d < 0 ∧ orb_to_in inf r p d = 0) ∨ first_in (ball r) p d (orb_to_in inf r p d) ∨ (orb_to_in inf r p d = inf ∧ ∀ u, 0 <= u → ¬ ball r (along p d u)).
Proof using Hr Hd.
  rewrite dist_zero. intros Hp. destruct (to_in_outside inf r p d Hr Hd ltac:(lra)) as [H1|[(_ & H1)|H1]]; [right; by left|by left|right; by right].
Qed.
(** From inside, deeper than the tolerance: the one place where the ray leaves the ball. *)
Theorem C46_to_out : vdist p vzero < r - kTolerance → last_in (ball r) p d (orb_to_out inf r p d).
Proof using Hr Hd.
  rewrite dist_zero. intros Hp. pose proof kTolerance_pos. destruct (to_out_inside inf r p d Hr Hd ltac:(lra)) as [H1|(H1 & _)]; [done|lra].
Qed.
(** Within the tolerance below the surface: the same, or 0 when it heads outwards; the exit is then at most sqrt (2 r kTolerance) off. *)
Theorem C46_to_out_shell : r - kTolerance <= vdist p vzero <= r →
  last_in (ball r) p d (orb_to_out inf r p d) ∨ (0 < vdot p d ∧ orb_to_out inf r p d = 0 ∧ ∃ E, last_in (ball r) p d E ∧ E * E <= 2 * r * kTolerance).
Proof using Hr Hd.
  rewrite dist_zero. intros Hp. destruct (to_out_inside inf r p d Hr Hd ltac:(lra)) as [H1|(_ & H1)]; [by left|by right].
Qed.
(** Within the tolerance above the surface, heading inwards: infinity when the ray misses the ball, else the last place on the sphere. *)
Theorem C46_to_out_above : r < vdist p vzero <= r + kTolerance → vdot p d <= 0 →
  (orb_to_out inf r p d = inf ∧ ∀ u, ¬ ball r (along p d u)) ∨
  (0 <= orb_to_out inf r p d ∧ sphere r (along p d (orb_to_out inf r p d)) ∧ ∀ u, orb_to_out inf r p d < u → ¬ ball r (along p d u)).
Proof using Hr Hd. rewrite dist_zero. by apply to_out_shell. Qed.
(** The marker of the wrong side. *)
Theorem C46_wrong_side : (vdist p vzero < r - kTolerance → orb_to_in inf r p d = -1 ∧ orb_safety_in r p = -1) ∧
  (r + kTolerance < vdist p vzero → orb_to_out inf r p d = -1 ∧ orb_safety_out r p = -1).
Proof using.
  rewrite dist_zero. unfold orb_to_in, orb_safety_in, orb_to_out, orb_safety_out. cbn zeta. split; intros K.
  - destruct (rltb_spec (vmag p) (r - kTolerance)); [done|lra].
  - destruct (rgtb_spec (vmag p) (r + kTolerance)); [done|lra].
Qed.
(** Classes. *)
Theorem C46_inside : kTolerance <= r →
  (orb_inside r p = kInside ↔ vdist p vzero <= r - kTolerance) ∧ (orb_inside r p = kOutside ↔ r + kTolerance <= vdist p vzero) ∧
  (orb_inside r p = kSurface ↔ r - kTolerance < vdist p vzero < r + kTolerance).
Proof using.
  intros Hk. pose proof kTolerance_pos. pose proof (inside_cases r p Hk) as K. destruct (orb_inside r p); repeat split; intros; try done; try lra.
Qed.
Theorem C46_contains : orb_contains r p = true ↔ vdist p vzero < r + kTolerance.
Proof using Hr. apply contains_iff. lra. Qed.
(** The safeties never exceed the distance, and are the distance away from the surface. *)
Theorem C46_safety q : (ball r q → orb_safety_in r p <= vdist p q) ∧ (¬ ball r q → orb_safety_out r p <= vdist p q).
Proof using. split; [apply safety_in_le|apply safety_out_le]. Qed.
Theorem C46_safety_tight e : 0 < e →
  (r + kTolerance <= vdist p vzero → ∃ q, ball r q ∧ vdist p q = orb_safety_in r p) ∧
  (vdist p vzero <= r - kTolerance → ∃ q, ¬ ball r q ∧ vdist p q < orb_safety_out r p + e).
Proof using Hr. rewrite dist_zero. intros He. split; intros K; [apply safety_in_tight; lra|by apply safety_out_tight]. Qed.
(** The normal is valid near the surface; it is a unit vector, and the ball through the point is on its far side. *)
Theorem C46_normal q : kTolerance < r →
  ((orb_normal r p).1 = true ↔ r - kTolerance <= vdist p vzero <= r + kTolerance) ∧
  ((orb_normal r p).1 = true → vdist (orb_normal r p).2 vzero = 1 ∧ (ball (vdist p vzero) q → vdot (orb_normal r p).2 (vsub q p) <= 0)).
Proof using.
  intros Hk. rewrite !dist_zero. rewrite (normal_valid r p) by lra. split; [done|]. intros K.
  split; [apply normal_unit; lra|]. unfold ball. rewrite dist_zero. intros Hq. apply normal_supports; lra.
Qed.
(** The extent bounds the ball and is touched on all sides. *)
Theorem C46_extent : (∀ q, ball r q → in_box (o_min (mk_orb r)) (o_max (mk_orb r)) q) ∧
  ball r (V3 r 0 0) ∧ ball r (V3 (- r) 0 0) ∧ ball r (V3 0 r 0) ∧ ball r (V3 0 (- r) 0) ∧ ball r (V3 0 0 r) ∧ ball r (V3 0 0 (- r)).
Proof using Hr.
  split; [intros q; apply extent_bounds|]. repeat split; apply ball_sqr; try lra; unfold vdot; cbn; nra.
Qed.
(** Sampled points are on the sphere, and every point of the sphere can be sampled. *)
Theorem C46_sample : (∀ phi ct, -1 <= ct <= 1 → sphere r (sample_point r phi ct)) ∧
  ∀ q, sphere r q → ∃ phi ct, 0 <= phi < 2 * PI ∧ -1 <= ct <= 1 ∧ sample_point r phi ct = q.
Proof using Hr. split; [intros; apply sample_on_sphere; lra|intros; by apply sample_onto]. Qed.
End C46.
(** The setter renews the volume, the area and the tolerance as the constructor would. *)
Theorem C46_setter o r : o_r (set_radius o r) = r ∧ o_volume (set_radius o r) = o_volume (mk_orb r) ∧ o_area (set_radius o r) = o_area (mk_orb r) ∧
  o_rtol (set_radius o r) = o_rtol (mk_orb r).
Proof. done. Qed.
(** But it leaves the bounding box: points of the larger ball are outside of it. *)
Theorem C46_setter_refuted : let o := set_radius (mk_orb 1) 2 in ball (o_r o) (V3 2 0 0) ∧ ¬ in_box (o_min o) (o_max o) (V3 2 0 0).
Proof. cbn. split; [apply ball_sqr; [lra|]; unfold vdot; cbn; lra|]. unfold in_box. cbn. lra. Qed.
Lemma mag_x x : 0 <= x → vmag (V3 x 0 0) = x.
Proof. intros. unfold vmag, vdot. cbn. rewrite !Rmult_0_l, !Rplus_0_r. by apply sqrt_square. Qed.
(** A contained point, on the surface, from which the distance to the outside is infinite. *)
Theorem C46_graze_refuted inf : let p := V3 (1 + kTolerance / 2) 0 0 in let d := V3 0 1 0 in
  orb_contains 1 p = true ∧ orb_inside 1 p = kSurface ∧ orb_to_out inf 1 p d = inf.
Proof.
  cbn zeta. assert (Hk : 0 < kTolerance < / 10) by (unfold kTolerance; lra). assert (Hm : vmag (V3 (1 + kTolerance / 2) 0 0) = 1 + kTolerance / 2) by (apply mag_x; lra).
  split; [apply C46_contains; rewrite ?dist_zero; lra|]. split; [apply C46_inside; rewrite ?dist_zero; lra|].
  destruct (C46_to_out_above inf 1 (V3 (1 + kTolerance / 2) 0 0) (V3 0 1 0)) as [[E _]|(_ & E & _)]; [lra|unfold vdot; cbn; ring|rewrite dist_zero; lra|unfold vdot; cbn; lra|done|].
  exfalso. assert (Hb : ball 1 (along (V3 (1 + kTolerance / 2) 0 0) (V3 0 1 0) (orb_to_out inf 1 (V3 (1 + kTolerance / 2) 0 0) (V3 0 1 0)))) by (unfold ball; rewrite E; lra).
  apply along_ball in Hb; [|lra|unfold vdot; cbn; ring]. unfold vdot in Hb; cbn in Hb. set (u := orb_to_out _ _ _ _) in *. nra.
Qed.
(** A point on the surface from which the distance to the inside is negative, and not the marker. *)
Theorem C46_negative_refuted inf : let p := V3 (1 - kTolerance / 2) 0 0 in let d := V3 0 1 0 in
  orb_inside 1 p = kSurface ∧ -1 < orb_to_in inf 1 p d < - (100 * kTolerance).
Proof.
  cbn zeta. assert (Hk : kTolerance = / 1000000000) by done. assert (Hm : vmag (V3 (1 - kTolerance / 2) 0 0) = 1 - kTolerance / 2) by (apply mag_x; lra).
  split; [apply C46_inside; rewrite ?dist_zero; lra|]. unfold orb_to_in. cbn zeta. rewrite Hm. unfold detect. cbn zeta.
  assert (E1 : vdot (V3 (1 - kTolerance / 2) 0 0) (V3 0 1 0) = 0) by (unfold vdot; cbn; ring). rewrite E1.
  assert (E2 : vdot (V3 (1 - kTolerance / 2) 0 0) (V3 (1 - kTolerance / 2) 0 0) = (1 - kTolerance / 2) * (1 - kTolerance / 2)) by (unfold vdot; cbn; ring). rewrite E2.
  destruct (rltb_spec (1 - kTolerance / 2) (1 - kTolerance)); [lra|]. destruct (rltb_spec 0 0); [lra|]. rewrite andb_false_r.
  set (q := 0 * 0 - _). assert (Hq : 0 < q < 1 ∧ 100 * kTolerance * (100 * kTolerance) < q) by (unfold q; nra). destruct (rgeb_spec q 0); [|lra]. destruct (rleb_spec 0 0); [|lra]. cbn [andb].
  rewrite Rabs_pos_eq by lra. pose proof (sqrt_sqrt q ltac:(lra)). pose proof (sqrt_pos q). split.
  - assert (sqrt q < 1) by (apply sqr_lt_lt; lra). lra.
  - assert (100 * kTolerance < sqrt q) by (apply sqr_lt_lt; lra). lra.
Qed.
(** A ball smaller than the tolerance: points outside of it are called inside. *)
Theorem C46_small_refuted : let r := kTolerance / 4 in let p := V3 (kTolerance / 2) 0 0 in orb_inside r p = kInside ∧ ¬ ball r p.
Proof.
  cbn zeta. assert (Hk : 0 < kTolerance) by apply kTolerance_pos. split.
  - unfold orb_inside, orb_kernel. cbn zeta. destruct (rleb_spec (vdot (V3 (kTolerance / 2) 0 0) (V3 (kTolerance / 2) 0 0)) ((kTolerance / 4 - kTolerance) * (kTolerance / 4 - kTolerance))) as [H|H]; [done|].
    exfalso. apply H. unfold vdot. cbn. nra.
  - unfold ball. rewrite dist_zero, mag_x; lra.
Qed.
(** A hit from outside, an exit from inside, a miss. *)
Example orb_rays inf : orb_to_in inf 2 (V3 5 0 0) (V3 (-1) 0 0) = 3 ∧ orb_to_out inf 2 (V3 1 0 0) (V3 1 0 0) = 1 ∧ orb_to_in inf 2 (V3 5 0 0) (V3 0 1 0) = inf ∧
  orb_safety_in 2 (V3 5 0 0) = 3 ∧ orb_safety_out 2 (V3 1 0 0) = 1.
Proof.
  assert (Hk : 0 < kTolerance < / 10) by (unfold kTolerance; lra).
  assert (M5 : vmag (V3 5 0 0) = 5) by (apply mag_x; lra). assert (M1 : vmag (V3 1 0 0) = 1) by (apply mag_x; lra).
  assert (S4 : sqrt (Rabs (-5 * -5 - (25 - 2 * 2))) = 2). { replace (-5 * -5 - (25 - 2 * 2)) with 4 by ring. rewrite Rabs_pos_eq by lra. replace 4 with (2 * 2) by ring. apply sqrt_square. lra. }
  assert (S1 : sqrt (Rabs (1 * 1 - (1 - 2 * 2))) = 2). { replace (1 * 1 - (1 - 2 * 2)) with 4 by ring. rewrite Rabs_pos_eq by lra. replace 4 with (2 * 2) by ring. apply sqrt_square. lra. }
  unfold orb_to_in, orb_to_out, orb_safety_in, orb_safety_out, detect, on_shell. cbn zeta. rewrite M5, M1.
  assert (V1 : vdot (V3 5 0 0) (V3 (-1) 0 0) = -5) by (unfold vdot; cbn; ring). assert (V2 : vdot (V3 5 0 0) (V3 5 0 0) = 25) by (unfold vdot; cbn; ring).
  assert (V3' : vdot (V3 1 0 0) (V3 1 0 0) = 1) by (unfold vdot; cbn; ring). assert (V4 : vdot (V3 5 0 0) (V3 0 1 0) = 0) by (unfold vdot; cbn; ring).
  rewrite V1, V2, V3', V4, S4, S1. repeat split; rcase; cbn [andb]; lra.
Qed.
Print Assumptions C46_to_in.
Print Assumptions C46_to_in_shell.
Print Assumptions C46_to_out.
Print Assumptions C46_to_out_shell.
Print Assumptions C46_to_out_above.
Print Assumptions C46_wrong_side.
Print Assumptions C46_inside.
Print Assumptions C46_contains.
Print Assumptions C46_safety.
Print Assumptions C46_safety_tight.
Print Assumptions C46_normal.
Print Assumptions C46_extent.
Print Assumptions C46_sample.
Print Assumptions C46_setter.
Print Assumptions C46_setter_refuted.
Print Assumptions C46_graze_refuted.
Print Assumptions C46_negative_refuted.
Print Assumptions C46_small_refuted.
