(** C45: scaled shapes.  See properties.jsonl. *)
From Coq Require Import Reals Lra Lia Bool.
From stdpp Require Import base tactics.
From Verif Require Import Real3 BoxModel OrbModel OrbSpec PropOrb ScaledModel ScaledSpec ScaledProofs.
Local Open Scope R_scope.

Section C45.
(** Any scale, negative factors included, any shape and any set it stands for. *)
Variable (k : v3) (sh : shape) (S : v3 → Prop) (inf : R) (p : v3).
Hypothesis Hk : proper k.
Let K := update k.
(** Points and classes are those of the unscaled shape. *)
Theorem C45_contains : (∀ q, sh_contains sh q = true ↔ S q) → sc_contains K sh p = true ↔ scaled k S p.
Proof using Hk. intros H. rewrite (scaled_iff k Hk). apply H. Qed.
Theorem C45_inside : (∀ q, sh_inside sh q = kInside → S q) → (∀ q, sh_inside sh q = kOutside → ¬ S q) →
  (sc_inside K sh p = kInside → scaled k S p) ∧ (sc_inside K sh p = kOutside → ¬ scaled k S p).
Proof using Hk. intros A B. rewrite (scaled_iff k Hk). split; [apply A|apply B]. Qed.
(** Ray distances: with a right distance of the unscaled shape along the unscaled ray up to the unscaled limit, the scaled one is
    the distance to the scaled set, or infinity and there is no hit up to the limit. *)
Theorem C45_to_in d smax : unit d →
  right_in inf S (transform K p) (normalize (transform K d)) (smax * vmag (transform K d))
    (sh_to_in sh (transform K p) (normalize (transform K d)) (smax * vmag (transform K d))) →
  let D := sc_to_in inf K sh p d smax in first_in (scaled k S) p d D ∨ (D = inf ∧ misses (scaled k S) p d smax).
Proof using Hk. intros Hd H. by apply (to_in_right k Hk). Qed.
Theorem C45_to_out d smax : unit d →
  right_out inf S (transform K p) (normalize (transform K d)) (smax * vmag (transform K d))
    (sh_to_out sh (transform K p) (normalize (transform K d)) (smax * vmag (transform K d))) →
  let D := sc_to_out inf K sh p d smax in exits (scaled k S) p d D ∨ (D = inf ∧ ∀ u, 0 <= u <= smax → scaled k S (along p d u)).
Proof using Hk. intros Hd H. by apply (to_out_right k Hk). Qed.
(** Negative answers (the wrong side) stay negative. *)
Theorem C45_wrong_side d smax : unit d → 0 <= inf → (∀ v s, unit v → sh_to_in sh (transform K p) v s < 0) → sc_to_in inf K sh p d smax < 0.
Proof using Hk. intros Hd Hi H. apply (negative_kept k Hk); [done..|]. apply H. apply normalize_unit. by apply (local_length k Hk). Qed.
(** Safeties are conservative. *)
Theorem C45_safety_in q : (∀ a b, S b → sh_safety_in sh a <= vdist a b) → scaled k S q → sc_safety_in K sh p <= vdist p q.
Proof using Hk. intros H Hq. apply (scaled_iff k Hk) in Hq. apply (safety_scaled k Hk). by apply H. Qed.
Theorem C45_safety_out q : (∀ a b, S a → ¬ S b → sh_safety_out sh a <= vdist a b) → scaled k S p → ¬ scaled k S q → sc_safety_out K sh p <= vdist p q.
Proof using Hk. rewrite !(scaled_iff k Hk). intros H Hp Hq. apply (safety_scaled k Hk). by apply H. Qed.
(** The normal: a unit vector pointing out of the scaled set, when the product of the factors is positive; orthogonality of
    tangents holds for every scale. *)
Theorem C45_normal : 0 < vx k * vy k * vz k → (∀ q, vmag (sh_normal sh q) = 1) → outward S (transform K p) (sh_normal sh (transform K p)) →
  unit (sc_normal K sh p).2 ∧ outward (scaled k S) p (sc_normal K sh p).2.
Proof using Hk. intros Hs H Ho. apply (normal_outward k Hk); [done| |done]. rewrite H. lra. Qed.
Theorem C45_tangent a : vdot (sh_normal sh (transform K p)) a = 0 → vdot (sc_normal K sh p).2 (inverse_transform K a) = 0.
Proof using.
  intros H. cbn [snd sc_normal]. rewrite normalize_dot. pose proof (normal_dot k (sh_normal sh (transform K p)) a vzero) as E.
  replace (vsub (inverse_transform (update k) a) (inverse_transform (update k) vzero)) with (inverse_transform K a) in E by (unfold vsub; apply v3_eq; cbn; ring).
  replace (vsub a vzero) with a in E by (unfold vsub; apply v3_eq; cbn; ring). fold K in E. rewrite E, H. ring.
Qed.
(** The extent bounds the scaled set for positive factors; samples of the surface are scaled points of the surface. *)
Theorem C45_extent : 0 < vx k → 0 < vy k → 0 < vz k → (∀ q, S q → in_box (sh_extent sh).1 (sh_extent sh).2 q) →
  scaled k S p → in_box (sc_extent K sh).1 (sc_extent K sh).2 p.
Proof using. intros. by apply (extent_bounds k sh S). Qed.
(** Its corners are the scaled corners: what touches a face of the box touches that face after scaling. *)
Theorem C45_extent_tight q : 0 < vx k → 0 < vy k → 0 < vz k → S q →
  (vx q = vx (sh_extent sh).1 → ∃ a, scaled k S a ∧ vx a = vx (sc_extent K sh).1) ∧ (vx q = vx (sh_extent sh).2 → ∃ a, scaled k S a ∧ vx a = vx (sc_extent K sh).2) ∧
  (vy q = vy (sh_extent sh).1 → ∃ a, scaled k S a ∧ vy a = vy (sc_extent K sh).1) ∧ (vy q = vy (sh_extent sh).2 → ∃ a, scaled k S a ∧ vy a = vy (sc_extent K sh).2) ∧
  (vz q = vz (sh_extent sh).1 → ∃ a, scaled k S a ∧ vz a = vz (sc_extent K sh).1) ∧ (vz q = vz (sh_extent sh).2 → ∃ a, scaled k S a ∧ vz a = vz (sc_extent K sh).2).
Proof using.
  intros Hx Hy Hz Hq. destruct (sh_extent sh) as [lo hi] eqn:E. unfold K. rewrite (extent_eq k _ _ _ E). cbn [fst snd].
  repeat split; intros Hc; (exists (V3 (vx k * vx q) (vy k * vy q) (vz k * vz q)); split; [by exists q|cbn; rewrite Hc; ring]).
Qed.
Theorem C45_sample : S (sh_sample sh) → scaled k S (sc_sample K sh).
Proof using Hk. intros H. apply (scaled_iff k Hk). unfold sc_sample. by rewrite (back_there k Hk). Qed.
(** Round trips of the scale, both ways, for points, normals and lengths along a direction; safeties shrink. *)
Theorem C45_round_trip : inverse_transform K (transform K p) = p ∧ transform K (inverse_transform K p) = p ∧
  transform_normal K (inverse_transform_normal K p) = p ∧ inverse_transform_normal K (transform_normal K p) = p.
Proof using Hk. split; [apply (there_back k Hk)|]. split; [apply (back_there k Hk)|]. split; [apply (normal_there_back k Hk)|apply (normal_back_there k Hk)]. Qed.
Theorem C45_lengths d t : unit d → 0 <= t →
  transform_distance K t d = vdist (transform K (along p d t)) (transform K p) ∧
  inverse_transform_distance K (transform_distance K t d) (normalize (transform K d)) = t.
Proof using Hk.
  intros Hd Ht. pose proof (local_length k Hk d Hd) as Hm. split.
  - unfold K. rewrite local_distance. fold K. unfold vdist. replace (vsub (transform K (along p d t)) (transform K p)) with (vscale t (transform K d)) by (unfold vsub; apply v3_eq; cbn; ring).
    rewrite vmag_scale, Rabs_pos_eq by done. ring.
  - unfold K. rewrite (master_distance k Hk) by done. rewrite local_distance. field. lra.
Qed.
Theorem C45_safeties_shrink q : transform_safety K (vdist p q) <= vdist (transform K p) (transform K q) ∧
  inverse_transform_safety K (vdist (transform K p) (transform K q)) <= vdist p q.
Proof using Hk. split; [apply (local_dist k Hk)|apply (safety_scaled k Hk); apply Rle_refl]. Qed.
End C45.
(** Setting the scale is the same as a new scale. *)
Theorem C45_set_scale old k : set_scale old k = update k.
Proof. done. Qed.
(** Copying and assigning keep the points of a shape placed at the origin. *)
Theorem C45_copy s k this p : let o := from_shape s k in obj_contains (copy o) p = obj_contains o p ∧ obj_contains (assign this o) p = obj_contains o p ∧ so_box (copy o) = so_box o.
Proof. done. Qed.

(** An instance: a scaled orb is an ellipsoid, and its ray distances and safeties are those of the ellipsoid. *)
Definition orb_shape (inf r : R) : shape :=
  Shape (orb_contains r) (orb_inside r) (λ p d _, orb_to_in inf r p d) (λ p d _, orb_to_out inf r p d) (orb_safety_in r) (orb_safety_out r)
    (λ p, (orb_normal r p).2) (o_min (mk_orb r), o_max (mk_orb r)) (o_volume (mk_orb r)) (V3 r 0 0).
Theorem C45_ellipsoid inf r k p d smax q : 0 < r → proper k → unit d → r + kTolerance < vdist (transform (update k) p) vzero →
  vdist (transform (update k) p) vzero + r < inf →
  let D := sc_to_in inf (update k) (orb_shape inf r) p d smax in
  (first_in (scaled k (ball r)) p d D ∨ (D = inf ∧ misses (scaled k (ball r)) p d smax)) ∧
  (scaled k (ball r) q → sc_safety_in (update k) (orb_shape inf r) p <= vdist p q).
Proof.
  intros Hr Hk Hd Hp Hi D. assert (Hu : unit (normalize (transform (update k) d))) by (apply normalize_unit; by apply (local_length k Hk)). split.
  - apply (C45_to_in k (orb_shape inf r) (ball r) inf p Hk d smax Hd). cbn [sh_to_in orb_shape].
    set (a := transform (update k) p) in *. set (v := normalize (transform (update k) d)) in *.
    destruct (C46_to_in inf r a v Hr Hu Hp) as [H|[H M]]; [left; split; [|done]|right; split; [done|intros u Hu2; apply M; lra]].
    set (E := orb_to_in inf r a v) in *. destruct H as (H0 & H1 & _). unfold ball in H1.
    assert (L : vdist (along a v E) a = E).
    { unfold vdist. replace (vsub (along a v E) a) with (vscale E v) by (unfold vsub; apply v3_eq; cbn; ring). rewrite vmag_scale, Rabs_pos_eq by done.
      unfold vmag. rewrite Hu, sqrt_1. ring. }
    pose proof (vdist_triangle (along a v E) vzero a) as T. rewrite L in T. rewrite (vdist_comm vzero a) in T. lra.
  - intros Hq. apply (C45_safety_in k (orb_shape inf r) (ball r) p Hk q); [|done]. intros x b Hb. by apply C46_safety.
Qed.
Example ellipsoid_case : proper (V3 2 1 (-1)) ∧ unit (V3 (-1) 0 0) ∧ 1 + kTolerance < vdist (transform (update (V3 2 1 (-1))) (V3 6 0 0)) vzero.
Proof.
  split; [unfold proper; cbn; lra|]. split; [unfold unit, vdot; cbn; ring|]. unfold vdist. replace (vsub _ _) with (V3 3 0 0) by (unfold vsub; apply v3_eq; cbn; lra).
  unfold vmag, vdot. cbn. replace (3 * 3 + 0 * 0 + 0 * 0) with (3 * 3) by ring. rewrite sqrt_square by lra. unfold kTolerance. lra.
Qed.

(** The slab 0 <= z <= 1, with right answers from outside. *)
Definition slab (p : v3) : Prop := 0 <= vz p <= 1.
Definition slab_shape : shape :=
  Shape (λ p, rleb 0 (vz p) && rleb (vz p) 1) (λ p, if rleb 0 (vz p) && rleb (vz p) 1 then kInside else kOutside)
    (λ p d _, if rleb 0 (vz p) && rleb (vz p) 1 then -1 else 0) (λ p d _, 0) (λ p, Rmax (- vz p) (vz p - 1)) (λ p, Rmin (vz p) (1 - vz p))
    (λ p, if rleb (vz p) (1 / 2) then V3 0 0 (-1) else V3 0 0 1) (V3 (-1) (-1) 0, V3 1 1 1) 4 (V3 0 0 1).
(** The normal of a scaled shape is never valid. *)
Theorem C45_normal_valid_refuted k s p : (sc_normal k s p).1 = false.
Proof. done. Qed.
(** The marker -1 does not survive the scale. *)
Theorem C45_marker_refuted inf : 0 <= inf → let p := V3 0 0 1 in let d := V3 0 0 1 in
  sh_contains slab_shape (transform (update (V3 2 2 2)) p) = true ∧ sc_to_in inf (update (V3 2 2 2)) slab_shape p d inf = -2.
Proof.
  intros Hi. cbn zeta. assert (E : vz (transform (update (V3 2 2 2)) (V3 0 0 1)) = 1 / 2) by (cbn; lra).
  assert (B : rleb 0 (1 / 2) && rleb (1 / 2) 1 = true) by (rewrite andb_true_iff; split; apply rleb_true; lra). split.
  - cbn [sh_contains slab_shape]. by rewrite E.
  - unfold sc_to_in. cbn zeta. cbn [sh_to_in slab_shape]. rewrite E, B. destruct (rltb_spec (-1) inf) as [H|H]; [|lra].
    assert (Hk2 : proper (V3 2 2 2)) by (unfold proper; cbn; lra). rewrite (master_distance _ Hk2) by (unfold unit, vdot; cbn; ring).
    assert (M : vmag (transform (update (V3 2 2 2)) (V3 0 0 1)) = 1 / 2).
    { unfold vmag, vdot. cbn. replace (0 * (1 / 2) * (0 * (1 / 2)) + 0 * (1 / 2) * (0 * (1 / 2)) + 1 * (1 / 2) * (1 * (1 / 2))) with ((1 / 2) * (1 / 2)) by ring. apply sqrt_square. lra. }
    rewrite M. lra.
Qed.
(** A reflection: the box is inside out, the capacity negative, and the normal points into the shape. *)
Theorem C45_reflection_refuted : let K := update (V3 1 1 (-1)) in
  vz (sc_extent K slab_shape).2 < vz (sc_extent K slab_shape).1 ∧ sc_capacity K slab_shape < 0 ∧
  scaled (V3 1 1 (-1)) slab (V3 0 0 (-1)) ∧ scaled (V3 1 1 (-1)) slab (V3 0 0 0) ∧ 0 < vdot (sc_normal K slab_shape (V3 0 0 (-1))).2 (vsub (V3 0 0 0) (V3 0 0 (-1))).
Proof.
  cbn zeta. split; [unfold sc_extent, slab_shape, vsub; cbn; lra|]. split; [unfold sc_capacity, slab_shape; cbn; lra|].
  split; [exists (V3 0 0 1); split; [unfold slab; cbn; lra|apply v3_eq; cbn; ring]|]. split; [exists (V3 0 0 0); split; [unfold slab; cbn; lra|apply v3_eq; cbn; ring]|].
  cbn [snd sc_normal]. rewrite normalize_dot. assert (E : vz (transform (update (V3 1 1 (-1))) (V3 0 0 (-1))) = 1) by (cbn; lra).
  cbn [sh_normal slab_shape]. rewrite E. destruct (rleb_spec 1 (1 / 2)) as [H|H]; [lra|].
  assert (Hk2 : proper (V3 1 1 (-1))) by (unfold proper; cbn; lra).
  assert (N : 0 < vmag (inverse_transform_normal (update (V3 1 1 (-1))) (V3 0 0 1))).
  { apply (normal_pos _ Hk2). unfold vmag, vdot. cbn. rewrite !Rmult_0_l, !Rplus_0_l, Rmult_1_l, sqrt_1. lra. }
  apply Rmult_lt_0_compat; [apply Rdiv_lt_0_compat; lra|]. unfold vdot, vsub. cbn. lra.
Qed.
(** Copying and assigning lose the placement the shape was given, and assigning keeps the old bounding box. *)
Theorem C45_copy_refuted : let o := from_placed slab_shape (V3 0 0 10) (V3 1 1 1) in let p := V3 0 0 (21 / 2) in
  obj_contains o p = true ∧ obj_contains (copy o) p = false ∧ obj_contains (assign (from_shape slab_shape (V3 1 1 1)) o) p = false.
Proof.
  cbn zeta. unfold obj_contains. cbn [so_shape so_pos so_scale from_placed from_shape copy assign sh_contains slab_shape].
  assert (E1 : vz (vsub (transform (update (V3 1 1 1)) (V3 0 0 (21 / 2))) (V3 0 0 10)) = 1 / 2) by (unfold vsub; cbn; lra).
  assert (E2 : vz (vsub (transform (update (V3 1 1 1)) (V3 0 0 (21 / 2))) vzero) = 21 / 2) by (unfold vsub; cbn; lra). rewrite E1, E2. split.
  - rewrite andb_true_iff; split; apply rleb_true; lra.
  - rewrite andb_false_iff. split; right; apply rleb_false; lra.
Qed.
Theorem C45_assign_refuted : let o := assign (from_shape slab_shape (V3 1 1 1)) (from_shape slab_shape (V3 1 1 5)) in
  scaled (s_scale (so_scale o)) slab (V3 0 0 5) ∧ ¬ in_box (so_box o).1 (so_box o).2 (V3 0 0 5).
Proof.
  cbn zeta. split; [exists (V3 0 0 1); split; [unfold slab; cbn; lra|apply v3_eq; cbn; ring]|]. unfold in_box, sc_extent, slab_shape, vsub. cbn. lra.
Qed.
Print Assumptions C45_contains.
Print Assumptions C45_inside.
Print Assumptions C45_to_in.
Print Assumptions C45_to_out.
Print Assumptions C45_wrong_side.
Print Assumptions C45_safety_in.
Print Assumptions C45_safety_out.
Print Assumptions C45_normal.
Print Assumptions C45_tangent.
Print Assumptions C45_extent.
Print Assumptions C45_extent_tight.
Print Assumptions C45_sample.
Print Assumptions C45_round_trip.
Print Assumptions C45_lengths.
Print Assumptions C45_safeties_shrink.
Print Assumptions C45_set_scale.
Print Assumptions C45_copy.
Print Assumptions C45_ellipsoid.
Print Assumptions C45_normal_valid_refuted.
Print Assumptions C45_marker_refuted.
Print Assumptions C45_reflection_refuted.
Print Assumptions C45_copy_refuted.
Print Assumptions C45_assign_refuted.
