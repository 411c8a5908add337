(** C79: tetrahedra.  See properties.jsonl. *)
From Coq Require Import Reals Lra Lia Bool.
From stdpp Require Import base list option numbers tactics.
From Verif Require Import Real3 BoxModel AABBModel OrbSpec ScaledSpec PlanesModel PlanesSpec PlanesProofs PlanesProofs2 TetModel TetProofs TetProofs2 TetProofs3.
Import stdpp.list.
Local Open Scope R_scope.

Section C79.
(** Four points that are not in one plane; [kmin] is what Unit adds to the squared length. *)
Variables (kmin inf : R) (a b c e : v3).
Hypothesis Hk : 0 <= kmin.
Hypothesis HT : triple a b c e ≠ 0.
Let t := mk_tet kmin a b c e.
Let T := hull4 a b c e.
Lemma cut_eq p : cut (halves (tet_planes t)) p ↔ T p.
Proof using Hk HT. by apply tet_hull. Qed.
Lemma short : short_normals (halves (tet_planes t)).
Proof using Hk HT. by apply tet_short. Qed.
Lemma max_in p : T p ↔ max_dist t p <= 0.
Proof using Hk HT. rewrite <- cut_eq, cut_iff. symmetry. apply max_dist_le. Qed.
Lemma deep_eq p r : deep_in (cut (halves (tet_planes t))) p r → deep_in T p r.
Proof using Hk HT. intros K q Hq. apply cut_eq, K, Hq. Qed.
(** The solid of the four planes is the hull of the four points. *)
Theorem C79_solid p : cut (halves (tet_planes t)) p ↔ T p.
Proof using Hk HT. apply cut_eq. Qed.
(** Contains accepts every point of the solid and rejects only points at least half a tolerance away. *)
Theorem C79_contains p : (T p → tet_contains t p = true) ∧ (tet_contains t p = false → clear_of T p kHalfTolerance).
Proof using Hk HT.
  unfold tet_contains. pose proof kHalfTolerance_pos. rewrite max_in. split.
  - intros K. destruct (rgtb_spec (max_dist t p) kHalfTolerance); [lra|done].
  - destruct (rgtb_spec (max_dist t p) kHalfTolerance) as [K|]; [|done]. intros _ q Hq. destruct (max_dist_at t p) as (pl & Hi & E).
    apply cut_eq in Hq. apply (clear_of_dist (tet_planes t) p kHalfTolerance pl short Hi); [lra|done].
Qed.
(** Inside points have half a tolerance of room, outside points are that far away; surface points of the solid lack the room. *)
Theorem C79_inside p : match tet_inside t p with
  | kInside => T p ∧ deep_in T p kHalfTolerance
  | kOutside => ¬ T p ∧ clear_of T p kHalfTolerance
  | kSurface => kmin = 0 → escapes T p kHalfTolerance
  end.
Proof using Hk HT.
  unfold tet_inside. pose proof kHalfTolerance_pos. destruct (max_dist_at t p) as (pl & Hi & E).
  destruct (rleb_spec (max_dist t p) (- kHalfTolerance)) as [K|K].
  - split; [apply max_in; lra|]. apply deep_eq, deep_of_dist; [apply short|]. by apply max_dist_le.
  - destruct (rgtb_spec (max_dist t p) kHalfTolerance) as [K'|K'].
    + split; [rewrite max_in; lra|]. intros q Hq. apply cut_eq in Hq. apply (clear_of_dist (tet_planes t) p kHalfTolerance pl short Hi); [lra|done].
    + intros Z s Hs. assert (Hs' : - pl_dist pl p <= kHalfTolerance) by lra.
      destruct (escapes_of_dist (tet_planes t) p kHalfTolerance pl (tet_unit kmin a b c e Hk HT Z) Hi ltac:(lra) Hs' s Hs) as (q & ? & Hn).
      exists q. split; [done|]. by rewrite <- cut_eq.
Qed.
(** SafetyToIn is no more than the distance to the solid, SafetyToOut no more than the room in it; both non-negative on their side. *)
Theorem C79_safety_in p : ¬ T p → 0 <= tet_safety_in t p ∧ clear_of T p (tet_safety_in t p).
Proof using Hk HT.
  rewrite max_in. intros Hp. unfold tet_safety_in. destruct (max_dist_at t p) as (pl & Hi & E).
  destruct (rleb_spec (Rabs (max_dist t p)) kHalfTolerance); [split; [lra|]; intros q _; unfold vdist; apply vmag_nonneg|].
  split; [lra|]. intros q Hq. apply cut_eq in Hq. apply (clear_of_dist (tet_planes t) p (max_dist t p) pl short Hi); [lra|done].
Qed.
Theorem C79_safety_out p : T p → let s := tet_safety_out t p in 0 <= s ∧ deep_in T p s ∧ (kmin = 0 → escapes T p (Rmax s kHalfTolerance)).
Proof using Hk HT.
  intros Hp. pose proof (proj1 (max_in p) Hp) as Hm. unfold tet_safety_out. destruct (max_dist_at t p) as (pl & Hi & E).
  pose proof kHalfTolerance_pos as Hh. cbv zeta.
  assert (Esc : ∀ s, 0 <= s → - max_dist t p <= s → kmin = 0 → escapes T p s).
  { intros s Hs Hle Z x Hx. rewrite E in Hle.
    destruct (escapes_of_dist (tet_planes t) p s pl (tet_unit kmin a b c e Hk HT Z) Hi Hs Hle x Hx) as (q & ? & Hn).
    exists q. split; [done|]. by rewrite <- cut_eq. }
  destruct (rleb_spec (Rabs (- max_dist t p)) kHalfTolerance) as [K|K].
  - split; [lra|]. split.
    + intros q Hq. assert (vdist p q = 0) as Z by (unfold vdist in *; pose proof (vmag_nonneg (vsub p q)); lra).
      apply max_in. apply max_dist_le. intros x Hx. pose proof short as Sh. rewrite short_iff in Sh.
      pose proof (dist_lip x q p (Sh _ Hx)) as L. rewrite vdist_comm, Z in L. rewrite max_dist_le in Hm. specialize (Hm x Hx). lra.
    + rewrite Rabs_pos_eq in K by lra. apply Esc; [unfold Rmax; destruct (Rle_dec 0 kHalfTolerance); lra|]. unfold Rmax. destruct (Rle_dec 0 kHalfTolerance); lra.
  - split; [lra|]. split.
    + apply deep_eq, deep_of_dist; [apply short|]. apply max_dist_le. lra.
    + rewrite Rabs_pos_eq in K by lra. apply Esc; unfold Rmax; destruct (Rle_dec (- max_dist t p) kHalfTolerance); lra.
Qed.
(** DistanceToOut of points of the solid: the exit.  The projections on the normals are zero or at least 2^-46; a face the ray
    is parallel to is at least half a tolerance away; the corners are within 1e20. *)
Theorem C79_out p d : reach < inf → T p → vdot d d = 1 →
  vdist p a <= reach → vdist p b <= reach → vdist p c <= reach → vdist p e <= reach →
  steady kAbsorb (halves (tet_planes t)) d →
  (∀ n k, In (n, k) (halves (tet_planes t)) → vdot n d = 0 → height n k p <= - kHalfTolerance) →
  last_in T p d (tet_to_out inf t p d) ∧ tet_to_out inf t p d <= reach.
Proof using Hk HT.
  intros Hi Hp Hd Ha Hb Hc He Hs Hpar. apply tet_out_exit; auto. intros pl Hin Hpr. rewrite <- height_dist.
  apply Hpar; [by destruct pl; apply in_halves|]. unfold pl_proj in Hpr. by rewrite vdot_comm.
Qed.
Theorem C79_wrong_side p d : (∃ n k, In (n, k) (halves (tet_planes t)) ∧ kHalfTolerance < height n k p) → tet_to_out inf t p d = -1.
Proof using Hk.
  intros (n & k & Hi & G). apply tet_out_wrong; auto. apply in_halves in Hi. exists (Plane n k). split; [done|]. by rewrite <- height_dist.
Qed.
(** DistanceToIn: infinity only when no later place is properly inside; else the entry, or a negative number for points of the solid. *)
Theorem C79_in p d : reach < inf → vdot d d = 1 →
  vdist p a <= reach → vdist p b <= reach → vdist p c <= reach → vdist p e <= reach →
  steady kAbsorb (halves (tet_planes t)) d →
  (∀ n k, In (n, k) (halves (tet_planes t)) → vdot n d = 0 → height n k p <= - kHalfTolerance ∨ 0 <= height n k p) →
  let D := tet_to_in inf t p d in
  (D = inf ∧ ∀ u r, kHalfTolerance <= u → 0 < r → ¬ deep_in T (along p d u) r) ∨ (D < inf ∧ first_in T p d D) ∨ (D < 0 ∧ T p).
Proof using Hk HT.
  intros Hi Hd Ha Hb Hc He Hs Hpar. apply tet_in_entry; auto. intros pl Hin Hpr. rewrite <- height_dist.
  apply Hpar; [by destruct pl; apply in_halves|]. unfold pl_proj in Hpr. by rewrite vdot_comm.
Qed.
(** NormalKernel exactly on the surface (every face within half a tolerance is at distance zero): an outward vector, not
    longer than one, and valid. *)
Theorem C79_normal p :
  (∀ n k, In (n, k) (halves (tet_planes t)) → Rabs (height n k p) <= kHalfTolerance → height n k p = 0) →
  (∃ n k, In (n, k) (halves (tet_planes t)) ∧ height n k p = 0) →
  ∃ n, tet_normal inf kmin t p = (n, true) ∧ outward T p n ∧ 0 < vdot n n <= 1.
Proof using Hk HT.
  intros Hex (n & k & Hi & Hz). apply tet_normal_on; auto.
  - intros pl Hin Hn. rewrite <- height_dist. apply Hex; [by destruct pl; apply in_halves|]. by rewrite height_dist.
  - apply in_halves in Hi. exists (Plane n k). split; [done|]. unfold near. rewrite <- height_dist. cbn [pl_n pl_d]. rewrite Hz, Rabs_R0. pose proof kHalfTolerance_pos. lra.
Qed.
(** Near one face only: its normal, a unit vector. *)
Theorem C79_normal_face p n k : In (n, k) (halves (tet_planes t)) →
  (∀ n' k', In (n', k') (halves (tet_planes t)) → Rabs (height n' k' p) <= kHalfTolerance ↔ (n', k') = (n, k)) →
  tet_normal inf kmin t p = (n, true) ∧ (kmin = 0 → vdot n n = 1).
Proof using Hk HT.
  intros Hi H. split.
  - apply in_halves in Hi. apply (tet_normal_face kmin inf a b c e Hk HT p (Plane n k)); [by apply tet_nodup|done|].
    intros [n' k'] Hq. unfold near. rewrite <- height_dist. cbn [pl_n pl_d]. rewrite (H n' k') by (by apply in_halves). split; congruence.
  - intros Z. apply (tet_unit kmin a b c e Hk HT Z n k Hi).
Qed.
(** Off the surface: not valid, the normal of a face with the largest height. *)
Theorem C79_normal_off p : (∀ n k, In (n, k) (halves (tet_planes t)) → kHalfTolerance < Rabs (height n k p) ∧ - inf < height n k p) →
  ∃ n k, In (n, k) (halves (tet_planes t)) ∧ tet_normal inf kmin t p = (n, false) ∧
    ∀ n' k', In (n', k') (halves (tet_planes t)) → height n' k' p <= height n k p.
Proof using Hk HT.
  intros H. destruct (tet_normal_off kmin inf a b c e p) as ([n k] & Hi & E & Hm).
  - intros [n k] Hi. unfold near. rewrite <- height_dist. cbn [pl_n pl_d]. destruct (H n k ltac:(by apply in_halves)). split; [|done]. lra.
  - exists n, k. split; [by apply in_halves|]. split; [done|]. intros n' k' Hi'. apply in_halves in Hi'.
    specialize (Hm _ Hi'). by rewrite <- !height_dist in Hm.
Qed.
(** Extent: the least box around the solid. *)
Theorem C79_extent :
  (∀ p, T p → in_box (fst (tet_extent t)) (snd (tet_extent t)) p) ∧
  ∀ lo hi, (∀ p, T p → in_box lo hi p) →
    vx lo <= vx (fst (tet_extent t)) ∧ vy lo <= vy (fst (tet_extent t)) ∧ vz lo <= vz (fst (tet_extent t)) ∧
    vx (snd (tet_extent t)) <= vx hi ∧ vy (snd (tet_extent t)) <= vy hi ∧ vz (snd (tet_extent t)) <= vz hi.
Proof using Hk HT. split; [intros p Hp; by apply tet_extent_box|intros lo hi G; by apply tet_extent_tight]. Qed.
(** Capacity: a third of base times height, [h] the distance of the fourth vertex from the plane of the other three. *)
Theorem C79_capacity h :
  (∀ q, vdot (vcross (vsub b a) (vsub c a)) (vsub q a) = 0 → h <= vdist e q) →
  (∃ q, vdot (vcross (vsub b a) (vsub c a)) (vsub q a) = 0 ∧ vdist e q = h) →
  t_volume t = 1 / 3 * (1 / 2 * vmag (vcross (vsub b a) (vsub c a))) * h.
Proof using Hk HT. by apply tet_capacity_base. Qed.
(** The capacity does not depend on which vertex comes first, and the area is the sum of the four triangles. *)
Theorem C79_symmetric : t_volume (mk_tet kmin b c e a) = t_volume t ∧ t_area (mk_tet kmin b c e a) = t_area t ∧
  t_area t = half_cross a b c + half_cross b c e + half_cross c e a + half_cross e a b.
Proof using.
  unfold t, mk_tet. cbn [t_volume t_area]. rewrite !capacity_triple, cyc1, Rabs_Ropp. split; [done|].
  assert (S : ∀ u v w, vmag (vcross (vsub v u) (vsub w u)) = vmag (vcross (vsub w v) (vsub u v))).
  { intros u v w. f_equal. apply v3_eq; unfold vcross, vsub; cbn; ring. }
  unfold calc_area, half_cross. split; [|lra]. lra.
Qed.
(** Sampled points are on the face they were drawn from. *)
Theorem C79_sample r u v : 0 <= u <= 1 → 0 <= v <= 1 →
  let '(k, p) := tet_sample t r u v in T p ∧ ∃ n d, halves (tet_planes t) !! k = Some (n, d) ∧ height n d p = 0.
Proof using Hk HT.
  intros Hu Hv. pose proof (tet_sample_on kmin a b c e Hk HT r u v Hu Hv) as G. fold t in G. destruct (tet_sample t r u v) as [k p].
  destruct G as [Hp (pl & Hi & Hz)]. split; [done|]. exists (pl_n pl), (pl_d pl). split; [|by rewrite height_dist].
  unfold halves. change (map (λ pl, (pl_n pl, pl_d pl)) (tet_planes t)) with ((λ pl, (pl_n pl, pl_d pl)) <$> tet_planes t).
  by rewrite list_lookup_fmap, Hi.
Qed.
End C79.
Print Assumptions C79_solid.
Print Assumptions C79_contains.
Print Assumptions C79_inside.
Print Assumptions C79_safety_in.
Print Assumptions C79_safety_out.
Print Assumptions C79_out.
Print Assumptions C79_wrong_side.
Print Assumptions C79_in.
Print Assumptions C79_normal.
Print Assumptions C79_normal_face.
Print Assumptions C79_normal_off.
Print Assumptions C79_extent.
Print Assumptions C79_capacity.
Print Assumptions C79_symmetric.
Print Assumptions C79_sample.

(** The tetrahedron with the corners 0, x, y, z. *)
Section Corner.
Let a := V3 0 0 0. Let b := V3 1 0 0. Let c := V3 0 1 0. Let e := V3 0 0 1.
Let t := mk_tet 0 a b c e.
Example corner_proper : triple a b c e = 1 ∧ hull4 a b c e (V3 (1/4) (1/4) (1/4)).
Proof using.
  split; [unfold triple, vcross, vsub, vdot, a, b, c, e; cbn; lra|]. exists (1/4), (1/4), (1/4), (1/4).
  repeat split; try lra. apply v3_eq; unfold vadd, vscale, a, b, c, e; cbn; lra.
Qed.
Lemma unit_face f : vdot f f = 1 → vunit 0 f = f.
Proof using. intros E. unfold vunit. rewrite E, Rplus_0_r, sqrt_1, Rinv_1. apply v3_eq; unfold vscale; cbn; ring. Qed.
Lemma corner_z : t_p0 t = Plane (V3 0 0 (-1)) 0.
Proof using.
  unfold t, mk_tet, face_plane, face_normal. cbn [t_p0].
  replace (vcross (vsub b a) (vsub c a)) with (V3 0 0 1) by (apply v3_eq; unfold vcross, vsub, a, b, c; cbn; ring).
  rewrite unit_face by (unfold vdot; cbn; ring). cbv zeta.
  replace (vdot (V3 0 0 1) (vsub e a)) with 1 by (unfold vdot, vsub, e, a; cbn; ring).
  destruct (rgtb_spec 1 0); [|lra]. f_equal; [apply v3_eq|]; unfold vneg, vscale, vdot, a; cbn; ring.
Qed.
(** On a face and moving in it the distance out is zero, though the ray stays on the solid for a while. *)
Theorem C79_face_refuted inf : 0 < inf → let p := V3 (1/4) (1/4) 0 in let d := V3 1 0 0 in
  hull4 a b c e p ∧ hull4 a b c e (along p d (1/4)) ∧ tet_to_out inf t p d <= 0.
Proof using.
  intros Hi p d. split; [|split].
  - exists (1/2), (1/4), (1/4), 0. repeat split; try lra. apply v3_eq; unfold vadd, vscale, a, b, c, e; cbn; lra.
  - exists (1/4), (1/2), (1/4), 0. repeat split; try lra. apply v3_eq; unfold along, vadd, vscale, a, b, c, e; cbn; lra.
  - unfold tet_to_out. destruct (rgtb _ kHalfTolerance); [lra|].
    destruct (out_fold 0 inf a b c e p d) as (_ & B & _). fold t in B. specialize (B (t_p0 t) ltac:(cbn; auto)). rewrite corner_z in B.
    replace (pl_proj (Plane (V3 0 0 (-1)) 0) d) with 0 in B by (unfold pl_proj, vdot; cbn; ring).
    replace (pl_dist (Plane (V3 0 0 (-1)) 0) p) with 0 in B by (unfold pl_dist, vdot; cbn; ring).
    rewrite nz_zero in B. specialize (B kTiny_pos). replace (- 0 / kTiny) with 0 in B by (unfold Rdiv; ring). exact B.
Qed.
(** A hair above the face, moving along it: a huge negative distance, though the point counts as on the surface. *)
Theorem C79_hair_refuted inf : 0 < inf → let p := V3 (1/4) (1/4) (- (kTolerance / 4)) in let d := V3 1 0 0 in
  tet_contains t p = true ∧ tet_to_out inf t p d <= - 10 ^ 20.
Proof using.
  intros Hi p d. pose proof kTolerance_pos as Ht. assert (Hs : kTolerance < 1 / 100) by (unfold kTolerance; lra).
  assert (Eh : kHalfTolerance = 5 / 10 * kTolerance) by (unfold kHalfTolerance; lra).
  assert (HT : triple a b c e ≠ 0) by (unfold triple, vcross, vsub, vdot, a, b, c, e; cbn; lra).
  assert (Z : pl_dist (t_p0 t) p = kTolerance / 4) by (rewrite corner_z; unfold pl_dist, vdot, p; cbn; lra).
  assert (All : ∀ pl, In pl (tet_planes t) → pl_dist pl p <= kHalfTolerance).
  { assert (Q1 : pl_dist (face_plane 0 b c e a) p <= 0).
    { apply face_le; [lra|by apply cyc1n|]. unfold triple, vcross, vsub, vdot, a, b, c, e, p; cbn. lra. }
    assert (Q2 : pl_dist (face_plane 0 c e a b) p <= 0).
    { apply face_le; [lra|by apply cyc2n|]. unfold triple, vcross, vsub, vdot, a, b, c, e, p; cbn. lra. }
    assert (Q3 : pl_dist (face_plane 0 e a b c) p <= 0).
    { apply face_le; [lra|by apply cyc3n|]. unfold triple, vcross, vsub, vdot, a, b, c, e, p; cbn. lra. }
    intros pl [<-|[<-|[<-|[<-|[]]]]]; [rewrite Z; lra|..]; unfold t, mk_tet; cbn [t_p1 t_p2 t_p3]; lra. }
  split.
  - unfold tet_contains. destruct (rgtb_spec (max_dist t p) kHalfTolerance) as [Hn|]; [|done]. apply max_dist_le in All. lra.
  - unfold tet_to_out. pose proof (fold_max_dist inf t p All Hi) as Hm.
    destruct (rgtb_spec (foldl (λ s pl, Rmax s (pl_dist pl p)) (- inf) (tet_planes t)) kHalfTolerance); [lra|].
    destruct (out_fold 0 inf a b c e p d) as (_ & B & _). fold t in B. specialize (B (t_p0 t) ltac:(cbn; auto)). rewrite Z, corner_z in B.
    replace (pl_proj (Plane (V3 0 0 (-1)) 0) d) with 0 in B by (unfold pl_proj, vdot; cbn; ring).
    rewrite nz_zero in B. specialize (B kTiny_pos). eapply Rle_trans; [exact B|]. unfold kTiny, Rdiv. rewrite Rinv_inv. unfold kTolerance.
    assert (E : 10 ^ 30 = 10 ^ 20 * 10 ^ 10) by (rewrite <- pow_add; reflexivity). rewrite E. assert (1 <= 10 ^ 20) by (apply pow_R1_Rle; lra). nra.
Qed.
End Corner.
Print Assumptions C79_face_refuted.
Print Assumptions C79_hair_refuted.
(** At a sharp edge the normal is shorter than a unit vector. *)
Theorem C79_edge_refuted inf : let a := V3 0 0 0 in let b := V3 1 0 0 in let c := V3 0 (-4) 0 in let e := V3 0 (-4) 3 in
  let t := mk_tet 0 a b c e in tet_normal inf 0 t (V3 (1/2) 0 0) = (V3 0 (6/10) (-2/10), true).
Proof.
  intros a b c e t. set (p := V3 (1/2) 0 0).
  assert (F : ∀ x y z o g, vcross (vsub y x) (vsub z x) = g → 0 < vdot g (vsub o x) → ∀ m, 0 < m → vdot g g = m * m →
    face_plane 0 x y z o = Plane (vscale (- / m) g) (vdot (vscale (/ m) g) x)).
  { intros x y z o g Eg Hg m Hm Em. unfold face_plane, face_normal. rewrite Eg. unfold vunit. rewrite Rplus_0_r, Em, sqrt_square by lra. cbv zeta.
    destruct (rgtb_spec (vdot (vscale (/ m) g) (vsub o x)) 0) as [_|Hn].
    - f_equal; [apply v3_eq|]; unfold vneg, vscale, vdot; cbn; ring.
    - exfalso. apply Hn. rewrite vdot_scale_l. apply Rmult_lt_0_compat; [by apply Rinv_0_lt_compat|done]. }
  assert (F' : ∀ x y z o g, vcross (vsub y x) (vsub z x) = g → vdot g (vsub o x) < 0 → ∀ m, 0 < m → vdot g g = m * m →
    face_plane 0 x y z o = Plane (vscale (/ m) g) (- vdot (vscale (/ m) g) x)).
  { intros x y z o g Eg Hg m Hm Em. unfold face_plane, face_normal. rewrite Eg. unfold vunit. rewrite Rplus_0_r, Em, sqrt_square by lra. cbv zeta.
    destruct (rgtb_spec (vdot (vscale (/ m) g) (vsub o x)) 0) as [Hn|_]; [|done].
    exfalso. rewrite vdot_scale_l in Hn. assert (0 < / m) by (by apply Rinv_0_lt_compat). nra. }
  assert (Hh : kHalfTolerance = 5 / 10 * kTolerance) by (unfold kHalfTolerance; lra). assert (Ht : kTolerance < 1 / 100) by (unfold kTolerance; lra).
  pose proof kTolerance_pos.
  assert (P0 : t_p0 t = Plane (V3 0 0 (-1)) 0).
  { unfold t, mk_tet. cbn [t_p0]. rewrite (F' a b c e (V3 0 0 (-4))) with (m := 4); [|apply v3_eq|..|]; unfold vcross, vsub, vdot, vscale, a, b, c, e; cbn; try lra.
    f_equal; [f_equal|]; lra. }
  assert (P3 : t_p3 t = Plane (V3 0 (6/10) (8/10)) 0).
  { unfold t, mk_tet. cbn [t_p3]. rewrite (F e a b c (V3 0 (-3) (-4))) with (m := 5); [|apply v3_eq|..|]; unfold vcross, vsub, vdot, vscale, a, b, c, e; cbn; try lra.
    f_equal; [f_equal|]; lra. }
  assert (P2 : t_p2 t = Plane (V3 (-1) 0 0) 0).
  { unfold t, mk_tet. cbn [t_p2]. rewrite (F' c e a b (V3 (-12) 0 0)) with (m := 12); [|apply v3_eq|..|]; unfold vcross, vsub, vdot, vscale, a, b, c, e; cbn; try lra.
    f_equal; [f_equal|]; lra. }
  assert (D1 : pl_dist (t_p1 t) p < - kHalfTolerance).
  { assert (E : triple b c e a ≠ 0) by (unfold triple, vcross, vsub, vdot, a, b, c, e; cbn; lra).
    assert (Pos : 0 < 12) by lra. unfold t, mk_tet. cbn [t_p1]. unfold pl_dist, face_plane, face_normal.
    set (g := vcross (vsub c b) (vsub e b)). assert (Eg : g = V3 (-12) 3 0) by (apply v3_eq; unfold g, vcross, vsub, a, b, c, e; cbn; lra).
    rewrite Eg. unfold vunit. set (m := R_sqrt.sqrt (vdot (V3 (-12) 3 0) (V3 (-12) 3 0) + 0)).
    assert (Em : m * m = 153) by (unfold m; rewrite sqrt_sqrt; unfold vdot; cbn; lra).
    assert (Hm : 0 < m) by (unfold m; apply sqrt_lt_R0; unfold vdot; cbn; lra). clearbody m.
    assert (Hm2 : m < 13) by nra. assert (Hi : / 13 < / m) by (apply Rinv_lt_contravar; [nra|done]).
    assert (Q : vdot (vscale (/ m) (V3 (-12) 3 0)) (vsub a b) = 12 * / m) by (unfold vdot, vscale, vsub, a, b; cbn; ring).
    destruct (rgtb_spec (vdot (vscale (/ m) (V3 (-12) 3 0)) (vsub a b)) 0) as [_|Hn]; [|exfalso; apply Hn; rewrite Q; lra].
    cbn [pl_n pl_d]. unfold vdot, vneg, vscale, b, p; cbn. lra. }
  unfold tet_normal. unfold tet_planes. cbn [foldl]. unfold sum_step. rewrite P0, P2, P3.
  destruct (rleb_spec (Rabs (pl_dist (t_p1 t) p)) kHalfTolerance) as [Hb|_]; [exfalso; apply abs_le_inv in Hb; lra|].
  replace (pl_dist (Plane (V3 0 0 (-1)) 0) p) with 0 by (unfold pl_dist, vdot, p; cbn; lra).
  replace (pl_dist (Plane (V3 (-1) 0 0) 0) p) with (-1/2) by (unfold pl_dist, vdot, p; cbn; lra).
  replace (pl_dist (Plane (V3 0 (6/10) (8/10)) 0) p) with 0 by (unfold pl_dist, vdot, p; cbn; lra).
  rewrite Rabs_R0. destruct (rleb_spec 0 kHalfTolerance); [|lra].
  destruct (rleb_spec (Rabs (-1/2)) kHalfTolerance) as [Hb|_]; [exfalso; apply abs_le_inv in Hb; lra|].
  replace (vadd (vadd vzero (pl_n (Plane (V3 0 0 (-1)) 0))) (pl_n (Plane (V3 0 (6/10) (8/10)) 0))) with (V3 0 (6/10) (-2/10)) by (apply v3_eq; unfold vadd, vzero; cbn; lra).
  replace (vdot (V3 0 (6/10) (-2/10)) (V3 0 (6/10) (-2/10))) with (4/10) by (unfold vdot; cbn; lra).
  destruct (rgtb_spec (4/10) 1); [lra|]. replace (vdot (V3 0 (6/10) (-2/10)) (V3 0 (6/10) (-2/10))) with (4/10) by (unfold vdot; cbn; lra).
  destruct (rgtb_spec (4/10) 0); [done|lra].
Qed.
(** The check: the volume is below the cube of the tolerance, or all four faces are below twice the tolerance. *)
Theorem C79_degeneracy a b c e : check_degeneracy a b c e = true ↔
  Rabs (triple a b c e) / 6 < kTolerance * kTolerance * kTolerance ∨
  ∀ u v w, In (u, v, w) [(a, b, c); (b, c, e); (c, e, a); (e, a, b)] → vmag (vcross (vsub v u) (vsub w u)) / 2 < 2 * kTolerance.
Proof.
  unfold check_degeneracy. rewrite capacity_triple. destruct (rltb_spec (Rabs (triple a b c e) / 6) (kTolerance * kTolerance * kTolerance)) as [H|H]; [by split; [left|]|].
  rewrite rltb_true. split.
  - intros Hm. right. intros u v w Hi. unfold Rdiv. apply Rmax_Rlt in Hm as [Hm H3]. apply Rmax_Rlt in Hm as [Hm H2]. apply Rmax_Rlt in Hm as [H0 H1].
    destruct Hi as [E|[E|[E|[E|[]]]]]; injection E as <- <- <-; lra.
  - intros [Hx|Hx]; [done|]. pose proof (Hx a b c ltac:(by left)). pose proof (Hx b c e ltac:(by right; left)). pose proof (Hx c e a ltac:(by do 2 right; left)). pose proof (Hx e a b ltac:(by do 3 right; left)).
    repeat apply Rmax_lub_lt; lra.
Qed.
(** The constructor ignores its check: four points in a plane make a solid without volume that contains the whole plane. *)
Theorem C79_degenerate_refuted : let a := V3 0 0 0 in let b := V3 1 0 0 in let c := V3 0 1 0 in let e := V3 1 1 0 in
  check_degeneracy a b c e = true ∧ ∀ kmin, t_volume (mk_tet kmin a b c e) = 0 ∧ ∀ x y, tet_contains (mk_tet kmin a b c e) (V3 x y 0) = true.
Proof.
  intros a b c e. assert (E : calc_capacity a b c e = 0).
  { unfold calc_capacity. replace (vdot (vsub b a) (vcross (vsub c a) (vsub e a))) with 0 by (unfold vdot, vcross, vsub, a, b, c, e; cbn; ring).
    rewrite Rabs_R0. field. }
  split; [|intros kmin; split; [done|]].
  - unfold check_degeneracy. rewrite E. pose proof kTolerance_pos.
    destruct (rltb_spec 0 (kTolerance * kTolerance * kTolerance)) as [|Hn]; [done|]. exfalso. apply Hn. repeat apply Rmult_lt_0_compat; done.
  - intros x y.
    assert (F : ∀ u v w o, vz u = 0 → vz v = 0 → vz w = 0 → pl_dist (face_plane kmin u v w o) (V3 x y 0) = 0).
    { intros u v w o Hu Hv Hw. unfold face_plane, face_normal, pl_dist. cbv zeta.
      set (n := vunit kmin (vcross (vsub v u) (vsub w u))).
      assert (vx n = 0 ∧ vy n = 0) as [Nx Ny] by (unfold n, vunit, vscale, vcross, vsub; cbn; rewrite Hu, Hv, Hw; split; ring). clearbody n.
      destruct (rgtb _ 0); cbn [pl_n pl_d]; unfold vneg, vscale, vdot; cbn; rewrite ?Nx, ?Ny, Hu; ring. }
    unfold tet_contains. destruct (rgtb_spec (max_dist (mk_tet kmin a b c e) (V3 x y 0)) kHalfTolerance) as [Hn|]; [|done]. exfalso.
    assert (max_dist (mk_tet kmin a b c e) (V3 x y 0) <= 0); [|pose proof kHalfTolerance_pos; lra].
    apply max_dist_le. intros pl [<-|[<-|[<-|[<-|[]]]]]; unfold mk_tet; cbn [t_p0 t_p1 t_p2 t_p3]; rewrite F by done; lra.
Qed.
Print Assumptions C79_edge_refuted.
Print Assumptions C79_degenerate_refuted.
Print Assumptions C79_degeneracy.
