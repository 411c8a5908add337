(** Lemmas on the queries of convex polygons and on squared distances. *)
From Coq Require Import Reals Lra Lia Bool ZArith Psatz.
From stdpp Require Import base list list_numbers option numbers tactics.
From Verif Require Import Real3 BoxModel AABBModel PlanesModel PlanesProofs PolygonModel PolygonSpec PolygonProofs.
Import stdpp.list.
Local Open Scope R_scope.

Lemma dist2_sqrt p q : dist2 p q = R_sqrt.sqrt ((fst p - fst q) * (fst p - fst q) + (snd p - snd q) * (snd p - snd q)).
Proof. unfold dist2, vdist, vmag, vdot, flat. cbn. f_equal. ring. Qed.
Lemma dist2_sqr p q : dist2 p q * dist2 p q = (fst p - fst q) * (fst p - fst q) + (snd p - snd q) * (snd p - snd q).
Proof. rewrite dist2_sqrt. apply sqrt_sqrt. apply Rplus_le_le_0_compat; apply Rle_0_sqr. Qed.
Lemma dist2_nonneg p q : 0 <= dist2 p q.
Proof. apply vdist_nonneg. Qed.
Lemma dist2_comm p q : dist2 p q = dist2 q p.
Proof. apply vdist_comm. Qed.
Lemma dist2_pos p q : p ≠ q → 0 < dist2 p q.
Proof.
  intros H. destruct (dist2_nonneg p q) as [|E]; [done|]. exfalso. apply H. pose proof (dist2_sqr p q) as S. rewrite <- E in S.
  pose proof (Rle_0_sqr (fst p - fst q)) as A. pose proof (Rle_0_sqr (snd p - snd q)) as B. unfold Rsqr in *.
  assert ((fst p - fst q) * (fst p - fst q) = 0) as Ea by lra. assert ((snd p - snd q) * (snd p - snd q) = 0) as Eb by lra.
  apply Rmult_integral in Ea. apply Rmult_integral in Eb. apply p2_eq; lra.
Qed.
(** The cross product changes no faster than the point moves, scaled by the length of the side. *)
Lemma cross2_lip a b p q : cross2 a b p - cross2 a b q <= dist2 a b * dist2 p q.
Proof.
  pose proof (vdot_le (V3 (- (snd b - snd a)) (fst b - fst a) 0) (vsub (flat p) (flat q))) as H.
  assert (E : vmag (V3 (- (snd b - snd a)) (fst b - fst a) 0) = dist2 a b) by (rewrite dist2_sqrt; unfold vmag, vdot; cbn; f_equal; ring).
  rewrite E in H. unfold dist2 at 2, vdist. eapply Rle_trans; [|exact H]. right. unfold cross2, vdot, vsub, flat. cbn. ring.
Qed.
Lemma cross2_rate a b p q : a ≠ b → cross2 a b p / dist2 a b <= cross2 a b q / dist2 a b + dist2 p q.
Proof.
  intros H. pose proof (dist2_pos a b H) as D. pose proof (cross2_lip a b p q) as L. apply (Rmult_le_reg_l (dist2 a b)); [done|].
  replace (dist2 a b * (cross2 a b p / dist2 a b)) with (cross2 a b p) by (field; lra).
  replace (dist2 a b * (cross2 a b q / dist2 a b + dist2 p q)) with (cross2 a b q + dist2 a b * dist2 p q) by (field; lra). lra.
Qed.
(** Moving by [s] to the left of a side. *)
Definition aside (a b p : p2) (s : R) : p2 := (fst p - s * (snd b - snd a) / dist2 a b, snd p + s * (fst b - fst a) / dist2 a b).
Lemma aside_dist a b p s : a ≠ b → 0 <= s → dist2 p (aside a b p s) = s.
Proof.
  intros H Hs. pose proof (dist2_pos a b H) as D. rewrite dist2_sqrt. unfold aside. cbn.
  replace ((fst p - (fst p - s * (snd b - snd a) / dist2 a b)) * (fst p - (fst p - s * (snd b - snd a) / dist2 a b)) +
    (snd p - (snd p + s * (fst b - fst a) / dist2 a b)) * (snd p - (snd p + s * (fst b - fst a) / dist2 a b)))
    with (s * s * ((fst a - fst b) * (fst a - fst b) + (snd a - snd b) * (snd a - snd b)) / (dist2 a b * dist2 a b)) by (field; lra).
  rewrite <- dist2_sqr. replace (s * s * (dist2 a b * dist2 a b) / (dist2 a b * dist2 a b)) with (s * s) by (field; lra). by apply sqrt_square.
Qed.
Lemma aside_cross a b p s : a ≠ b → cross2 a b (aside a b p s) = cross2 a b p + s * dist2 a b.
Proof.
  intros H. pose proof (dist2_pos a b H) as D. unfold aside.
  assert (E : s * dist2 a b = s * ((fst a - fst b) * (fst a - fst b) + (snd a - snd b) * (snd a - snd b)) / dist2 a b).
  { rewrite <- dist2_sqr. field. lra. }
  rewrite E. unfold cross2. cbn. field. lra.
Qed.

Lemma fix1_id x : zero_or kTolerance x → fix1 x = x.
Proof. intros [->|H]; unfold fix1; [destruct (rltb (Rabs 0) kTolerance); done|]. destruct (rltb_spec (Rabs x) kTolerance); [lra|done]. Qed.
Lemma zero_or_neg c x : zero_or c x → zero_or c (- x).
Proof. intros [->|H]; [left; ring|right; by rewrite Rabs_Ropp]. Qed.
Lemma dseg_cross a b px py : a ≠ b → zero_or kTolerance ((fst b - fst a) / dist2 a b) → zero_or kTolerance ((snd b - snd a) / dist2 a b) →
  zero_or kTolerance (cross2 a b (0, 0) / dist2 a b) → dseg (mk_edge b a) px py = cross2 a b (px, py) / dist2 a b.
Proof.
  intros H Za Zb Zc. pose proof (dist2_pos a b H) as D. destruct a as [ax ay], b as [bx by_]. unfold mk_edge, dseg. cbn [e_a e_b e_d fst snd] in *.
  assert (En : R_sqrt.sqrt (- (ay - by_) * - (ay - by_) + (ax - bx) * (ax - bx)) = dist2 (ax, ay) (bx, by_)) by (rewrite dist2_sqrt; cbn; f_equal; ring).
  rewrite En. set (n := dist2 (ax, ay) (bx, by_)) in *.
  replace (- (ay - by_) * (1 / n)) with ((by_ - ay) / n) by (field; lra).
  replace ((ax - bx) * (1 / n)) with (- ((bx - ax) / n)) by (field; lra).
  replace (- ((by_ - ay) / n * bx + - ((bx - ax) / n) * by_)) with (- (cross2 (ax, ay) (bx, by_) (0, 0) / n)) by (unfold cross2; cbn; field; lra).
  rewrite (fix1_id ((by_ - ay) / n)) by done. rewrite !fix1_id by (by apply zero_or_neg). unfold cross2. cbn. field. lra.
Qed.
Lemma far_max inf P px py : far_seg inf P px py = max_seg inf P px py.
Proof.
  unfold far_seg, max_seg. generalize (- inf). induction (pg_edges P) as [|e l IH]; intros m; [done|]. cbn [foldl]. rewrite <- IH. f_equal.
  destruct (rgtb_spec (dseg e px py) m); [rewrite Rmax_left by lra; done|rewrite Rmax_right by lra; done].
Qed.
Lemma fold_max_spec {A} (f : A → R) l m : let r := foldl (λ m e, Rmax (f e) m) m l in
  m <= r ∧ (∀ e, In e l → f e <= r) ∧ (r = m ∨ ∃ e, In e l ∧ r = f e).
Proof.
  revert m. induction l as [|e l IH]; intros m; cbn [foldl]; [cbn; split; [lra|]; split; [done|by left]|].
  destruct (IH (Rmax (f e) m)) as (H1 & H2 & H3). pose proof (Rmax_l (f e) m). pose proof (Rmax_r (f e) m). cbn. split; [lra|]. split.
  - intros x [<-|Hx]; [lra|by apply H2].
  - destruct H3 as [H3|(x & Hx & H3)]; [|right; exists x; auto]. destruct (Rle_dec (f e) m).
    + left. rewrite H3. by apply Rmax_right.
    + right. exists e. split; [by left|]. rewrite H3. apply Rmax_left. lra.
Qed.

Section Convex.
Variable inf : R.
Hypothesis Hinf : kTolerance < inf.
Variable vs : list p2.
Hypothesis Cv : convex_cw vs.
Hypothesis Td : tidy kTolerance vs.
Variable P : polygon.
Hypothesis Ep : pg_edges P = mk_edges vs.
Lemma edge_dseg a b px py : In (a, b) (sides vs) → dseg (mk_edge b a) px py = cross2 a b (px, py) / dist2 a b.
Proof. intros H. pose proof (convex_proper _ Cv a b H). destruct (Td a b H) as (? & ? & ?). by apply dseg_cross. Qed.
Lemma max_seg_spec px py : - inf <= max_seg inf P px py ∧ (∀ a b, In (a, b) (sides vs) → cross2 a b (px, py) / dist2 a b <= max_seg inf P px py) ∧
  (max_seg inf P px py = - inf ∨ ∃ a b, In (a, b) (sides vs) ∧ max_seg inf P px py = cross2 a b (px, py) / dist2 a b).
Proof.
  destruct (fold_max_spec (λ e, dseg e px py) (pg_edges P) (- inf)) as (H1 & H2 & H3). fold (max_seg inf P px py) in *. split; [done|]. split.
  - intros a b Hs. rewrite <- edge_dseg by done. apply H2. rewrite Ep. apply mk_edges_in. eauto.
  - destruct H3 as [H3|(e & He & H3)]; [by left|right]. rewrite Ep in He. apply mk_edges_in in He as (a & b & Hs & ->). exists a, b. split; [done|].
    rewrite H3. by apply edge_dseg.
Qed.
Lemma cross_sign a b p c : a ≠ b → cross2 a b p / dist2 a b < c ↔ cross2 a b p < c * dist2 a b.
Proof.
  intros H. pose proof (dist2_pos a b H) as D. split; intros L.
  - apply (Rmult_lt_compat_r (dist2 a b)) in L; [|done]. replace (cross2 a b p / dist2 a b * dist2 a b) with (cross2 a b p) in L by (field; lra). done.
  - apply (Rmult_lt_reg_r (dist2 a b)); [done|]. replace (cross2 a b p / dist2 a b * dist2 a b) with (cross2 a b p) by (field; lra). done.
Qed.
Lemma max_lt px py c : - inf < c → max_seg inf P px py < c ↔ ∀ a b, In (a, b) (sides vs) → cross2 a b (px, py) / dist2 a b < c.
Proof.
  intros Hc. destruct (max_seg_spec px py) as (H1 & H2 & H3). split.
  - intros H a b Hs. eapply Rle_lt_trans; [by apply H2|done].
  - intros H. destruct H3 as [->|(a & b & Hs & ->)]; [done|]. by apply H.
Qed.
Lemma contains_convex_inner px py : contains_convex inf P px py = true ↔ inner vs (px, py).
Proof.
  unfold contains_convex. rewrite rltb_true. pose proof kTolerance_pos. rewrite max_lt by lra. rewrite inner_iff by done.
  split; intros Hx a b Hs; specialize (Hx a b Hs); pose proof (convex_proper _ Cv a b Hs) as Hp; [apply cross_sign in Hx; [lra|done]|apply cross_sign; [done|lra]].
Qed.
(** [kInside]: everything within the tolerance is inside. *)
Lemma deep_iff px py c : 0 <= c → - inf < - c → max_seg inf P px py < - c ↔ ∀ q, dist2 (px, py) q <= c → inner vs q.
Proof.
  intros Hc Hi. rewrite max_lt by lra. split.
  - intros H q Hq. apply inner_iff; [done|]. intros a b Hs. pose proof (convex_proper _ Cv a b Hs) as Hp. specialize (H a b Hs).
    pose proof (cross2_rate a b q (px, py) Hp) as R. rewrite (dist2_comm q) in R.
    assert (cross2 a b q / dist2 a b < 0) as Hz by lra. apply cross_sign in Hz; [lra|done].
  - intros H a b Hs. pose proof (convex_proper _ Cv a b Hs) as Hp. specialize (H (aside a b (px, py) c)). rewrite aside_dist in H by done.
    specialize (H (Rle_refl c)). rewrite inner_iff in H by done. specialize (H a b Hs). rewrite aside_cross in H by done. apply cross_sign; [done|]. lra.
Qed.
Lemma max_outside px py q : hull vs q → max_seg inf P px py = - inf ∨ max_seg inf P px py <= dist2 (px, py) q.
Proof.
  intros Hq. destruct (max_seg_spec px py) as (_ & _ & [H|(a & b & Hs & H)]); [by left|right]. rewrite H. pose proof (convex_proper _ Cv a b Hs) as Hp.
  pose proof (cross2_rate a b (px, py) q Hp) as R. rewrite hull_iff in Hq by done. specialize (Hq a b Hs). pose proof (dist2_pos a b Hp) as D.
  assert (cross2 a b q / dist2 a b <= 0); [|lra]. apply (Rmult_le_reg_r (dist2 a b)); [done|]. replace (cross2 a b q / dist2 a b * dist2 a b) with (cross2 a b q) by (field; lra). lra.
Qed.
Lemma hull_max px py : hull vs (px, py) → max_seg inf P px py <= 0.
Proof.
  intros Hq. destruct (max_seg_spec px py) as (_ & _ & [->|(a & b & Hs & ->)]); [pose proof kTolerance_pos; lra|]. pose proof (convex_proper _ Cv a b Hs) as Hp.
  rewrite hull_iff in Hq by done. specialize (Hq a b Hs). pose proof (dist2_pos a b Hp) as D.
  apply (Rmult_le_reg_r (dist2 a b)); [done|]. replace (cross2 a b (px, py) / dist2 a b * dist2 a b) with (cross2 a b (px, py)) by (field; lra). lra.
Qed.
(** From inside, the distance to the border, unless it exceeds [inf]. *)
Lemma safety_below px py q : hull vs (px, py) → border vs q → - max_seg inf P px py <= dist2 (px, py) q.
Proof.
  intros Hp (a & b & Hs & Hq). pose proof (convex_proper _ Cv a b Hs) as Hab. destruct (max_seg_spec px py) as (_ & H2 & _). specialize (H2 a b Hs).
  pose proof (cross2_rate a b q (px, py) Hab) as R. rewrite (dist2_comm q) in R.
  assert (E : cross2 a b q = 0) by (destruct Hq as (t & _ & ->); rewrite cross2_way, cross2_l, cross2_r; ring). rewrite E in R. unfold Rdiv in R at 1. rewrite Rmult_0_l in R. lra.
Qed.
Lemma safety_attained px py : hull vs (px, py) → - inf < max_seg inf P px py → ∃ q, border vs q ∧ dist2 (px, py) q = - max_seg inf P px py.
Proof.
  intros Hp Hm. pose proof (hull_max px py Hp) as H0. destruct (max_seg_spec px py) as (_ & H2 & [E|(a & b & Hs & E)]); [lra|].
  pose proof (convex_proper _ Cv a b Hs) as Hab. pose proof (dist2_pos a b Hab) as D. set (s := - max_seg inf P px py) in *.
  exists (aside a b (px, py) s). split; [|apply aside_dist; [done|unfold s; lra]]. apply border_iff; [done|]. split.
  - apply hull_iff; [done|]. intros c d Hcd. pose proof (convex_proper _ Cv c d Hcd) as Hd. pose proof (dist2_pos c d Hd) as D2. specialize (H2 c d Hcd).
    pose proof (cross2_rate c d (aside a b (px, py) s) (px, py) Hd) as R. rewrite (dist2_comm (aside a b (px, py) s)), aside_dist in R by (done || (unfold s; lra)).
    assert (cross2 c d (aside a b (px, py) s) / dist2 c d <= 0) as Hz by (unfold s in *; lra).
    apply (Rmult_le_compat_r (dist2 c d)) in Hz; [|lra]. replace (cross2 c d (aside a b (px, py) s) / dist2 c d * dist2 c d) with (cross2 c d (aside a b (px, py) s)) in Hz by (field; lra). lra.
  - exists a, b. split; [done|]. rewrite aside_cross by done. unfold s. rewrite E. field. lra.
Qed.
End Convex.

(** Squared distances to sides *)
Definition sq_dist (p q : p2) : R := (fst p - fst q) * (fst p - fst q) + (snd p - snd q) * (snd p - snd q).
Lemma edge_ssq_spec px py a b : a ≠ b → let s := edge_ssq px py (mk_edge b a) in
  (∀ q, on_side a b q → s <= sq_dist (px, py) q) ∧ ∃ q, on_side a b q ∧ sq_dist (px, py) q = s.
Proof.
  intros H. pose proof (dist2_pos a b H) as D. pose proof (dist2_sqr a b) as L. destruct a as [ax ay], b as [bx by_]. unfold edge_ssq, mk_edge. cbn [e_x e_y e_xj e_yj fst snd] in *.
  set (dx := ax - bx) in *. set (dy := ay - by_) in *. set (lsq := dx * dx + dy * dy) in *. set (u := (px - bx) * dx + (py - by_) * dy).
  assert (Hl : 0 < lsq) by (rewrite <- L; by apply Rmult_lt_0_compat).
  assert (Pt : ∀ t, sq_dist (px, py) (way (ax, ay) (bx, by_) (1 - t)) = (px - bx) * (px - bx) + (py - by_) * (py - by_) - 2 * t * u + t * t * lsq).
  { intros t. unfold sq_dist, way, u, lsq, dx, dy. cbn. ring. }
  assert (Ws : ∀ s, way (ax, ay) (bx, by_) s = way (ax, ay) (bx, by_) (1 - (1 - s))) by (intros s; f_equal; ring).
  assert (G : ∀ t0, 0 <= t0 <= 1 → (∀ t, 0 <= t <= 1 → - 2 * t0 * u + t0 * t0 * lsq <= - 2 * t * u + t * t * lsq) → ∀ v,
    v = (px - bx) * (px - bx) + (py - by_) * (py - by_) - 2 * t0 * u + t0 * t0 * lsq →
    (∀ q, on_side (ax, ay) (bx, by_) q → v <= sq_dist (px, py) q) ∧ ∃ q, on_side (ax, ay) (bx, by_) q ∧ sq_dist (px, py) q = v).
  { intros t0 Ht0 Hm v ->. split.
    - intros q (s & Hs & ->). rewrite (Ws s), Pt. specialize (Hm (1 - s) ltac:(lra)). lra.
    - exists (way (ax, ay) (bx, by_) (1 - t0)). split; [exists (1 - t0); split; [lra|done]|]. apply Pt. }
  destruct (rgtb_spec u lsq) as [Hu|Hu]; cbn [negb andb].
  - apply (G 1); [lra| |unfold u, lsq, dx, dy; ring]. intros t Ht. assert (0 <= (1 - t) * (2 * u - (1 + t) * lsq)); [|nra]. apply Rmult_le_pos; [lra|]. nra.
  - destruct (rgeb_spec u 0) as [Hz|Hz].
    + apply (G (u / lsq)).
      * split; [apply Rmult_le_pos; [lra|]; left; by apply Rinv_0_lt_compat|]. apply (Rmult_le_reg_r lsq); [done|]. unfold Rdiv. rewrite Rmult_assoc, Rinv_l by lra. lra.
      * intros t Ht. assert (E : - 2 * t * u + t * t * lsq - (- 2 * (u / lsq) * u + u / lsq * (u / lsq) * lsq) = lsq * ((t - u / lsq) * (t - u / lsq))) by (field; lra).
        assert (0 <= lsq * ((t - u / lsq) * (t - u / lsq))); [|lra]. apply Rmult_le_pos; [lra|]. apply Rle_0_sqr.
      * unfold u, lsq. field. fold lsq. lra.
    + apply (G 0); [lra| |ring]. intros t Ht. assert (0 <= t * t * lsq) by (apply Rmult_le_pos; [apply Rle_0_sqr|lra]). nra.
Qed.
Lemma edge_ssq_same px py a b : a ≠ b → edge_ssq_t px py (mk_edge b a) = edge_ssq px py (mk_edge b a).
Proof.
  intros H. pose proof (dist2_pos a b H) as D. pose proof (dist2_sqr a b) as L. destruct a as [ax ay], b as [bx by_]. unfold edge_ssq_t, edge_ssq, mk_edge. cbn [e_x e_y e_xj e_yj e_inv fst snd] in *.
  replace (1 / ((bx - ax) * (bx - ax) + (by_ - ay) * (by_ - ay))) with (1 / ((ax - bx) * (ax - bx) + (ay - by_) * (ay - by_))) by (f_equal; ring).
  set (dx := ax - bx) in *. set (dy := ay - by_) in *. set (lsq := dx * dx + dy * dy) in *. set (u := (px - bx) * dx + (py - by_) * dy).
  assert (Hl : 0 < lsq) by (rewrite <- L; by apply Rmult_lt_0_compat).
  assert (Ei : u * (1 / lsq) = u / lsq) by (field; lra). rewrite Ei.
  assert (E1 : 1 < u / lsq ↔ lsq < u).
  { split; intros Hx; [apply (Rmult_lt_compat_r lsq) in Hx; [|done]; replace (u / lsq * lsq) with u in Hx by (field; lra); lra|].
    apply (Rmult_lt_reg_r lsq); [done|]. replace (u / lsq * lsq) with u by (field; lra). lra. }
  assert (E2 : 0 <= u / lsq ↔ 0 <= u).
  { split; intros Hx; [apply (Rmult_le_compat_r lsq) in Hx; [|lra]; replace (u / lsq * lsq) with u in Hx by (field; lra); lra|].
    apply (Rmult_le_reg_r lsq); [done|]. replace (u / lsq * lsq) with u by (field; lra). lra. }
  destruct (rgtb_spec (u / lsq) 1) as [A|A], (rgtb_spec u lsq) as [B|B]; try (exfalso; unfold Rgt in *; tauto); cbn [negb andb]; [done|].
  destruct (rgeb_spec (u / lsq) 0) as [A2|A2], (rgeb_spec u 0) as [B2|B2]; try done; try (exfalso; clear -A2 B2 E2; unfold Rge in *; destruct E2; lra).
  assert (F1 : u / lsq * dx = u * dx * (1 / lsq)) by (field; lra). assert (F2 : u / lsq * dy = u * dy * (1 / lsq)) by (field; lra). by rewrite F1, F2.
Qed.
Lemma ssq_nonneg px py e : 0 <= edge_ssq px py e.
Proof. unfold edge_ssq. repeat case_match; apply Rplus_le_le_0_compat; apply Rle_0_sqr. Qed.
Lemma ssq_t_nonneg px py e : 0 <= edge_ssq_t px py e.
Proof. unfold edge_ssq_t. repeat case_match; apply Rplus_le_le_0_compat; apply Rle_0_sqr. Qed.

Notation tol2 := (kTolerance * kTolerance).
Lemma loop_spec px py es : ∀ i safe seg, tol2 <= safe → let '(r, s) := safety_sqr_loop px py es i safe seg in
  (r = safe ∧ s = seg ∧ ∀ e, In e es → safe <= edge_ssq_t px py e) ∨
  (∃ k e, es !! k = Some e ∧ s = (i + Z.of_nat k)%Z ∧ edge_ssq_t px py e < safe ∧
     ((tol2 <= edge_ssq_t px py e ∧ r = edge_ssq_t px py e ∧ ∀ e', In e' es → edge_ssq_t px py e <= edge_ssq_t px py e') ∨
      (edge_ssq_t px py e < tol2 ∧ r = 0))).
Proof.
  induction es as [|e es IH]; intros i safe seg Hs; cbn [safety_sqr_loop]; [left; done|].
  pose proof (ssq_t_nonneg px py e) as Hn. destruct (rltb_spec (edge_ssq_t px py e) safe) as [Hl|Hl].
  - rewrite Rabs_pos_eq by done. destruct (rltb_spec (edge_ssq_t px py e) tol2) as [Ht|Ht].
    + right. exists 0%nat, e. split; [done|]. split; [lia|]. split; [done|]. by right.
    + specialize (IH (i + 1)%Z (edge_ssq_t px py e) i ltac:(lra)). destruct (safety_sqr_loop px py es (i + 1) (edge_ssq_t px py e) i) as [r s].
      right. destruct IH as [(-> & -> & Ha)|(k & e' & E1 & E2 & E3 & E4)].
      * exists 0%nat, e. split; [done|]. split; [lia|]. split; [done|]. left. split; [lra|]. split; [done|]. intros e' [<-|H]; [lra|by apply Ha].
      * exists (S k), e'. split; [done|]. split; [lia|]. split; [lra|]. destruct E4 as [(E4 & E5 & E6)|E4]; [|by right]. left. split; [done|]. split; [done|].
        intros x [<-|H]; [lra|by apply E6].
  - assert (0 <= safe) by (pose proof kTolerance_pos; nra). rewrite Rabs_pos_eq by done. destruct (rltb_spec safe tol2) as [Ht|Ht]; [lra|].
    specialize (IH (i + 1)%Z safe seg Hs). destruct (safety_sqr_loop px py es (i + 1) safe seg) as [r s].
    destruct IH as [(-> & -> & Ha)|(k & e' & E1 & E2 & E3 & E4)].
    + left. split; [done|]. split; [done|]. intros x [<-|H']; [lra|by apply Ha].
    + right. exists (S k), e'. split; [done|]. split; [lia|]. split; [done|]. destruct E4 as [(E4 & E5 & E6)|E4]; [|by right]. left. split; [done|]. split; [done|].
      intros x [<-|H']; [lra|by apply E6].
Qed.
Lemma lanes_spec px py es : ∀ i safe seg, let '(r, s) := safety_lanes px py es i safe seg in
  (r = safe ∧ s = seg ∧ ∀ e, In e es → safe <= edge_ssq px py e) ∨
  (∃ k e, es !! k = Some e ∧ s = (i + Z.of_nat k)%Z ∧ edge_ssq px py e < safe ∧ r = edge_ssq px py e ∧
     (∀ e', In e' es → edge_ssq px py e <= edge_ssq px py e') ∧ ∀ k' e', (k' < k)%nat → es !! k' = Some e' → edge_ssq px py e < edge_ssq px py e').
Proof.
  induction es as [|e es IH]; intros i safe seg; cbn [safety_lanes]; [left; done|].
  destruct (rltb_spec (edge_ssq px py e) safe) as [Hl|Hl].
  - specialize (IH (i + 1)%Z (edge_ssq px py e) i). destruct (safety_lanes px py es (i + 1) (edge_ssq px py e) i) as [r s].
    right. destruct IH as [(-> & -> & Ha)|(k & e' & E1 & E2 & E3 & E4 & E5 & E6)].
    + exists 0%nat, e. split; [done|]. split; [lia|]. split; [done|]. split; [done|]. split; [intros x [<-|H]; [lra|by apply Ha]|intros; lia].
    + exists (S k), e'. split; [done|]. split; [lia|]. split; [lra|]. split; [done|]. split; [intros x [<-|H]; [lra|by apply E5]|].
      intros [|k'] x Hk Hx; cbn in Hx; [injection Hx as <-; done|]. apply (E6 k' x); [lia|done].
  - specialize (IH (i + 1)%Z safe seg). destruct (safety_lanes px py es (i + 1) safe seg) as [r s].
    destruct IH as [(-> & -> & Ha)|(k & e' & E1 & E2 & E3 & E4 & E5 & E6)].
    + left. split; [done|]. split; [done|]. intros x [<-|H']; [lra|by apply Ha].
    + right. exists (S k), e'. split; [done|]. split; [lia|]. split; [done|]. split; [done|]. split; [intros x [<-|H]; [lra|by apply E5]|].
      intros [|k'] x Hk Hx; cbn in Hx; [injection Hx as <-; lra|]. apply (E6 k' x); [lia|done].
Qed.
Lemma blocks_spec kvs px py : ∀ b es i safe seg, (b * kvs <= length es)%nat → tol2 <= safe → ∃ r s, safety_blocks kvs b px py es i safe seg = Some (r, s) ∧
  ((r = safe ∧ s = seg ∧ ∀ e, In e (take (b * kvs) es) → safe <= edge_ssq px py e) ∨
   (∃ k e, es !! k = Some e ∧ (k < b * kvs)%nat ∧ s = (i + Z.of_nat k)%Z ∧ edge_ssq px py e < safe ∧
     (∀ k' e', (k' < k)%nat → es !! k' = Some e' → edge_ssq px py e < edge_ssq px py e') ∧
     ((tol2 <= edge_ssq px py e ∧ r = edge_ssq px py e ∧ ∀ e', In e' (take (b * kvs) es) → edge_ssq px py e <= edge_ssq px py e') ∨
      (edge_ssq px py e < tol2 ∧ r = 0)))).
Proof.
  induction b as [|b IH]; intros es i safe seg Hl Hs; cbn [safety_blocks].
  - exists safe, seg. split; [done|]. left. split; [done|]. split; [done|]. intros e He. rewrite Nat.mul_0_l in He. done.
  - destruct (Nat.ltb_spec (length es) kvs) as [Hk|Hk]; [nia|].
    assert (Tk : ∀ x, In x (take (S b * kvs) es) ↔ In x (take kvs es) ∨ In x (take (b * kvs) (drop kvs es))).
    { intros x. rewrite <- in_app_iff. assert (E : take kvs es ++ take (b * kvs) (drop kvs es) = take (S b * kvs) es).
      { rewrite take_drop_commute. replace (S b * kvs)%nat with (kvs + b * kvs)%nat by lia.
        replace (take kvs es) with (take kvs (take (kvs + b * kvs) es)) by (rewrite take_take; f_equal; lia). apply take_drop. }
      by rewrite E. }
    assert (Ds : ∀ k' e', es !! k' = Some e' → (k' < kvs)%nat ∧ In e' (take kvs es) ∨ (kvs <= k')%nat ∧ drop kvs es !! (k' - kvs)%nat = Some e').
    { intros k' e' E. destruct (decide (k' < kvs)%nat); [left|right]; (split; [lia|]).
      - apply elem_of_list_In, elem_of_list_lookup. exists k'. by rewrite lookup_take by lia.
      - rewrite lookup_drop. replace (kvs + (k' - kvs))%nat with k' by lia. done. }
    pose proof (lanes_spec px py (take kvs es) i safe seg) as L. destruct (safety_lanes px py (take kvs es) i safe seg) as [r s].
    assert (H0 : 0 <= tol2) by (pose proof kTolerance_pos; nra).
    destruct L as [(-> & -> & Ha)|(k & e & E1 & E2 & E3 & E4 & E5 & E6)].
    + rewrite Rabs_pos_eq by lra. destruct (rltb_spec safe tol2); [lra|].
      destruct (IH (drop kvs es) (i + Z.of_nat kvs)%Z safe seg) as (r & s & E & [(-> & -> & Hb)|(k & e & E1 & Ek & E2 & E3 & E4 & E5)]); [rewrite drop_length; lia|done| |].
      * exists safe, seg. split; [done|]. left. split; [done|]. split; [done|]. intros x Hx. apply Tk in Hx as [Hx|Hx]; [by apply Ha|by apply Hb].
      * exists r, s. split; [done|]. right. exists (kvs + k)%nat, e. rewrite lookup_drop in E1. split; [done|]. split; [lia|]. split; [lia|]. split; [done|]. split.
        -- intros k' e' Hk' He'. apply Ds in He' as [[_ Hi]|[Hk2 Hi]]; [specialize (Ha _ Hi); lra|]. apply (E4 (k' - kvs)%nat); [lia|done].
        -- destruct E5 as [(E5 & E6 & E7)|E5]; [|by right]. left. split; [done|]. split; [done|]. intros x Hx. apply Tk in Hx as [Hx|Hx]; [specialize (Ha _ Hx); lra|by apply E7].
    + assert (Hkk : (k < kvs)%nat) by (apply lookup_lt_Some in E1; rewrite take_length in E1; lia).
      rewrite lookup_take in E1 by done.
      assert (Eb : ∀ k' e', (k' < k)%nat → es !! k' = Some e' → edge_ssq px py e < edge_ssq px py e').
      { intros k' e' H1 H2. apply (E6 k'); [done|]. by rewrite lookup_take by lia. }
      subst r. pose proof (ssq_nonneg px py e). rewrite Rabs_pos_eq by done. destruct (rltb_spec (edge_ssq px py e) tol2) as [Ht|Ht].
      * exists 0, s. split; [done|]. right. exists k, e. split; [done|]. split; [lia|]. split; [done|]. split; [done|]. split; [done|]. by right.
      * destruct (IH (drop kvs es) (i + Z.of_nat kvs)%Z (edge_ssq px py e) s) as (r & s' & E & [(-> & -> & Hb)|(k2 & e2 & F1 & Fk & F2 & F3 & F4 & F5)]); [rewrite drop_length; lia|lra| |].
        -- exists (edge_ssq px py e), s. split; [done|]. right. exists k, e. split; [done|]. split; [lia|]. split; [done|]. split; [done|]. split; [done|]. left. split; [lra|]. split; [done|].
           intros x Hx. apply Tk in Hx as [Hx|Hx]; [by apply E5|by apply Hb].
        -- exists r, s'. split; [done|]. right. exists (kvs + k2)%nat, e2. rewrite lookup_drop in F1. split; [done|]. split; [lia|]. split; [lia|]. split; [lra|]. split.
           ++ intros k' e' Hk' He'. apply Ds in He' as [[_ Hi]|[Hk2 Hi]]; [specialize (E5 _ Hi); lra|]. apply (F4 (k' - kvs)%nat); [lia|done].
           ++ destruct F5 as [(F5 & F6 & F7)|F5]; [|by right]. left. split; [done|]. split; [done|]. intros x Hx. apply Tk in Hx as [Hx|Hx]; [specialize (E5 _ Hx); lra|by apply F7].
Qed.
